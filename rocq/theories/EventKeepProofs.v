(** Windows of a log restarted with an old copy of its structure. *)
From Coq Require Import ZifyBool.
From Verif Require Import Base BaseLemmas EventLogModel EventLogSpec EventLogSystem EventLogProofs.
From Verif Require Import EventKeepSpec EventKeepSystem.

Section E.
Variables (m es : Z).
Hypothesis Hm : 0 < m <= INT_MAX.
Hypothesis Hes : 0 <= es.

Lemma inv_weaken : forall v v' s ev, (v' <= v \/ v' <= 0) -> inv m es v s ev -> inv m es v' s ev.
Proof.
  intros v v' [sl l] ev Hv (I1 & I2 & I3 & I4 & I5 & I6 & I7). unfold inv. repeat (split; [assumption|]).
  intros k Hk Hkv. apply I7; lia.
Qed.

Lemma save_inv : forall v s ev e, v <= m -> zlen e = es -> inv m es v s ev ->
  inv m es (Z.min m (v + 1)) (fst (lstep s (LSave e))) (ev ++ [e]).
Proof.
  intros v s ev e Hv He HI.
  assert (H0 : inv m es 0 s ev) by (apply (inv_weaken v); [lia|exact HI]).
  destruct (step_inv m es Hm 0 s ev (LSave e) ltac:(lia) He ltac:(left; lia) H0) as (HS & _).
  destruct s as [sl l]. destruct HI as (I1 & I2 & I3 & I4 & I5 & I6 & I7).
  assert (ES : fst (fst (lstep (sl, l) (LSave e))) = upd sl (Z.to_nat (zlen ev mod m)) e).
  { unfold lstep, new_event. cbn [fst snd save_of event_of Z.eqb]. rewrite I5.
    destruct (max_events l <=? _); reflexivity. }
  destruct (fst (lstep (sl, l) (LSave e))) as [sl' l']. cbn [fst] in ES. subst sl'.
  cbn [saved flat_map app] in HS. destruct HS as (J1 & J2 & J3 & J4 & J5 & J6 & _).
  unfold inv. repeat (split; [assumption|]). intros k Hk Hkv. rewrite zlen_app1 in *.
  pose proof (zlen_nonneg _ ev). pose proof (Z.mod_pos_bound k m ltac:(lia)). pose proof (Z.mod_pos_bound (zlen ev) m ltac:(lia)).
  rewrite nth_error_app. destruct (Z.eq_dec k (zlen ev)) as [->|Hne].
  - rewrite nth_error_upd_eq by (unfold zlen in *; lia). unfold zlen.
    rewrite Nat2Z.id, Nat.ltb_irrefl, Nat.sub_diag. reflexivity.
  - rewrite nth_error_upd_neq.
    + rewrite I7 by lia. destruct (Nat.ltb_spec (Z.to_nat k) (length ev)); [reflexivity|unfold zlen in *; lia].
    + intros E. assert (k mod m = zlen ev mod m) by lia. apply Hne. apply (mod_inj m Hm); lia.
Qed.

Lemma torn_inv : forall v s ev e c g, v <= m -> lop_ok es (LTorn e c g) -> inv m es v s ev ->
  inv m es (Z.min (m - 1) v) (fst (lstep s (LTorn e c g))) ev.
Proof.
  intros v s ev e c g Hv Ho HI.
  assert (H0 : inv m es (Z.max 0 (Z.min (m - 1) v)) s ev) by (apply (inv_weaken v); [lia|exact HI]).
  destruct (step_inv m es Hm (Z.max 0 (Z.min (m - 1) v)) s ev (LTorn e c g) ltac:(lia) Ho ltac:(left; lia) H0) as (HS & _).
  cbn [saved flat_map app] in HS. rewrite app_nil_r in HS. eapply inv_weaken; [|exact HS]. lia.
Qed.

(** The copy holds the structure of a prefix of the events that count. *)
Definition kinv (s : kept) (k : keep) : Prop :=
  let '(slots, l, c) := s in
  0 <= ahead k /\ inv m es (m - ahead k) (slots, l) (events k) /\
  (exists rest, events k = copied k ++ rest) /\
  max_events c = m /\ event_size c = es /\ next_position c = zlen (copied k) mod m /\
  full_circle c = (m <=? zlen (copied k)).

Lemma kstep_inv : forall s k o, kop_ok es o -> kinv s k -> kinv (kstep s o) (keep_step k o).
Proof.
  intros [[sl l] c] [ev cp a] o Ho (H1 & H2 & (rest & H3) & H4 & H5 & H6 & H7). cbn [ahead events copied] in *.
  destruct o as [[e|e x|e x g]| |]; cbn [kstep keep_step kop_ok lop_ok events copied ahead] in *.
  - pose proof (save_inv (m - a) _ _ e ltac:(lia) Ho H2) as HS.
    destruct (fst (lstep (sl, l) (LSave e))) as [sl' l'].
    unfold kinv. cbn [events copied ahead]. split; [lia|]. split.
    { eapply inv_weaken; [|exact HS]. lia. }
    split; [exists (rest ++ [e]); rewrite H3; now rewrite app_assoc|]. auto.
  - destruct (step_inv m es Hm 0 (sl, l) ev (LFail e x) ltac:(lia) Ho ltac:(left; lia)) as (_ & _ & HF).
    { eapply inv_weaken; [|exact H2]. lia. }
    rewrite (HF e x eq_refl). unfold kinv. cbn [events copied ahead]. split; [lia|]. split; [exact H2|].
    split; [now exists rest|]. auto.
  - pose proof (torn_inv (m - a) _ _ e x g ltac:(lia) Ho H2) as HS.
    destruct (fst (lstep (sl, l) (LTorn e x g))) as [sl' l'].
    unfold kinv. cbn [events copied ahead]. split; [lia|]. split.
    { eapply inv_weaken; [|exact HS]. lia. }
    split; [now exists rest|]. auto.
  - unfold kinv. cbn [events copied ahead]. split; [lia|]. split; [exact H2|].
    split; [exists []; now rewrite app_nil_r|]. destruct H2 as (I1 & I2 & I3 & I4 & I5 & I6 & I7). auto.
  - unfold kinv. cbn [events copied ahead].
    assert (HL : zlen ev = zlen cp + zlen rest) by (rewrite H3; unfold zlen; rewrite app_length; lia).
    pose proof (zlen_nonneg _ rest). split; [lia|]. split.
    { destruct H2 as (I1 & I2 & I3 & I4 & I5 & I6 & I7). unfold inv. repeat (split; [assumption|]).
      intros k Hk Hkv. rewrite I7 by lia. rewrite H3, nth_error_app.
      destruct (Nat.ltb_spec (Z.to_nat k) (length cp)); [reflexivity|unfold zlen in *; lia]. }
    split; [exists []; now rewrite app_nil_r|]. auto.
Qed.

Lemma krun_inv : forall slots h, slots_ok m es slots -> Forall (kop_ok es) h ->
  kinv (krun m es slots h) (keep_of h).
Proof.
  intros slots h Hs Hh. unfold krun, keep_of.
  assert (H0 : kinv (fresh m es slots, snd (fresh m es slots)) (mkKeep [] [] 0)).
  { pose proof (fresh_inv m es Hm m slots Hs) as HI. unfold fresh in *. unfold kinv. cbn [events copied ahead snd].
    split; [lia|]. split; [eapply inv_weaken; [|exact HI]; lia|]. split; [now exists []|].
    destruct HI as (I1 & I2 & I3 & I4 & I5 & I6 & I7). auto. }
  revert H0. generalize (fresh m es slots, snd (fresh m es slots)), (mkKeep [] [] 0).
  induction h as [|o h IH]; intros s k HI; [exact HI|]. apply Forall_cons_iff in Hh as [Ho Hh].
  cbn [fold_left]. apply IH; [exact Hh|]. now apply kstep_inv.
Qed.

Lemma keep_l : forall slots h buf number jump, slots_ok m es slots -> Forall (kop_ok es) h ->
  sz number -> sz jump -> number + jump < 2 ^ 64 -> sz (zlen buf) ->
  let s := krun m es slots h in
  let k := keep_of h in
  let w := window m (events k) number jump in
  total_events (snd (fst s)) = Z.min m (zlen (events k)) /\
  (Z.min (number + jump) (zlen (events k)) <= m - ahead k -> zlen w * es <= zlen buf ->
   exists reqs, kload s buf number jump = Done (reqs, concat w ++ skipn (length (concat w)) buf, zlen w)).
Proof.
  intros slots h buf number jump Hs Hh Hn Hj Hsum Hb s k w.
  pose proof (krun_inv slots h Hs Hh) as HI. fold s in HI. fold k in HI. clearbody s k.
  destruct s as [[sl l] c]. destruct HI as (H1 & H2 & _). cbn [fst snd kload].
  split; [exact (total_eq m es Hm _ _ _ _ H2) || exact (total_eq _ _ _ _ _ _ H2)|].
  intros Hc Hroom.
  destruct (load_l m es Hm Hes (m - ahead k) sl l (events k) no_fault buf number jump H2 ltac:(discriminate) Hn Hj Hb Hsum)
    as ([[reqs out] res] & E & R); [unfold sz in *; lia|exact Hroom|].
  exists reqs. rewrite E. clear E. unfold load_result in R. cbv zeta in R. fold w in R. cbn [no_fault] in R.
  destruct R as (_ & _ & _ & R). destruct reqs as [|[n q0] [|q [|q' reqs]]].
  - destruct R as (R1 & -> & ->). assert (Ew : w = []) by (apply window_beyond; lia). rewrite Ew. reflexivity.
  - destruct R as [-> ->]. reflexivity.
  - destruct R as (_ & _ & -> & ->). reflexivity.
  - destruct R.
Qed.
End E.
