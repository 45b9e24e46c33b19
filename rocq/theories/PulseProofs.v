(** Proofs about the pulse counter. *)
From Coq Require Import ZifyBool.
From Verif Require Import Base BaseLemmas Loop PulseModel PulseSpec PulseSystem.
From Verif Require DebounceModel DebounceProofs.

Section P.
Variables (W : nat) (d : Z).
Notation N := (Z.of_nat W).
Hypothesis Hd : 0 <= d < 2 ^ N.

Lemma PNTH_testbit : forall x i, 0 <= i -> PNTH x i = b2z (Z.testbit x i).
Proof. exact DebounceProofs.NTH_testbit. Qed.

Lemma PSET_bits : forall x i b j, 0 <= x < 2 ^ N -> 0 <= i < N -> 0 <= j ->
  Z.testbit (PSET_NTH W x i (b2z b)) j = if j =? i then b else Z.testbit x j.
Proof.
  intros x i b j Hx Hi Hj.
  pose proof (DebounceProofs.SET_NTH_bits W x i (b2z b) j Hx Hi Hj) as H.
  unfold DebounceModel.SET_NTH in H. rewrite DebounceProofs.b2z_BOOL in H. exact H.
Qed.

Lemma PSET_range : forall x i b, 0 <= x < 2 ^ N -> 0 <= i < N -> 0 <= PSET_NTH W x i (b2z b) < 2 ^ N.
Proof.
  intros x i b Hx Hi.
  pose proof (DebounceProofs.SET_NTH_range W x i (b2z b) Hx Hi) as H.
  unfold DebounceModel.SET_NTH in H. rewrite DebounceProofs.b2z_BOOL in H. exact H.
Qed.

Definition wf (p : pfilter) : Prop :=
  0 <= pold p < 2 ^ N /\ length (filters p) = W /\ length (pcount p) = W /\
  (forall i, 0 <= i < N -> 0 <= nth (Z.to_nat i) (filters p) 0 < 2 ^ N).

(** Level, filter counter and pulse count of channel [i]. *)
Definition st (p : pfilter) (i : Z) : bool * Z * Z :=
  (Z.testbit (pold p) i, nth (Z.to_nat i) (filters p) 0, nth (Z.to_nat i) (pcount p) 0).

Definition cdeb (s : bool * Z) (b : bool) : bool * Z :=
  let (l, c) := s in
  if eqb b l then (l, 0)
  else let c' := if 0 <? c then c - 1 else d in if c' =? 0 then (b, 0) else (l, c').

Definition cpulse (high : bool) (s : bool * Z * Z) (b : bool) : bool * Z * Z :=
  let (lc, n) := s in
  let lc' := cdeb lc b in
  (lc', if counted high (fst lc) (fst lc') then wrap N (n + 1) else n).

Lemma b2z_inj : forall a b, b2z a = b2z b -> a = b.
Proof. now intros [] []. Qed.

Definition cedge (high : bool) (s : bool * Z * Z) (b : bool) : bool :=
  counted high (fst (fst s)) (fst (cdeb (fst s) b)).

Lemma body_spec : forall high p x ch i, wf p -> ptype p = type_of high -> 0 <= i < N ->
  exists p', pulse_body W x d (p, ch) i = Done (p', if cedge high (st p i) (Z.testbit x i) then 1 else ch) /\
    wf p' /\ ptype p' = type_of high /\
    st p' i = cpulse high (st p i) (Z.testbit x i) /\
    (forall j, 0 <= j -> j <> i -> st p' j = st p j).
Proof.
  intros high p x ch i (W1 & W2 & W3 & W4) Ht Hi. unfold pulse_body.
  rewrite !PNTH_testbit by lia. unfold cedge, st, cpulse, cdeb, PULSE_NUM. cbn [fst snd].
  set (b := Z.testbit x i). set (l := Z.testbit (pold p) i). set (c := nth (Z.to_nat i) (filters p) 0).
  assert (Hc : 0 <= c < 2 ^ N) by (apply W4; lia).
  assert (HZ : forall y, zset (filters p) i y = Done (upd (filters p) (Z.to_nat i) y))
    by (intros y; apply zset_ok; unfold zlen; lia).
  assert (HZc : forall y, zset (pcount p) i y = Done (upd (pcount p) (Z.to_nat i) y))
    by (intros y; apply zset_ok; unfold zlen; lia).
  assert (HG : zget (filters p) i = Done c) by (apply zget_ok; unfold zlen; lia).
  assert (HGc : zget (pcount p) i = Done (nth (Z.to_nat i) (pcount p) 0)) by (apply zget_ok; unfold zlen; lia).
  assert (HWF : forall y o cs, 0 <= o < 2 ^ N -> 0 <= y < 2 ^ N -> length cs = W ->
    wf (mkPf (ptype p) o (upd (filters p) (Z.to_nat i) y) cs)).
  { intros y o cs Ho Hy Hcs. split; [exact Ho|]. cbn [filters pcount]. split; [now rewrite upd_length|].
    split; [exact Hcs|]. intros j Hj. destruct (Z.eq_dec j i) as [->|]; [rewrite nth_upd_eq; lia|].
    rewrite nth_upd_neq by lia. apply W4; lia. }
  destruct (eqb b l) eqn:Eb.
  - apply eqb_prop in Eb. rewrite Eb, Z.eqb_refl, HZ. cbn [obind fst].
    assert (Ec : counted high l l = false) by (unfold counted; destruct high, l; reflexivity). rewrite Ec.
    eexists. split; [reflexivity|]. split; [apply HWF; try assumption; lia|]. split; [exact Ht|].
    cbn [pold filters pcount]. split.
    + rewrite nth_upd_eq by lia. reflexivity.
    + intros j Hj Hne. rewrite nth_upd_neq by lia. reflexivity.
  - apply eqb_false_iff in Eb.
    destruct (Z.eqb_spec (b2z b) (b2z l)) as [E|_]; [apply b2z_inj in E; contradiction|].
    rewrite HG. cbn [obind]. cbv zeta.
    assert (E : (if 0 <? c then wrap N (c - 1) else wrap N d) = if 0 <? c then c - 1 else d).
    { destruct (Z.ltb_spec 0 c); apply wrap_small; lia. }
    rewrite E. set (c' := if 0 <? c then c - 1 else d).
    assert (Hc' : 0 <= c' < 2 ^ N) by (unfold c'; destruct (Z.ltb_spec 0 c); lia).
    rewrite HZ. cbn [obind].
    destruct (Z.eqb_spec c' 0) as [E0|].
    + cbn [fst].
      assert (Ee : match ptype p with
                   | COUNT_HIGH_PULSE => (b2z l =? 1) && (b2z b =? 0)
                   | COUNT_LOW_PULSE => (b2z l =? 0) && (b2z b =? 1)
                   end = counted high l b).
      { rewrite Ht. unfold type_of, counted. destruct high, l, b; reflexivity. }
      rewrite Ee. destruct (counted high l b) eqn:Ec.
      * rewrite HGc. cbn [obind]. rewrite HZc. cbn [obind]. eexists. split; [reflexivity|].
        split; [apply HWF; [apply PSET_range; lia|lia|now rewrite upd_length]|]. split; [exact Ht|].
        cbn [pold filters pcount]. split.
        -- rewrite PSET_bits by lia. rewrite Z.eqb_refl, !nth_upd_eq by lia. now rewrite E0.
        -- intros j Hj Hne. rewrite PSET_bits by lia. destruct (Z.eqb_spec j i); [contradiction|].
           now rewrite !nth_upd_neq by lia.
      * cbn [obind]. eexists. split; [reflexivity|].
        split; [apply HWF; [apply PSET_range; lia|lia|exact W3]|]. split; [exact Ht|].
        cbn [pold filters pcount]. split.
        -- rewrite PSET_bits by lia. rewrite Z.eqb_refl, !nth_upd_eq by lia. now rewrite E0.
        -- intros j Hj Hne. rewrite PSET_bits by lia. destruct (Z.eqb_spec j i); [contradiction|].
           now rewrite !nth_upd_neq by lia.
    + cbn [fst].
      assert (Ec : counted high l l = false) by (unfold counted; destruct high, l; reflexivity). rewrite Ec.
      eexists. split; [reflexivity|]. split; [apply HWF; try assumption; lia|]. split; [exact Ht|].
      cbn [pold filters pcount]. split.
      * rewrite nth_upd_eq by lia. reflexivity.
      * intros j Hj Hne. rewrite nth_upd_neq by lia. reflexivity.
Qed.

Lemma loop_spec : forall high x n k p ch, Z.of_nat n + k = N -> 0 <= k -> wf p -> ptype p = type_of high ->
  exists p', for_up n k (pulse_body W x d) (p, ch) =
      Done (p', if existsb (fun j => cedge high (st p (Z.of_nat j)) (Z.testbit x (Z.of_nat j))) (seq (Z.to_nat k) n)
                then 1 else ch) /\
    wf p' /\ ptype p' = type_of high /\
    (forall j, 0 <= j < k -> st p' j = st p j) /\
    (forall j, k <= j < N -> st p' j = cpulse high (st p j) (Z.testbit x j)).
Proof.
  intros high x. induction n as [|n IH]; intros k p ch Hn Hk Hp Ht; cbn [for_up].
  - exists p. split; [reflexivity|]. split; [exact Hp|]. split; [exact Ht|]. split; [reflexivity|]. intros; lia.
  - destruct (body_spec high p x ch k Hp Ht ltac:(lia)) as (p1 & E1 & Hp1 & Ht1 & S1 & S2).
    rewrite E1. cbn [obind].
    destruct (IH (k + 1) p1 (if cedge high (st p k) (Z.testbit x k) then 1 else ch)) as (p' & E & Hp' & Ht' & L1 & L2);
      try assumption; try lia.
    exists p'. split; [|split; [exact Hp'|split; [exact Ht'|split]]].
    + rewrite E. f_equal. f_equal. cbn [seq existsb]. rewrite Z2Nat.id by lia.
      replace (Z.to_nat (k + 1)) with (S (Z.to_nat k)) by lia.
      assert (Ee : forall m, (Z.to_nat k < m)%nat -> forall r,
        existsb (fun j => cedge high (st p1 (Z.of_nat j)) (Z.testbit x (Z.of_nat j))) (seq m r) =
        existsb (fun j => cedge high (st p (Z.of_nat j)) (Z.testbit x (Z.of_nat j))) (seq m r)).
      { intros m Hm r. revert m Hm. induction r as [|r IHr]; intros m Hm; [reflexivity|].
        cbn [seq existsb]. rewrite IHr by lia. rewrite S2 by lia. reflexivity. }
      rewrite Ee by lia. set (e := existsb _ _).
      destruct (cedge high (st p k) (Z.testbit x k)); cbn [orb]; [destruct e; reflexivity|reflexivity].
    + intros j Hj. rewrite L1 by lia. apply S2; lia.
    + intros j Hj. destruct (Z.eq_dec j k) as [->|].
      * rewrite L1 by lia. exact S1.
      * rewrite L2 by lia. now rewrite S2 by lia.
Qed.

Lemma filter_spec : forall high p x, wf p -> ptype p = type_of high ->
  exists p', pulse_filter W p x d =
      Done (p', b2z (existsb (fun j => cedge high (st p (Z.of_nat j)) (Z.testbit x (Z.of_nat j))) (seq 0 W))) /\
    wf p' /\ ptype p' = type_of high /\
    (forall j, 0 <= j < N -> st p' j = cpulse high (st p j) (Z.testbit x j)).
Proof.
  intros high p x Hp Ht. unfold pulse_filter.
  destruct (loop_spec high x W 0 p 0) as (p' & E & H1 & H2 & _ & H3); try assumption; try lia.
  exists p'. split; [rewrite E; reflexivity|]. split; [exact H1|]. split; [exact H2|]. intros; apply H3; lia.
Qed.

Lemma clear_spec : forall p k, wf p -> exists p', pulse_clear W p k = Done p' /\ wf p' /\
  ptype p' = ptype p /\ pold p' = pold p /\ filters p' = filters p /\
  forall j, 0 <= j < N -> st p' j = (fst (st p j), if k =? j then 0 else snd (st p j)).
Proof.
  intros p k (W1 & W2 & W3 & W4). unfold pulse_clear, PULSE_NUM.
  destruct (Z.ltb_spec k 0); [|destruct (Z.leb_spec N k)]; cbn [orb].
  1,2: exists p; repeat (split; [reflexivity || (repeat split; assumption || (apply W1) || apply W4; assumption)|]);
    intros j Hj; destruct (Z.eqb_spec k j); [lia|reflexivity].
  rewrite zset_ok by (unfold zlen; lia). cbn [obind]. eexists. split; [reflexivity|].
  split; [split; [exact W1|]; split; [exact W2|]; split; [cbn [pcount]; now rewrite upd_length|exact W4]|].
  repeat (split; [reflexivity|]). intros j Hj. unfold st; cbn [pold filters pcount fst snd].
  destruct (Z.eqb_spec k j) as [->|]; [now rewrite nth_upd_eq by lia|]. now rewrite nth_upd_neq by lia.
Qed.

Lemma init_loop : forall n k p, Z.of_nat n + k = N -> 0 <= k -> wf p ->
  exists p', for_up n k (pulse_clear W) p = Done p' /\ wf p' /\
    ptype p' = ptype p /\ pold p' = pold p /\ filters p' = filters p /\
    forall j, 0 <= j < N -> st p' j = (fst (st p j), if k <=? j then 0 else snd (st p j)).
Proof.
  induction n as [|n IH]; intros k p Hn Hk Hp; cbn [for_up].
  - exists p. repeat (split; [reflexivity || assumption|]). intros j Hj.
    destruct (Z.leb_spec k j); [lia|]. reflexivity.
  - destruct (clear_spec p k Hp) as (p1 & E1 & Hp1 & T1 & O1 & F1 & S1). rewrite E1. cbn [obind].
    destruct (IH (k + 1) p1) as (p2 & E2 & Hp2 & T2 & O2 & F2 & S2); try assumption; try lia.
    exists p2. split; [exact E2|]. split; [exact Hp2|]. split; [congruence|]. split; [congruence|].
    split; [congruence|]. intros j Hj. rewrite S2, S1 by lia. cbn [fst snd]. f_equal.
    destruct (Z.leb_spec (k + 1) j), (Z.leb_spec k j), (Z.eqb_spec k j); try lia; reflexivity.
Qed.

Lemma init_spec : forall high p init, mem_ok W p -> 0 <= init < 2 ^ N ->
  exists p', pulse_filter_init W p (type_of high) init = Done p' /\ wf p' /\ ptype p' = type_of high /\
    forall j, 0 <= j < N -> st p' j = (Z.testbit init j, nth (Z.to_nat j) (filters p) 0, 0).
Proof.
  intros high p init (M1 & M2 & M3) Hi. unfold pulse_filter_init.
  destruct (init_loop W 0 (mkPf (type_of high) init (filters p) (pcount p))) as (p' & E & Hp & T & O & F & S); try lia.
  - split; [exact Hi|]. split; [exact M1|]. split; [exact M2|]. intros i Hin. cbn [filters].
    rewrite Forall_forall in M3. apply M3. apply nth_In. lia.
  - exists p'. split; [exact E|]. split; [exact Hp|]. split; [exact T|]. intros j Hj. rewrite S by lia.
    unfold st; cbn [pold filters pcount fst snd]. destruct (Z.leb_spec 0 j); [|lia]. reflexivity.
Qed.

(** The counter automaton over a history. *)
Definition cop (high : bool) (i : Z) (s : bool * Z * Z) (o : pop) : bool * Z * Z :=
  match o with
  | PFilter x => cpulse high s (Z.testbit x i)
  | PClear j => (fst s, if j =? i then 0 else snd s)
  end.

Lemma run_spec : forall high h p, wf p -> ptype p = type_of high ->
  exists p', prun W d p h = Done p' /\ wf p' /\ ptype p' = type_of high /\
    forall j, 0 <= j < N -> st p' j = fold_left (cop high j) h (st p j).
Proof.
  intros high. induction h as [|o h IH]; intros p Hp Ht; cbn [prun].
  - exists p. repeat (split; [reflexivity || assumption|]). reflexivity.
  - assert (HS : exists p1 r, pcall W d p o = Done (p1, r) /\ wf p1 /\ ptype p1 = type_of high /\
      forall j, 0 <= j < N -> st p1 j = cop high j (st p j) o).
    { destruct o as [x|k]; cbn [pcall cop].
      - destruct (filter_spec high p x Hp Ht) as (p1 & E & H1 & H2 & H3). eauto 8.
      - destruct (clear_spec p k Hp) as (p1 & E & H1 & H2 & _ & _ & H3). rewrite E. cbn [obind].
        exists p1, 0. split; [reflexivity|]. split; [exact H1|]. split; [congruence|exact H3]. }
    destruct HS as (p1 & r & E1 & Hp1 & Ht1 & S1). rewrite E1. cbn [obind].
    destruct (IH p1 Hp1 Ht1) as (p' & E & Hp' & Ht' & S). exists p'.
    split; [exact E|]. split; [exact Hp'|]. split; [exact Ht'|]. intros j Hj. rewrite S, S1 by lia. reflexivity.
Qed.

Lemma history_spec : forall high p init h, mem_ok W p -> 0 <= init < 2 ^ N ->
  exists p', phistory W d p high init h = Done p' /\ wf p' /\ ptype p' = type_of high /\
    forall j, 0 <= j < N ->
      st p' j = fold_left (cop high j) h (Z.testbit init j, nth (Z.to_nat j) (filters p) 0, 0).
Proof.
  intros high p init h Hm Hi. unfold phistory.
  destruct (init_spec high p init Hm Hi) as (p1 & E1 & H1 & T1 & S1). rewrite E1. cbn [obind].
  destruct (run_spec high h p1 H1 T1) as (p2 & E2 & H2 & T2 & S2).
  exists p2. split; [exact E2|]. split; [exact H2|]. split; [exact T2|]. intros j Hj. now rewrite S2, S1 by lia.
Qed.

(** Counter automaton against the reference. *)
Definition crel (s : bool * Z * Z) (r : bool * Z * Z) : Prop :=
  let '(l, c, n) := s in let '(l', run, n') := r in
  l = l' /\ 0 <= run <= d /\ c = (if run =? 0 then 0 else d + 1 - run) /\ n = n' mod 2 ^ N.

Lemma cdeb_rel : forall l c run b, 0 <= run <= d -> c = (if run =? 0 then 0 else d + 1 - run) ->
  fst (cdeb (l, c) b) = fst (debounced d (l, run) b) /\
  0 <= snd (debounced d (l, run) b) <= d /\
  snd (cdeb (l, c) b) = (if snd (debounced d (l, run) b) =? 0 then 0 else d + 1 - snd (debounced d (l, run) b)).
Proof.
  intros l c run b Hr Hc. unfold cdeb, debounced. destruct (eqb b l); cbn [fst snd].
  - split; [reflexivity|]. split; [lia|reflexivity].
  - cbv zeta. subst c. destruct (Z.eqb_spec run 0) as [->|].
    + cbn [Z.ltb Z.compare]. destruct (Z.eqb_spec 0 d) as [<-|]; cbn [fst snd Z.eqb].
      * split; [reflexivity|]. split; [lia|reflexivity].
      * destruct (Z.eqb_spec d 0); [lia|]. cbn [fst snd]. split; [reflexivity|]. split; [lia|].
        destruct (Z.eqb_spec (0 + 1) 0); lia.
    + destruct (Z.ltb_spec 0 (d + 1 - run)); [|lia].
      destruct (Z.eqb_spec run d), (Z.eqb_spec (d + 1 - run - 1) 0); try lia; cbn [fst snd].
      * split; [reflexivity|]. split; [lia|reflexivity].
      * split; [reflexivity|]. split; [lia|]. destruct (Z.eqb_spec (run + 1) 0); lia.
Qed.

Lemma cop_rel : forall high i s r o, crel s r -> crel (cop high i s o) (pulse_step high d i r o).
Proof.
  intros high i [[l c] n] [[l' run] n'] o (-> & Hr & Hc & Hn).
  assert (0 < 2 ^ N) by (apply Z.pow_pos_nonneg; lia).
  destruct o as [x|j]; cbn [cop pulse_step].
  - unfold cpulse. destruct (cdeb_rel l' c run (Z.testbit x i) Hr Hc) as (E1 & E2 & E3).
    destruct (cdeb (l', c) (Z.testbit x i)) as [l1 c1]. destruct (debounced d (l', run) (Z.testbit x i)) as [l2 r2].
    cbn [fst snd] in *. subst l2. unfold crel. split; [reflexivity|]. split; [exact E2|]. split; [exact E3|].
    destruct (counted high l' l1); [|exact Hn]. rewrite Hn. unfold wrap. apply Z.add_mod_idemp_l. lia.
  - cbn [fst snd]. unfold crel. split; [reflexivity|]. split; [exact Hr|]. split; [exact Hc|].
    destruct (j =? i); [now rewrite Z.mod_0_l by lia|exact Hn].
Qed.

Lemma ref_rel : forall high i h s r, crel s r ->
  crel (fold_left (cop high i) h s) (fold_left (pulse_step high d i) h r).
Proof. induction h as [|o h IH]; intros s r H; [exact H|]. cbn. apply IH. now apply cop_rel. Qed.

Lemma crel_init : forall b, crel (b, 0, 0) (b, 0, 0).
Proof. intros. unfold crel. assert (0 < 2 ^ N) by (apply Z.pow_pos_nonneg; lia). rewrite Z.mod_0_l by lia. cbn. lia. Qed.

(** First sample agreeing with the initial level: the memory content is forgotten. *)
Lemma cop_forget : forall high x i init c, Z.testbit x i = Z.testbit init i ->
  cop high i (Z.testbit init i, c, 0) (PFilter x) = cop high i (Z.testbit init i, 0, 0) (PFilter x).
Proof. intros. cbn [cop]. unfold cpulse, cdeb. rewrite H, eqb_reflx. reflexivity. Qed.

Lemma observe : forall p i r, wf p -> 0 <= i < N -> crel (st p i) r ->
  pulse_level W p i = b2z (fst (fst r)) /\ pulse_count W p i = Done (swrap N (snd r)).
Proof.
  intros p i [[l run] n] (W1 & W2 & W3 & W4) Hi (R1 & _ & _ & R4).
  unfold pulse_level, pulse_count, PULSE_NUM.
  destruct (Z.ltb_spec i 0); [lia|]. destruct (Z.leb_spec N i); [lia|]. cbn [orb]. cbn [fst snd].
  rewrite PNTH_testbit by lia. split; [now rewrite R1|].
  rewrite (zget_ok _ _ _ 0) by (unfold zlen; lia). cbn [obind]. rewrite R4.
  unfold swrap. cbv zeta. rewrite Z.mod_mod; [reflexivity|].
  assert (0 < 2 ^ N) by (apply Z.pow_pos_nonneg; lia). lia.
Qed.

Lemma pulse_counts_l : forall high p init h i, mem_ok W p -> 0 <= init < 2 ^ N -> 0 <= i < N ->
  (nth (Z.to_nat i) (filters p) 0 = 0 \/
   exists x h', h = PFilter x :: h' /\ Z.testbit x i = Z.testbit init i) ->
  exists p', phistory W d p high init h = Done p' /\
    let r := pulse_ref high d init i h in
    pulse_level W p' i = b2z (fst (fst r)) /\ pulse_count W p' i = Done (swrap N (snd r)).
Proof.
  intros high p init h i Hm Hin Hi Hz.
  destruct (history_spec high p init h Hm Hin) as (p' & E & Hp & _ & S).
  exists p'. split; [exact E|]. cbv zeta. apply observe; try assumption. rewrite S by assumption.
  unfold pulse_ref.
  destruct Hz as [->|(x & h' & -> & Hx)].
  - apply ref_rel. apply crel_init.
  - cbn [fold_left]. rewrite cop_forget by assumption. apply ref_rel. apply cop_rel. apply crel_init.
Qed.

Lemma pulse_return_l : forall high p init h x, mem_ok W p -> 0 <= init < 2 ^ N ->
  Forall (fun c => c = 0) (filters p) ->
  exists p1 p2, phistory W d p high init h = Done p1 /\
    pulse_filter W p1 x d = Done (p2, b2z (any_edge W high d init h x)).
Proof.
  intros high p init h x Hm Hin Hz.
  destruct (history_spec high p init h Hm Hin) as (p1 & E & Hp & Ht & S).
  destruct (filter_spec high p1 x Hp Ht) as (p2 & E2 & _). exists p1, p2. split; [exact E|].
  rewrite E2. f_equal. f_equal. f_equal. unfold any_edge.
  assert (HE : forall j, 0 <= j < N -> cedge high (st p1 j) (Z.testbit x j) =
     counted high (fst (fst (pulse_ref high d init j h)))
       (fst (debounced d (fst (pulse_ref high d init j h)) (Z.testbit x j)))).
  { intros j Hj. rewrite S by assumption.
    assert (H0 : nth (Z.to_nat j) (filters p) 0 = 0).
    { rewrite Forall_forall in Hz. destruct Hm as (M1 & _). apply Hz. apply nth_In. lia. }
    rewrite H0. unfold pulse_ref.
    pose proof (ref_rel high j h _ _ (crel_init (Z.testbit init j))) as HR.
    destruct (fold_left (cop high j) h (Z.testbit init j, 0, 0)) as [[l c] n].
    destruct (fold_left (pulse_step high d j) h (Z.testbit init j, 0, 0)) as [[l' run] n'].
    destruct HR as (-> & Hr & Hc & _). unfold cedge. cbn [fst].
    destruct (cdeb_rel l' c run (Z.testbit x j) Hr Hc) as (E1 & _). now rewrite E1. }
  assert (HL : forall l, (forall k, In k l -> (k < W)%nat) ->
    existsb (fun j => cedge high (st p1 (Z.of_nat j)) (Z.testbit x (Z.of_nat j))) l =
    existsb (fun k => let s := pulse_ref high d init (Z.of_nat k) h in
       counted high (fst (fst s)) (fst (debounced d (fst s) (Z.testbit x (Z.of_nat k))))) l).
  { induction l as [|k l IH]; intros Hk; [reflexivity|]. cbn [existsb]. rewrite IH by (intros; apply Hk; now right).
    rewrite HE; [reflexivity|]. pose proof (Hk k ltac:(now left)). lia. }
  apply HL. intros k Hk. apply in_seq in Hk. lia.
Qed.

End P.
