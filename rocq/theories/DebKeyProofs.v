From Verif Require Import Base BaseLemmas Loop TimeModel TimeSpec DebounceModel DebounceSpec DebounceSystem DebounceProofs
  DebounceVaryProofs KeypadModel KeypadSpec KeypadSystem KeypadProps DebKeySpec DebKeySystem.

(** ** Runs *)

Lemma begins_mono : forall k b l j, (j <= k)%nat -> begins k b l = true -> begins j b l = true.
Proof.
  induction k; intros b l j Hj H. { now replace j with O by lia. }
  destruct j; [reflexivity|]. destruct l as [|x l]; [discriminate|]. cbn in *.
  apply andb_prop in H. destruct H as [H1 H2]. rewrite H1. cbn. apply IHk; [lia|exact H2].
Qed.

Lemma begins_all : forall n b l, begins n b l = true -> (length l >= n)%nat /\ forall x, In x (firstn n l) -> x = b.
Proof.
  induction n; intros b l H. { split; [lia|]. now intros x []. }
  destruct l as [|y l]; [discriminate|]. cbn in H. apply andb_prop in H. destruct H as [H1 H2].
  destruct (IHn b l H2) as [H3 H4]. split; [cbn; lia|]. cbn. intros x [<-|Hx]; [now apply eqb_prop|auto].
Qed.

Lemma begins_repeat : forall n b l, begins n b (repeat b n ++ l) = true.
Proof. induction n; intros; cbn; [reflexivity|]. now rewrite eqb_reflx, IHn. Qed.

(** ** One input *)

Section One.
Variables (W : nat) (d : Z) (v : bool).
Hypothesis Hd : 0 <= d < 2 ^ Z.of_nat W.
Let n := S (Z.to_nat d).

Definition counting (s : input) (past : list bool) : Prop :=
  reading s = settled n v past /\
  exists k, (k < n)%nat /\ begins k (negb (reading s)) past = true /\ begins (S k) (negb (reading s)) past = false /\
    missing s = if (k =? 0)%nat then 0 else d + 1 - Z.of_nat k.

Lemma counting_start : counting (mkInput v 0) [].
Proof. split; [reflexivity|]. exists O. repeat split; cbn; lia. Qed.

Lemma counting_step : forall s past x, counting s past -> counting (sampled W s x d) (x :: past).
Proof using Hd.
  intros s past x (Hr & k & Hk & B1 & B2 & Hm). unfold sampled. destruct (eqb x (reading s)) eqn:E.
  - apply eqb_prop in E. subst x. split; cbn [reading missing].
    + cbn [settled]. destruct (begins n (reading s) (reading s :: past)); [reflexivity|exact Hr].
    + exists O. split; [unfold n; lia|]. split; [reflexivity|]. split; [|reflexivity]. cbn. now destruct (reading s).
  - assert (Ex : x = negb (reading s)) by (destruct x, (reading s); cbn in *; congruence).
    cbv zeta. rewrite Z.mod_small by lia.
    assert (EL : (if missing s =? 0 then d else missing s - 1) = d - Z.of_nat k).
    { rewrite Hm. destruct (Nat.eqb_spec k 0) as [->|]; [cbn; lia|]. destruct (Z.eqb_spec (d + 1 - Z.of_nat k) 0); unfold n in Hk; lia. }
    rewrite EL. assert (EB : begins n x (x :: past) = begins (Z.to_nat d) x past) by (unfold n; cbn; now rewrite eqb_reflx).
    destruct (Z.eqb_spec (d - Z.of_nat k) 0) as [Z0|Z0].
    + split; cbn [reading missing settled].
      * rewrite EB, Ex. replace (Z.to_nat d) with k by lia. now rewrite B1.
      * exists O. split; [unfold n; lia|]. split; [reflexivity|]. split; [|reflexivity]. cbn. now destruct x.
    + split; cbn [reading missing settled].
      * rewrite EB, Ex. destruct (begins (Z.to_nat d) (negb (reading s)) past) eqn:B3; [|exact Hr].
        rewrite (begins_mono (Z.to_nat d) _ past (S k)) in B2; [discriminate|unfold n in Hk; lia|exact B3].
      * exists (S k). split; [unfold n in *; lia|]. subst x. cbn [begins]. rewrite eqb_reflx. cbn [andb].
        split; [exact B1|]. split; [exact B2|]. cbn [Nat.eqb]. lia.
Qed.
End One.

(** ** Words *)

Lemma word_of_bits : forall W g i, 0 <= i -> Z.testbit (word_of W g) i = (i <? Z.of_nat W) && g i.
Proof.
  induction W; intros g i Hi. { cbn. rewrite Z.bits_0. destruct (Z.ltb_spec i 0); [lia|reflexivity]. }
  cbn [word_of]. destruct (g (Z.of_nat W)) eqn:E.
  - rewrite Z.setbit_eqb by lia. destruct (Z.eqb_spec (Z.of_nat W) i) as [<-|].
    + rewrite E. destruct (Z.ltb_spec (Z.of_nat W) (Z.of_nat (S W))); [reflexivity|lia].
    + cbn [orb]. rewrite IHW by lia. destruct (Z.ltb_spec i (Z.of_nat W)), (Z.ltb_spec i (Z.of_nat (S W))); try reflexivity; lia.
  - rewrite IHW by lia. destruct (Z.ltb_spec i (Z.of_nat W)), (Z.ltb_spec i (Z.of_nat (S W))); try reflexivity; try lia.
    replace i with (Z.of_nat W) by lia. now rewrite E.
Qed.

Lemma word_of_nonneg : forall W g, 0 <= word_of W g.
Proof. induction W; intros; cbn; [lia|]. destruct (g (Z.of_nat W)); [apply Z.lor_nonneg; split; [auto|]|auto]. apply Z.shiftl_nonneg. lia. Qed.

(** ** The whole *)

Section Sys.
Variables (I w : Z) (W : nat) (d v click longclick period : Z).
Hypothesis Hd : 0 <= d < 2 ^ Z.of_nat W.

Definition following (f : dfilter) (past : list Z) : Prop :=
  wf W f /\ counts_in W f /\
  forall i, 0 <= i < Z.of_nat W -> counting d (Z.testbit v i) (ist f i) (map (fun y => Z.testbit y i) past).

Lemma polls_krun : forall h f past keys keys' os, following f past ->
  Forall (fun s => 0 <= snd s < 2 ^ Z.of_nat W) h ->
  krun I w keys (pad_ops click longclick period (map Some (cleaned W (S (Z.to_nat d)) v past h))) = Done (keys', os) ->
  exists f' outs, polls I w W d click longclick period f keys h = Done (f', keys', outs) /\ os = map Some outs.
Proof using Hd.
  induction h as [|[t x] h IH]; intros f past keys keys' os (Hf & Hc & Hi) Hh E.
  - cbn in E. injection E as <- <-. exists f, []. split; reflexivity.
  - apply Forall_cons_iff in Hh. destruct Hh as [Hx Hh]. cbn [snd] in Hx.
    destruct (call_vary W f (VFilter x d) Hf Hc Hx) as (f1 & ch & E1 & H1 & H2 & _ & H4). cbn [vcall] in E1.
    assert (F1 : following f1 (x :: past)).
    { split; [exact H1|]. split; [exact H2|]. intros i Hr. rewrite H4 by exact Hr. cbn [vstep map]. apply counting_step; [exact Hd|auto]. }
    assert (EV : debounce_value f1 =
      word_of W (fun i => settled (S (Z.to_nat d)) (Z.testbit v i) (map (fun y => Z.testbit y i) (x :: past)))).
    { apply Z.bits_inj'. intros i Hi0. rewrite word_of_bits by lia. destruct H1 as (_ & R & _). destruct (Z.ltb_spec i (Z.of_nat W)).
      - destruct F1 as (_ & _ & F1). destruct (F1 i) as [F2 _]; [lia|]. rewrite <- F2. reflexivity.
      - apply (inrange_bits W); [exact R|lia]. }
    cbn [polls]. rewrite E1. cbn [obind]. cbn [cleaned] in E. rewrite <- EV in E. unfold pad_ops in E. cbn [map krun] in E.
    destruct (keypad_routine I w keys click longclick period (counter w t) (debounce_value f1)) as [[[[k1 fo] ec] ev]| | |]; try discriminate.
    cbn [obind] in *.
    destruct (krun I w k1 _) as [[k2 os']| | |] eqn:E2 in E; try discriminate. cbn [obind] in E. injection E as <- <-.
    destruct (IH f1 (x :: past) k1 k2 os' F1 Hh E2) as (f' & outs & E3 & ->).
    rewrite E3. cbn [obind]. exists f', ((fo, ec, ev) :: outs). split; reflexivity.
Qed.

Lemma paced_cleaned : forall G n h past l, paced G l (map Some h) -> paced G l (map Some (cleaned W n v past h)).
Proof. induction h as [|[t x] h IH]; intros past l H; cbn in *; [exact H|]. destruct H as [H1 H2]. split; [exact H1|]. now apply IH. Qed.

Lemma started : forall f, length (debounce_count f) = W -> 0 <= v < 2 ^ Z.of_nat W ->
  exists f0, dstart W f v = Done f0 /\ following f0 [].
Proof using Hd.
  intros f Hl Hv. destruct (history_vary W f v [] Hl Hv ltac:(constructor)) as (f1 & E & H1 & H2 & H3).
  unfold vhistory in E. destruct (dstart W f v) as [f0| | |]; try discriminate. cbn in E. injection E as ->.
  exists f1. split; [reflexivity|]. split; [exact H1|]. split; [exact H2|]. intros i Hi. rewrite H3 by exact Hi. cbn. apply (counting_start W).
Qed.
End Sys.

Lemma debkey_l : forall I w click longclick period, 0 < w -> I <= w ->
  0 <= click <= longclick -> longclick < 2 ^ (w - 1) -> 0 <= period < 2 ^ (w - 1) ->
  forall G, 0 < G -> 2 * G <= 2 ^ (w - 1) + (longclick - click) ->
  forall W d f v, 0 <= d < 2 ^ Z.of_nat W -> length (debounce_count f) = W -> 0 <= v < 2 ^ Z.of_nat W ->
  forall ks z rest h, table ks z -> Forall idle ks -> paced G None (map Some h) ->
  Forall (fun s => 0 <= snd s < 2 ^ Z.of_nat W) h ->
  exists f0 f' ks' outs, dstart W f v = Done f0 /\
    polls I w W d click longclick period f0 (ks ++ z :: rest) h = Done (f', ks' ++ z :: rest, outs) /\
    let r := pad_run click longclick period (map bitvalue ks) pad0 (map Some (cleaned W (S (Z.to_nat d)) v [] h)) in
    map Some outs = map (pad_output (map code ks)) (snd r) /\ length ks' = length ks /\
    forall j k, nth_error ks' j = Some k -> keypad_get_key_state k = b2z (shown (fst r) j).
Proof.
  intros I w click longclick period Hw HI H1 H2 H3 G HG HG2 W d f v Hd Hl Hv ks z rest h Ht Hi Hp Hh.
  destruct (started W d v Hd f Hl Hv) as (f0 & E0 & F0).
  destruct (keypad_exact I w click longclick period Hw HI H1 H2 H3 G HG HG2 ks z rest
     (map Some (cleaned W (S (Z.to_nat d)) v [] h)) Ht Hi (paced_cleaned W v G _ h [] None Hp)) as (ks' & E & L & _ & _ & Hs).
  destruct (polls_krun I w W d v click longclick period Hd h f0 [] _ _ _ F0 Hh E) as (f' & outs & E' & Eo).
  exists f0, f', ks', outs. split; [exact E0|]. split; [exact E'|]. cbv zeta. split; [now symmetry|]. split; [exact L|exact Hs].
Qed.

(** ** Noise *)

Lemma no_run_prefix : forall n b l l', no_run n b (l ++ l') -> no_run n b l.
Proof. intros n b l l' H pre mid post E. apply (H pre mid (post ++ l')). rewrite E, <- !app_assoc. reflexivity. Qed.

Lemma begins_rev_split : forall n b l, begins n b l = true -> exists mid, l = mid ++ skipn n l /\ mid = repeat b n.
Proof.
  induction n; intros b l H. { exists []. split; reflexivity. }
  destruct l as [|y l]; [discriminate|]. cbn in H. apply andb_prop in H. destruct H as [H1 H2]. apply eqb_prop in H1. subst y.
  destruct (IHn b l H2) as (mid & E & ->). exists (repeat b (S n)). split; [cbn; now rewrite <- E|reflexivity].
Qed.

(** While no run of the other level is long enough the level stays. *)
Lemma settled_keep : forall n v b p q, (n > 0)%nat -> settled n v (rev p) = b -> (p = [] \/ exists p', p = p' ++ [b]) ->
  no_run n (negb b) q -> settled n v (rev (p ++ q)) = b.
Proof.
  intros n v b p q Hn Hs Hp. induction q as [|x q IH] using rev_ind; intros Hq. { now rewrite app_nil_r. }
  rewrite app_assoc, rev_app_distr. cbn [rev app settled].
  pose proof (IH (no_run_prefix _ _ _ _ Hq)) as IH'. clear IH. destruct (begins n x (x :: rev (p ++ q))) eqn:E; [|exact IH'].
  destruct (bool_dec x b) as [|Nx]; [assumption|]. exfalso. assert (x = negb b) by (destruct x, b; cbn; congruence). subst x.
  destruct (begins_rev_split _ _ _ E) as (mid & E1 & E2). apply (f_equal (@rev bool)) in E1. cbn [rev] in E1.
  rewrite rev_involutive, rev_app_distr, <- app_assoc in E1. set (R := rev (skipn n (negb b :: rev (p ++ q)))) in E1.
  assert (Em : rev mid = repeat (negb b) n).
  { subst mid. clear. induction n; [reflexivity|]. cbn. rewrite IHn, <- repeat_cons. reflexivity. }
  rewrite Em in E1.
  destruct (Nat.le_gt_cases n (length (q ++ [negb b]))) as [L|L].
  - assert (ER : exists post, R = p ++ post).
    { exists (skipn (length p) R). rewrite <- (firstn_skipn (length p) R) at 1. f_equal.
      assert (LR : (length p <= length R)%nat).
      { apply (f_equal (@length bool)) in E1. rewrite !app_length, repeat_length in E1. rewrite app_length in L. cbn in *. lia. }
      apply (f_equal (firstn (length p))) in E1. rewrite firstn_app, Nat.sub_diag, firstn_all, firstn_O, app_nil_r in E1.
      rewrite firstn_app in E1. replace (length p - length R)%nat with O in E1 by lia. rewrite firstn_O, app_nil_r in E1. now symmetry. }
    destruct ER as [post ER]. rewrite ER, <- app_assoc in E1. apply app_inv_head in E1.
    specialize (Hq post (repeat (negb b) n) []). rewrite app_nil_r in Hq. specialize (Hq E1 (repeat_length _ _)).
    apply repeat_spec in Hq. destruct b; discriminate.
  - destruct Hp as [->|[p' ->]].
    + cbn [app] in E1. apply (f_equal (@length bool)) in E1. rewrite !app_length, repeat_length in E1. rewrite app_length in L. cbn in *. lia.
    + assert (B : In b (repeat (negb b) n)).
      { assert (N : nth (length p') ((p' ++ [b]) ++ q ++ [negb b]) (negb b) = b).
        { rewrite <- app_assoc, app_nth2, Nat.sub_diag by lia. reflexivity. }
        rewrite E1 in N. assert (LR : (length R <= length p')%nat).
        { apply (f_equal (@length bool)) in E1. rewrite !app_length, repeat_length in E1. rewrite app_length in L. cbn in *. lia. }
        rewrite app_nth2 in N by exact LR. rewrite <- N at 1. apply nth_In. rewrite repeat_length.
        apply (f_equal (@length bool)) in E1. rewrite !app_length, repeat_length in E1. cbn in *. lia. }
      apply repeat_spec in B. destruct b; discriminate.
Qed.

Fixpoint levels (n : nat) (v : bool) (past l : list bool) : list bool :=
  match l with [] => [] | x :: l' => settled n v (x :: past) :: levels n v (x :: past) l' end.

Lemma levels_app : forall n v l1 l2 past, levels n v past (l1 ++ l2) = levels n v past l1 ++ levels n v (rev l1 ++ past) l2.
Proof. induction l1 as [|x l1 IH]; intros; [reflexivity|]. cbn [levels app rev]. rewrite IH, <- app_assoc. reflexivity. Qed.

Lemma levels_length : forall n v l past, length (levels n v past l) = length l.
Proof. induction l; intros; cbn; [reflexivity|]. now rewrite IHl. Qed.

Lemma levels_keep : forall n v b p q, (n > 0)%nat -> settled n v (rev p) = b -> (p = [] \/ exists p', p = p' ++ [b]) ->
  no_run n (negb b) q -> levels n v (rev p) q = repeat b (length q).
Proof.
  intros n v b p q Hn Hs Hp. induction q as [|x q IH] using rev_ind; intros Hq; [reflexivity|].
  pose proof (settled_keep n v b p (q ++ [x]) Hn Hs Hp Hq) as K. rewrite levels_app, IH by (eapply no_run_prefix; exact Hq).
  cbn [levels]. rewrite app_assoc, rev_app_distr, rev_app_distr in K. cbn [rev app] in K. rewrite K, app_length. cbn [length].
  rewrite Nat.add_1_r. change (repeat b (S (length q))) with (b :: repeat b (length q)). rewrite repeat_cons. reflexivity.
Qed.

Lemma settled_step : forall n v x l, settled n v (x :: l) = x \/ settled n v (x :: l) = settled n v l.
Proof. intros. cbn [settled]. destruct (begins n x (x :: l)); auto. Qed.

Lemma levels_same : forall n v b m past, settled n v past = b -> levels n v past (repeat b m) = repeat b m.
Proof.
  induction m; intros past H; [reflexivity|]. cbn [levels repeat].
  assert (E : settled n v (b :: past) = b) by (destruct (settled_step n v b past); congruence). rewrite E, IHm by exact E. reflexivity.
Qed.

Lemma settled_after : forall n v b past, (n > 0)%nat -> settled n v (repeat b n ++ past) = b.
Proof. intros n v b past H. destruct n; [lia|]. cbn [repeat app settled]. pose proof (begins_repeat (S n) b past) as B. cbn [repeat app] in B. now rewrite B. Qed.

Lemma rev_repeat : forall (b : bool) n, rev (repeat b n) = repeat b n.
Proof. induction n; [reflexivity|]. cbn. rewrite IHn, <- repeat_cons. reflexivity. Qed.

(** A steady run: the old level for a while, then the new one. *)
Lemma levels_run : forall n v b m past, exists c e, levels n v past (repeat b m) = repeat (negb b) c ++ repeat b e /\ (c + e = m)%nat.
Proof.
  induction m; intros past. { exists O, O. split; reflexivity. }
  cbn [repeat levels]. destruct (bool_dec (settled n v (b :: past)) b) as [E|E].
  - exists O, (S m). rewrite levels_same by exact E. rewrite E. split; reflexivity.
  - destruct (IHm (b :: past)) as (c & e & H1 & H2). exists (S c), e. rewrite H1.
    replace (settled n v (b :: past)) with (negb b) by (destruct b, (settled n v (_ :: past)); cbn in *; congruence). split; [reflexivity|cbn; lia].
Qed.

Lemma levels_run_done : forall n v b past, (n > 0)%nat ->
  exists c e, levels n v past (repeat b n) = repeat (negb b) c ++ repeat b (S e) /\ (c + S e = n)%nat.
Proof.
  intros n v b past Hn. destruct (levels_run n v b n past) as (c & e & H1 & H2). destruct e as [|e]; [|eauto].
  exfalso. assert (c = n) by lia. subst c. cbn [repeat] in H1. rewrite app_nil_r in H1.
  destruct n as [|n]; [lia|]. assert (E : repeat b (S n) = repeat b n ++ [b]) by (cbn; apply repeat_cons).
  assert (E' : repeat (negb b) (S n) = repeat (negb b) n ++ [negb b]) by (cbn; apply repeat_cons).
  rewrite E, E', levels_app in H1. cbn [levels] in H1. apply app_inj_tail in H1. destruct H1 as [_ H1].
  rewrite rev_repeat in H1. pose proof (settled_after (S n) v b past ltac:(lia)) as K. cbn [repeat app] in K. rewrite K in H1. destruct b; discriminate.
Qed.

Lemma levels_press : forall n A B D, (n > 0)%nat -> no_run n true A -> no_run n false B -> no_run n true D ->
  exists x y z, levels n false [] (A ++ repeat true n ++ B ++ repeat false n ++ D) = repeat false x ++ repeat true (S y) ++ repeat false z /\
    (x < length A + n)%nat.
Proof.
  intros n A B D Hn HA HB HD.
  rewrite !levels_app. rewrite !rev_repeat. pose proof (levels_keep n false false [] A Hn eq_refl (or_introl eq_refl) HA) as K0. cbn [rev] in K0. rewrite K0.
  destruct (levels_run_done n false true (rev A ++ []) Hn) as (c & e & E1 & L1). rewrite E1.
  pose proof (levels_keep n false true (A ++ repeat true n) B Hn) as K.
  rewrite rev_app_distr, rev_repeat in K. rewrite app_nil_r.
  rewrite K; [|apply settled_after; exact Hn| |exact HB].
  2:{ right. destruct n as [|n]; [lia|]. exists (A ++ repeat true n). rewrite <- app_assoc. f_equal. cbn. apply repeat_cons. }
  destruct (levels_run_done n false false (rev B ++ repeat true n ++ rev A) Hn) as (c' & e' & E2 & L2). rewrite E2.
  pose proof (levels_keep n false false (A ++ repeat true n ++ B ++ repeat false n) D Hn) as K2.
  rewrite !rev_app_distr, !rev_repeat in K2. rewrite <- !app_assoc in K2.
  rewrite K2; [|apply settled_after; exact Hn| |exact HD].
  2:{ right. destruct n as [|n]; [lia|]. exists (A ++ repeat true (S n) ++ B ++ repeat false n). rewrite <- !app_assoc. do 3 f_equal. cbn. apply repeat_cons. }
  cbn [negb]. exists (length A + c)%nat, (e + length B + c')%nat, (S e' + length D)%nat. split; [|lia].
  replace (S (e + length B + c')) with (S e + (length B + c'))%nat by lia. rewrite !repeat_app, <- !app_assoc. reflexivity.
Qed.

(** ** Words with one input *)

Lemma cleaned_one : forall W n a, 0 <= a < Z.of_nat W -> forall h past,
  (forall i, 0 <= i < Z.of_nat W -> i <> a -> Forall (eq false) (levels n false (map (fun y => Z.testbit y i) past) (contact i h))) ->
  cleaned W n 0 past h =
  map (fun s : Z * bool => (fst s, if snd s then 2 ^ a else 0)) (combine (map fst h) (levels n false (map (fun y => Z.testbit y a) past) (contact a h))).
Proof.
  intros W n a Ha. induction h as [|[t x] h IH]; intros past Ho; [reflexivity|].
  cbn [cleaned contact map levels combine fst snd]. f_equal.
  - f_equal. apply Z.bits_inj'. intros i Hi. rewrite word_of_bits, Z.bits_0 by lia.
    set (L := settled n false (Z.testbit x a :: map (fun y : Z => Z.testbit y a) past)).
    assert (EB : Z.testbit (if L then 2 ^ a else 0) i = L && (i =? a)).
    { destruct L; [|now rewrite Z.bits_0]. rewrite Z.pow2_bits_eqb by lia. cbn [andb]. apply Z.eqb_sym. }
    rewrite EB. destruct (Z.eqb_spec i a) as [->|Na].
    + destruct (Z.ltb_spec a (Z.of_nat W)); [|lia]. now rewrite andb_true_r.
    + rewrite andb_false_r. destruct (Z.ltb_spec i (Z.of_nat W)); [|reflexivity]. cbn [andb map].
      specialize (Ho i ltac:(lia) Na). cbn [contact map levels] in Ho. apply Forall_cons_iff in Ho. destruct Ho as [Ho _]. cbn [snd] in Ho. now symmetry.
  - apply IH. intros i Hi Na. specialize (Ho i Hi Na). cbn [contact map levels] in Ho. apply Forall_cons_iff in Ho. exact (proj2 Ho).
Qed.

(** ** The table *)

Lemma last_key_spec : forall b bs1 bs2, ~ In b bs2 -> last_key b (bs1 ++ b :: bs2) = Some (length bs1).
Proof.
  intros b bs1 bs2 H. assert (E : last_key b bs2 = None).
  { clear bs1. induction bs2 as [|x bs2 IH]; [reflexivity|]. cbn. rewrite IH by (intros C; apply H; now right).
    destruct (Z.eqb_spec x b); [exfalso; apply H; now left|reflexivity]. }
  induction bs1 as [|x bs1 IH]; cbn; [rewrite E, Z.eqb_refl|rewrite IH]; reflexivity.
Qed.

Lemma last_key_zero : forall bs, Forall (fun b => b <> 0) bs -> last_key 0 bs = None.
Proof. induction bs as [|b bs IH]; intros H; [reflexivity|]. apply Forall_cons_iff in H. destruct H as [H1 H2]. cbn. rewrite IH by exact H2. destruct (Z.eqb_spec b 0); [contradiction|reflexivity]. Qed.

Section Pad.
Variables (click longclick period b : Z) (bs : list Z) (j : nat).
Hypothesis Hb : b <> 0.
Hypothesis Hbs : Forall (fun b => b <> 0) bs.
Hypothesis Hj : last_key b bs = Some j.
Hypothesis Hn : nth j bs 0 = b.

Lemma pad_one : forall h p s, current p = match s with Idle => None | _ => Some (j, s) end ->
  Forall2 (fun o e => o = Some (Some (j, e)) \/ (o = Some None /\ e = Nothing))
    (snd (pad_run click longclick period bs p (map (fun s : Z * bool => Some (fst s, if snd s then b else 0)) h)))
    (kevents click longclick period s h).
Proof using Hb Hbs Hj Hn.
  induction h as [|[t dn] h IH]; intros p s Hp; [constructor|]. cbn [map pad_run kevents fst snd].
  assert (C : pad_call click longclick period bs p t (if dn then b else 0) =
     match s, dn with Idle, false => (p, None) | _, _ => pad_call click longclick period bs p t (if dn then b else 0) end) .
  { destruct s, dn; try reflexivity. unfold pad_call, concerned. rewrite Hp, (last_key_zero bs Hbs). reflexivity. }
  assert (Cases : (s = Idle /\ dn = false) \/ concerned bs p (if dn then b else 0) = Some (j, s)).
  { unfold concerned. rewrite Hp. destruct s; auto. destruct dn; auto. rewrite Hj. auto. }
  destruct Cases as [[-> ->]|Cc].
  - rewrite C. cbn [kstep]. specialize (IH p Idle Hp).
    destruct (pad_run click longclick period bs p _) as [p' os]. cbn [snd] in *. constructor; auto.
  - assert (Ed : (nth j bs 0 =? (if dn then b else 0)) = dn).
    { rewrite Hn. destruct dn; [apply Z.eqb_refl|]. now apply Z.eqb_neq. }
    unfold pad_call. rewrite Cc. cbv zeta. rewrite Ed.
    destruct (kstep click longclick period s t dn) as [s' e].
    match goal with |- context [pad_run _ _ _ _ ?q _] => specialize (IH q s') end.
    specialize (IH ltac:(cbn; destruct s'; reflexivity)).
    match goal with |- context [pad_run ?a1 ?a2 ?a3 ?a4 ?a5 ?a6] => destruct (pad_run a1 a2 a3 a4 a5 a6) as [p' os] end.
    cbn [snd] in *. constructor; auto.
Qed.
End Pad.

Definition is_press (e : kevent) : bool := match e with Press => true | _ => false end.
Definition is_release (e : kevent) : bool := match e with Release => true | _ => false end.
Definition down (s : phase) : Prop := match s with Idle | Leaving _ => False | _ => True end.

Section Events.
Variables click longclick period : Z.
Notation ev := (kevents click longclick period).

Lemma events_up : forall ts s, let es := ev s (combine ts (repeat false (length ts))) in
  filter is_press es = [] /\ (length (filter is_release es) <= 1)%nat /\ (s = Idle -> filter is_release es = []).
Proof.
  induction ts as [|t ts IH]; intros s; cbv zeta; [cbn; repeat split; lia|]. cbn [length repeat combine kevents].
  destruct (kstep click longclick period s t false) as [s' e] eqn:E. destruct (IH s') as (H1 & H2 & H3). cbv zeta in *.
  destruct s; cbn in E; try (injection E as <- <-; cbn [filter is_press is_release]; rewrite ?H3 by reflexivity; cbn; repeat split; auto; discriminate).
  destruct (r + click <? t); injection E as <- <-; cbn [filter is_press is_release]; rewrite ?H3 by reflexivity; cbn; repeat split; auto; discriminate.
Qed.

Lemma events_down : forall ts s l, down s -> exists s', down s' /\ exists es, 
  ev s (combine ts (repeat true (length ts)) ++ l) = es ++ ev s' l /\ filter is_press es = [] /\ filter is_release es = [] /\ length es = length ts.
Proof.
  induction ts as [|t ts IH]; intros s l Hs. { exists s. split; [exact Hs|]. exists []. repeat split. }
  cbn [length repeat combine app kevents]. destruct (kstep click longclick period s t true) as [s' e] eqn:E.
  assert (H : down s' /\ is_press e = false /\ is_release e = false).
  { destruct s; cbn in E, Hs; try contradiction; repeat match type of E with context [if ?c then _ else _] => destruct c end; injection E as <- <-; repeat split. }
  destruct H as (D & P & R). destruct (IH s' l D) as (s2 & D2 & es & E2 & P2 & R2 & L2).
  exists s2. split; [exact D2|]. exists (e :: es). rewrite E2. cbn. now rewrite P, R, P2, R2, L2.
Qed.

Lemma events_idle : forall ts l, ev Idle (combine ts (repeat false (length ts)) ++ l) = repeat Nothing (length ts) ++ ev Idle l.
Proof. induction ts as [|t ts IH]; intros; cbn; [reflexivity|]. now rewrite IH. Qed.

Lemma events_press : forall ts x y z, length ts = (x + (S y + z))%nat ->
  exists e1 e2, ev Idle (combine ts (repeat false x ++ repeat true (S y) ++ repeat false z)) = e1 ++ Press :: e2 /\
    length e1 = x /\ filter is_press e1 = [] /\ filter is_press e2 = [] /\ filter is_release e1 = [] /\ (length (filter is_release e2) <= 1)%nat.
Proof.
  intros ts x y z L.
  assert (C : forall (t1 t2 : list Z) (l1 l2 : list bool), length t1 = length l1 -> combine (t1 ++ t2) (l1 ++ l2) = combine t1 l1 ++ combine t2 l2).
  { induction t1; destruct l1; cbn; intros; try lia; [reflexivity|]. f_equal. apply IHt1. lia. }
  rewrite <- (firstn_skipn x ts). set (t1 := firstn x ts). assert (L1 : length t1 = x) by (apply firstn_length_le; lia).
  assert (L2 : length (skipn x ts) = (S y + z)%nat) by (rewrite skipn_length; lia).
  destruct (skipn x ts) as [|t0 t2]; [cbn in L2; lia|].
  rewrite C by (rewrite repeat_length; exact L1). replace (repeat false x) with (repeat false (length t1)) by now rewrite L1.
  rewrite events_idle. cbn [repeat app combine kevents kstep].
  rewrite <- (firstn_skipn y t2). set (t3 := firstn y t2). cbn [length] in L2. assert (L3 : length t3 = y) by (apply firstn_length_le; lia).
  assert (L4 : length (skipn y t2) = z) by (rewrite skipn_length; lia).
  rewrite C by (rewrite repeat_length; exact L3). replace (repeat true y) with (repeat true (length t3)) by now rewrite L3.
  destruct (events_down t3 (Down t0) (combine (skipn y t2) (repeat false z)) Logic.I) as (s' & D & es & E & P & R & _). rewrite E.
  destruct (events_up (skipn y t2) s') as (H1 & H2 & _). rewrite L4 in H1, H2.
  exists (repeat Nothing (length t1)), (es ++ ev s' (combine (skipn y t2) (repeat false z))).
  split; [reflexivity|]. split; [now rewrite repeat_length|].
  assert (F : forall g m, g Nothing = false -> filter g (repeat Nothing m) = []) by (intros g m G; induction m; cbn; [reflexivity|now rewrite G]).
  rewrite !F by reflexivity. rewrite !filter_app, P, R, H1. cbn [app]. auto.
Qed.
End Events.

(** ** Silence *)

Lemma cleaned_zero : forall W n h past,
  (forall i, 0 <= i < Z.of_nat W -> Forall (eq false) (levels n false (map (fun y => Z.testbit y i) past) (contact i h))) ->
  cleaned W n 0 past h = map (fun s => (fst s, 0)) h.
Proof.
  intros W n. induction h as [|[t x] h IH]; intros past Ho; [reflexivity|]. cbn [cleaned map fst]. f_equal.
  - f_equal. apply Z.bits_inj'. intros i Hi. rewrite word_of_bits, !Z.bits_0 by lia.
    destruct (Z.ltb_spec i (Z.of_nat W)); [|reflexivity]. cbn [andb].
    specialize (Ho i ltac:(lia)). cbn [contact map levels] in Ho. apply Forall_cons_iff in Ho. destruct Ho as [Ho _]. now symmetry.
  - apply IH. intros i Hi. specialize (Ho i Hi). cbn [contact map levels] in Ho. apply Forall_cons_iff in Ho. exact (proj2 Ho).
Qed.

Lemma silent_levels : forall n l, (n > 0)%nat -> no_run n true l -> Forall (eq false) (levels n false [] l).
Proof.
  intros n l Hn H. pose proof (levels_keep n false false [] l Hn eq_refl (or_introl eq_refl) H) as K. cbn [rev] in K. rewrite K.
  apply Forall_forall. intros x Hx. apply repeat_spec in Hx. now symmetry.
Qed.

Lemma pad_zero : forall click longclick period bs h p, Forall (fun b => b <> 0) bs -> current p = None ->
  pad_run click longclick period bs p (map Some (map (fun s : Z * Z => (fst s, 0)) h)) = (p, repeat (Some None) (length h)).
Proof.
  intros click longclick period bs h p Hb Hp. induction h as [|s h IH]; [reflexivity|]. cbn [map pad_run length repeat fst].
  unfold pad_call at 1, concerned. rewrite Hp, (last_key_zero bs Hb). rewrite IH. reflexivity.
Qed.

Lemma bitvalues_nonzero : forall ks, Forall (fun k => bitvalue k <> 0) ks -> Forall (fun b => b <> 0) (map bitvalue ks).
Proof. intros ks H. apply Forall_forall. intros b Hb. apply in_map_iff in Hb. destruct Hb as (k & <- & Hk). rewrite Forall_forall in H. now apply H. Qed.

Lemma map_some_inj : forall (A : Type) (l l' : list A), map Some l = map Some l' -> l = l'.
Proof. induction l; destruct l'; cbn; intros H; try discriminate; [reflexivity|]. injection H as -> H. f_equal. auto. Qed.

Lemma silence_l : forall I w click longclick period, 0 < w -> I <= w ->
  0 <= click <= longclick -> longclick < 2 ^ (w - 1) -> 0 <= period < 2 ^ (w - 1) ->
  forall G, 0 < G -> 2 * G <= 2 ^ (w - 1) + (longclick - click) ->
  forall W d f, 0 <= d < 2 ^ Z.of_nat W -> length (debounce_count f) = W ->
  forall ks z rest h, table ks z -> Forall idle ks -> paced G None (map Some h) ->
  Forall (fun s => 0 <= snd s < 2 ^ Z.of_nat W) h ->
  (forall i, 0 <= i < Z.of_nat W -> no_run (S (Z.to_nat d)) true (contact i h)) ->
  exists f0 f' ks' outs, debounce_filter_init W f = Done f0 /\
    polls I w W d click longclick period f0 (ks ++ z :: rest) h = Done (f', ks' ++ z :: rest, outs) /\
    outs = repeat (-1, 0, KEY_NOTHING) (length h) /\
    forall k, In k ks' -> keypad_get_key_state k = 0.
Proof.
  intros I w click longclick period Hw HI H1 H2 H3 G HG HG2 W d f Hd Hl ks z rest h Ht Hi Hp Hh Hr.
  destruct (debkey_l I w click longclick period Hw HI H1 H2 H3 G HG HG2 W d f 0 Hd Hl ltac:(lia) ks z rest h Ht Hi Hp Hh)
    as (f0 & f' & ks' & outs & E0 & E & H). cbv zeta in H.
  rewrite cleaned_zero in H by (intros i Hi0; apply silent_levels; [lia|auto]).
  rewrite pad_zero in H by (reflexivity || apply bitvalues_nonzero, (proj1 Ht)). cbn [fst snd] in H. destruct H as (Ho & L & Hs).
  exists f0, f', ks', outs. split.
  { unfold dstart in E0. destruct (debounce_filter_init W f) as [g| | |] eqn:Eg; try discriminate. cbn [obind] in E0.
    assert (g = f0); [|congruence]. unfold debounce_filter_init in Eg.
    destruct (for_up _ _ _ _) as [cc| | |] in Eg; try discriminate. cbn [obind] in Eg. injection Eg as <-. injection E0 as <-. reflexivity. }
  split; [exact E|]. split.
  - apply map_some_inj. rewrite Ho. clear. induction h as [|s h IH]; [reflexivity|]. cbn [length repeat map]. rewrite IH. reflexivity.
  - intros k Hk. apply In_nth_error in Hk. destruct Hk as [j Hj]. rewrite (Hs j k Hj). reflexivity.
Qed.

(** ** One press *)

Lemma filter_pairs : forall (g : kevent -> bool) (e0 : Z) codes j outs es,
  (forall e, g e = (event_code e =? e0)) -> e0 <> KEY_NOTHING ->
  Forall2 (fun o e => o = Some (Some (j, e)) \/ (o = Some None /\ e = Nothing)) outs es ->
  forall outs', map Some outs' = map (pad_output codes) outs ->
  filter (reports_event e0) outs' = map (fun e => (Z.of_nat j, nth j codes 0, event_code e)) (filter g es).
Proof.
  intros g e0 codes j outs es Hg He H. induction H as [|o e outs es Ho H IH]; intros outs' E; destruct outs' as [|o' outs']; try discriminate; [reflexivity|].
  cbn [map] in E. injection E as E1 E2. specialize (IH outs' E2). cbn [filter]. rewrite Hg, IH.
  destruct Ho as [->|[-> ->]]; cbn [pad_output] in E1; injection E1 as ->; unfold reports_event; cbn [snd].
  - destruct (event_code e =? e0); reflexivity.
  - cbn [event_code]. destruct (Z.eqb_spec KEY_NOTHING e0); [congruence|reflexivity].
Qed.

Lemma Forall2_nth : forall (A B : Type) (P : A -> B -> Prop) l l' n y, Forall2 P l l' -> nth_error l' n = Some y ->
  exists x, nth_error l n = Some x /\ P x y.
Proof. intros A B P l l' n y H. revert n. induction H; intros [|n] E; cbn in *; try discriminate; [injection E as ->; eauto|auto]. Qed.

Lemma Forall2_nth_l : forall (A B : Type) (P : A -> B -> Prop) l l' n x, Forall2 P l l' -> nth_error l n = Some x ->
  exists y, P x y.
Proof. intros A B P l l' n x H. revert n. induction H; intros [|n] E; cbn in *; try discriminate; [injection E as ->; eauto|eauto]. Qed.

Lemma press_l : forall I w click longclick period, 0 < w -> I <= w ->
  0 <= click <= longclick -> longclick < 2 ^ (w - 1) -> 0 <= period < 2 ^ (w - 1) ->
  forall G, 0 < G -> 2 * G <= 2 ^ (w - 1) + (longclick - click) ->
  forall W d f, 0 <= d < 2 ^ Z.of_nat W -> length (debounce_count f) = W ->
  forall ks1 k ks2 z rest h a A B D, table (ks1 ++ k :: ks2) z -> Forall idle (ks1 ++ k :: ks2) -> paced G None (map Some h) ->
  Forall (fun s => 0 <= snd s < 2 ^ Z.of_nat W) h -> 0 <= a < Z.of_nat W ->
  bitvalue k = 2 ^ a -> Forall (fun k' => bitvalue k' <> 2 ^ a) ks2 ->
  let n := S (Z.to_nat d) in
  (forall i, 0 <= i < Z.of_nat W -> i <> a -> no_run n true (contact i h)) ->
  contact a h = A ++ repeat true n ++ B ++ repeat false n ++ D ->
  no_run n true A -> no_run n false B -> no_run n true D ->
  exists f0 f' ks' outs, debounce_filter_init W f = Done f0 /\
    polls I w W d click longclick period f0 ((ks1 ++ k :: ks2) ++ z :: rest) h = Done (f', ks' ++ z :: rest, outs) /\
    let press := (Z.of_nat (length ks1), code k, KEY_PRESS) in
    filter (reports_event KEY_PRESS) outs = [press] /\
    (exists m, (m < length A + n)%nat /\ nth_error outs m = Some press) /\
    (length (filter (reports_event KEY_RELEASE) outs) <= 1)%nat /\
    Forall (fun o => snd o = KEY_NOTHING \/ fst o = (Z.of_nat (length ks1), code k)) outs.
Proof.
  intros I w click longclick period Hw HI H1 H2 H3 G HG HG2 W d f Hd Hl ks1 k ks2 z rest h a A B D Ht Hi Hp Hh Ha Hk Hk2 n Hno Hc HA HB HD.
  destruct (debkey_l I w click longclick period Hw HI H1 H2 H3 G HG HG2 W d f 0 Hd Hl ltac:(lia) (ks1 ++ k :: ks2) z rest h Ht Hi Hp Hh)
    as (f0 & f' & ks' & outs & E0 & E & H). cbv zeta in H. fold n in H. destruct H as (Ho & _ & _).
  exists f0, f', ks', outs. split.
  { unfold dstart in E0. destruct (debounce_filter_init W f) as [g| | |] eqn:Eg; try discriminate. cbn [obind] in E0.
    assert (g = f0); [|congruence]. unfold debounce_filter_init in Eg.
    destruct (for_up _ _ _ _) as [cc| | |] in Eg; try discriminate. cbn [obind] in Eg. injection Eg as <-. injection E0 as <-. reflexivity. }
  split; [exact E|]. cbv zeta.
  assert (Hn : (n > 0)%nat) by (unfold n; lia).
  rewrite (cleaned_one W n a Ha) in Ho by (intros i Hi0 Na; apply silent_levels; auto).
  cbn [map] in Ho. rewrite Hc in Ho. destruct (levels_press n A B D Hn HA HB HD) as (x & y & q & EL & Hx).
  assert (LL : length (map fst h) = (x + (S y + q))%nat).
  { apply (f_equal (@length bool)) in EL. rewrite levels_length, <- Hc in EL. unfold contact in EL. rewrite map_length in *.
    rewrite EL, !app_length, !repeat_length. reflexivity. }
  rewrite EL in Ho. rewrite map_map in Ho.
  set (j := length ks1) in *.
  assert (Hb0 : 2 ^ a <> 0) by (pose proof (Z.pow_pos_nonneg 2 a); lia).
  assert (Ej : last_key (2 ^ a) (map bitvalue (ks1 ++ k :: ks2)) = Some j).
  { rewrite map_app. cbn [map]. rewrite Hk. rewrite last_key_spec; [now rewrite map_length|].
    intros C. apply in_map_iff in C. destruct C as (k' & C1 & C2). rewrite Forall_forall in Hk2. now apply (Hk2 k'). }
  assert (En : nth j (map bitvalue (ks1 ++ k :: ks2)) 0 = 2 ^ a).
  { rewrite map_app, app_nth2; rewrite map_length; [|unfold j; lia]. unfold j. rewrite Nat.sub_diag. exact Hk. }
  assert (Ec : nth j (map code (ks1 ++ k :: ks2)) 0 = code k).
  { rewrite map_app, app_nth2; rewrite map_length; [|unfold j; lia]. unfold j. now rewrite Nat.sub_diag. }
  pose proof (pad_one click longclick period (2 ^ a) (map bitvalue (ks1 ++ k :: ks2)) j Hb0 (bitvalues_nonzero _ (proj1 Ht)) Ej En
     (combine (map fst h) (repeat false x ++ repeat true (S y) ++ repeat false q)) pad0 Idle eq_refl) as F.
  set (os := snd (pad_run _ _ _ _ _ _)) in F, Ho.
  destruct (events_press click longclick period (map fst h) x y q LL) as (e1 & e2 & Ee & L1 & P1 & P2 & R1 & R2).
  rewrite Ee in F.
  pose proof (filter_pairs is_press KEY_PRESS (map code (ks1 ++ k :: ks2)) j os _ ltac:(intros []; reflexivity) ltac:(discriminate) F outs Ho) as FP.
  pose proof (filter_pairs is_release KEY_RELEASE (map code (ks1 ++ k :: ks2)) j os _ ltac:(intros []; reflexivity) ltac:(discriminate) F outs Ho) as FR.
  rewrite filter_app in FP, FR. cbn [filter is_press is_release] in FP, FR. rewrite P1, P2 in FP. rewrite R1 in FR. rewrite Ec in FP, FR. cbn [app map event_code] in FP, FR.
  split; [exact FP|]. split; [|split].
  - exists x. split; [exact Hx|].
    assert (N : nth_error (e1 ++ Press :: e2) x = Some Press) by (rewrite nth_error_app2 by lia; now replace (x - length e1)%nat with O by lia).
    destruct (Forall2_nth _ _ _ _ _ _ _ F N) as (o & No & [->|[_ C]]); [|discriminate].
    apply (f_equal (fun l => nth_error l x)) in Ho. rewrite !nth_error_map, No in Ho. cbn [option_map pad_output] in Ho. rewrite Ec in Ho.
    destruct (nth_error outs x); [|discriminate]. cbn in Ho. injection Ho as ->. reflexivity.
  - rewrite FR, map_length. exact R2.
  - apply Forall_forall. intros o Hin. apply In_nth_error in Hin. destruct Hin as [m Hm].
    apply (f_equal (fun l => nth_error l m)) in Ho. rewrite !nth_error_map, Hm in Ho. cbn [option_map] in Ho.
    destruct (nth_error os m) as [o1|] eqn:Em; [|discriminate]. cbn [option_map] in Ho. injection Ho as Ho.
    destruct (Forall2_nth_l _ _ _ _ _ m o1 F Em) as (e & [->|[-> ->]]);
      cbn [pad_output] in Ho; injection Ho as ->; cbn; auto. right. now rewrite Ec.
Qed.
