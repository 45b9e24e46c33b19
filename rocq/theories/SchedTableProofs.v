From Verif Require Import Base BaseLemmas SchedulerModel SchedulerSpec SchedulerProofs SchedWeekSpec SchedWeekProofs SchedTableSystem.

Definition apart (s : list entry) : Prop := forall i j a b, nth_error s i = Some a -> nth_error s j = Some b ->
  enabled a <> 0 -> enabled b <> 0 -> i <> j -> ~ overlapping a b.
Definition fine (e : entry) : Prop := entry_ok e /\ (enabled e <> 0 -> same_day e).

Lemma overlapping_sym : forall a b, overlapping a b -> overlapping b a.
Proof. intros a b (w & x & H). exists w, x. tauto. Qed.

Lemma nth_upd_cases : forall (s : list entry) n e i x, nth_error (upd s n e) i = Some x ->
  (i = n /\ x = e) \/ (i <> n /\ nth_error s i = Some x).
Proof.
  induction s as [|y s IH]; intros n e i x H.
  - destruct n, i; cbn in H; try discriminate.
  - destruct n, i; cbn in H.
    + injection H as <-. left. auto.
    + right. auto.
    + right. auto.
    + destruct (IH n e i x H) as [[-> ->]|[H1 H2]]; [left; auto|right; split; [congruence|exact H2]].
Qed.

Lemma upd_length' : forall (s : list entry) n e, length (upd s n e) = length s.
Proof. induction s; intros [|n] e; cbn; auto. Qed.

Lemma step_fine : forall s o, zlen s <= INT_MAX -> op_fine o -> Forall fine s -> apart s ->
  Forall fine (table_step s o) /\ apart (table_step s o) /\ zlen (table_step s o) = zlen s.
Proof.
  intros s [e|i] Hl Ho Hf Ha; cbn [table_step op_fine] in *.
  - destruct Ho as (He & Hd & Hen). destruct (Z.eqb_spec (scheduler_are_there_overlapping_entries s e) 0) as [E0|]; [|auto].
    cbv zeta. destruct (Z.eqb_spec (scheduler_get_first_available_entry s) (-1)) as [|N]; [auto|].
    unfold scheduler_get_first_available_entry in *. pose proof (zlen_nonneg _ s) as Z0.
    destruct (available_loop_spec s (Z.to_nat (zlen s)) 0 Hl ltac:(lia) ltac:(lia)) as [[R _]|[R _]]; [contradiction|].
    set (r := available_loop s (Z.to_nat (zlen s)) 0) in *. clearbody r.
    rewrite wrap64_small by (unfold INT_MAX in *; lia). unfold scheduler_set_entry. destruct (Z.leb_spec (zlen s) r); [lia|]. cbn [fst].
    assert (Free : forall o, In o s -> enabled o <> 0 -> ~ overlapping o e).
    { intros o Hin Ho Hov. rewrite Forall_forall in Hf. destruct (Hf o Hin) as [O1 O2].
      rewrite overlap_count in E0 by (unfold INT_MAX in *; lia).
      assert (Hx : In o (filter (fun o => touching o e) s)).
      { apply filter_In. split; [exact Hin|]. apply overlap_sound; auto. }
      destruct (filter (fun o => touching o e) s); [destruct Hx|unfold zlen in E0; cbn [length] in E0; lia]. }
    split; [|split].
    + apply Forall_forall. intros x Hx. apply In_nth_error in Hx. destruct Hx as [m Hm].
      destruct (nth_upd_cases _ _ _ _ _ Hm) as [[_ ->]|[_ Hn]]; [split; auto|].
      rewrite Forall_forall in Hf. apply Hf. eapply nth_error_In; eauto.
    + intros i j a b Hi Hj Ea Eb Hij.
      destruct (nth_upd_cases _ _ _ _ _ Hi) as [[-> ->]|[Ni Hi']], (nth_upd_cases _ _ _ _ _ Hj) as [[-> ->]|[Nj Hj']].
      * contradiction.
      * intros Hov. apply (Free b); [eapply nth_error_In; eauto|exact Eb|now apply overlapping_sym].
      * apply Free; [eapply nth_error_In; eauto|exact Ea].
      * eapply Ha; eauto.
    + unfold zlen. now rewrite upd_length'.
  - unfold scheduler_disable_schedule_entry. destruct (Z.leb_spec (zlen s) i) as [|L]; [auto|]. cbn [fst].
    assert (N : nth_error s (Z.to_nat i) = Some (nth (Z.to_nat i) s zero_entry)).
    { apply nth_error_nth'. unfold zlen in L. lia. }
    set (e := nth (Z.to_nat i) s zero_entry) in *.
    split; [|split].
    + apply Forall_forall. intros x Hx. apply In_nth_error in Hx. destruct Hx as [m Hm]. rewrite Forall_forall in Hf.
      destruct (nth_upd_cases _ _ _ _ _ Hm) as [[_ ->]|[_ Hn]]; [|apply Hf; eapply nth_error_In; eauto].
      destruct (Hf e ltac:(eapply nth_error_In; eauto)) as [(_ & A2) _]. split; [split; [cbn; lia|exact A2]|]. cbn. lia.
    + intros i' j a b Hi Hj Ea Eb Hij.
      destruct (nth_upd_cases _ _ _ _ _ Hi) as [[-> ->]|[Ni Hi']]; [cbn in Ea; lia|].
      destruct (nth_upd_cases _ _ _ _ _ Hj) as [[-> ->]|[Nj Hj']]; [cbn in Eb; lia|]. eapply Ha; eauto.
    + unfold zlen. now rewrite upd_length'.
Qed.

Lemma history_fine : forall ops s, zlen s <= INT_MAX -> Forall op_fine ops ->
  Forall fine (table_history s ops) /\ apart (table_history s ops) /\ zlen (table_history s ops) = zlen s.
Proof.
  intros ops s Hl Ho. unfold table_history.
  assert (H0 : Forall fine (scheduler_init s) /\ apart (scheduler_init s) /\ zlen (scheduler_init s) = zlen s).
  { unfold scheduler_init. assert (Z0 : forall x, In x (map (fun _ => zero_entry) s) -> x = zero_entry).
    { intros x Hx. apply in_map_iff in Hx. destruct Hx as (y & <- & _). reflexivity. }
    split; [|split].
    - apply Forall_forall. intros x Hx. rewrite (Z0 x Hx). split; [unfold entry_ok, INT_MIN, INT_MAX; cbn; lia|]. cbn. lia.
    - intros i j a b Hi _ Ea. apply nth_error_In in Hi. rewrite (Z0 a Hi) in Ea. cbn in Ea. lia.
    - unfold zlen. now rewrite map_length. }
  revert H0. generalize (scheduler_init s) as s0. induction ops as [|o ops IH]; intros s0 (H1 & H2 & H3); [auto|].
  apply Forall_cons_iff in Ho. destruct Ho as [Ho1 Ho2]. cbn [fold_left].
  destruct (step_fine s0 o ltac:(lia) Ho1 H1 H2) as (A & B & C). apply (IH Ho2). split; [exact A|]. split; [exact B|]. lia.
Qed.

Lemma checked_l : forall s ops t, zlen s <= INT_MAX -> Forall op_fine ops -> tm_ok t ->
  let s' := table_history s ops in
  forall i a, nth_error s' i = Some a -> enabled a <> 0 -> scheduler_is_active [a] t = 1 ->
  (forall j b, nth_error s' j = Some b -> enabled b <> 0 -> scheduler_is_active [b] t = 1 -> j = i) /\
  scheduler_get_active_entry_number s' t = Z.of_nat i /\ scheduler_current_value s' t = Done (1, Some (value a)).
Proof.
  intros s ops t Hl Ho Ht s' i a Hi Ea Aa. destruct (history_fine ops s Hl Ho) as (Hf & Hap & HL). fold s' in Hf, Hap, HL.
  rewrite Forall_forall in Hf.
  assert (Act : forall j b, nth_error s' j = Some b -> enabled b <> 0 -> active_today b (tm_wday t) (clock t) = true ->
    on_day b (tm_wday t) = true /\ covers b (clock t) = true).
  { intros j b Hj Eb Ab. destruct (Hf b ltac:(eapply nth_error_In; eauto)) as [_ D]. destruct (D Eb) as [_ D2].
    unfold active_today in Ab. apply andb_prop in Ab. destruct Ab as [A1 A2]. split; [exact A1|].
    destruct (Z.ltb_spec DAY (end_second b)); [lia|]. cbn [andb] in A2. now rewrite orb_false_r in A2. }
  assert (Uni : forall j b, nth_error s' j = Some b -> enabled b <> 0 -> active_today b (tm_wday t) (clock t) = true -> j = i).
  { intros j b Hj Eb Ab. destruct (Nat.eq_dec j i) as [|N]; [assumption|]. exfalso.
    rewrite (active_one a (proj1 (Hf a ltac:(eapply nth_error_In; eauto))) Ea t Ht) in Aa.
    assert (Aa' : active_today a (tm_wday t) (clock t) = true) by (destruct (active_today a (tm_wday t) (clock t)); [reflexivity|discriminate]).
    destruct (Act i a Hi Ea Aa') as [A1 A2]. destruct (Act j b Hj Eb Ab) as [B1 B2].
    apply (Hap i j a b Hi Hj Ea Eb ltac:(congruence)). exists (tm_wday t), (clock t).
    destruct (clock_range t Ht). destruct Ht as (W & _). auto 10. }
  assert (Ok : Forall entry_ok s') by (apply Forall_forall; intros x Hx; exact (proj1 (Hf x Hx))).
  assert (HL' : zlen s' <= INT_MAX) by lia.
  assert (Aa' : active_today a (tm_wday t) (clock t) = true).
  { rewrite (active_one a (proj1 (Hf a ltac:(eapply nth_error_In; eauto))) Ea t Ht) in Aa. destruct (active_today a (tm_wday t) (clock t)); [reflexivity|discriminate]. }
  assert (Num : scheduler_get_active_entry_number s' t = Z.of_nat i).
  { destruct (scheduler_selects_l s' t Ht Ok HL') as [[E1 E2]|E2].
    - exfalso. specialize (E2 a (nth_error_In _ _ Hi)). unfold eligible in E2. rewrite Aa' in E2. destruct (Z.eqb_spec (enabled a) 0); [contradiction|discriminate].
    - destruct E2 as [R (e & N & El & _)]. unfold eligible in El. apply andb_prop in El. destruct El as [El1 El2].
      assert (enabled e <> 0) by (destruct (Z.eqb_spec (enabled e) 0); [discriminate|assumption]).
      pose proof (Uni _ e N H El2). lia. }
  split; [|split; [exact Num|]].
  - intros j b Hj Eb Ab. apply (Uni j b Hj Eb). rewrite (active_one b (proj1 (Hf b (nth_error_In _ _ Hj))) Eb t Ht) in Ab.
    destruct (active_today b (tm_wday t) (clock t)); [reflexivity|discriminate].
  - destruct (current_value_l s' t Ht Ok HL') as [[E1 _]|(e & E1 & E2)]; [lia|]. rewrite Num, Nat2Z.id in E1. congruence.
Qed.
