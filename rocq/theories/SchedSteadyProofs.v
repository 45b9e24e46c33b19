(** The selection depends on the activity of the enabled entries only. *)
From Coq Require Import ZifyBool.
From Verif Require Import Base BaseLemmas SchedulerModel SchedulerSpec SchedulerProofs SchedSteadySpec.

Lemma loop_ext : forall t1 t2 s i f, (forall e, In e s -> enabled e <> 0 -> is_entry_active e t1 = is_entry_active e t2) ->
  active_loop s t1 i f = active_loop s t2 i f.
Proof.
  induction s as [|e s IH]; intros i f H; [reflexivity|]. cbn [active_loop].
  destruct (Z.eqb_spec (enabled e) 0) as [E|E].
  - apply IH. intros e' Hin. apply H. now right.
  - rewrite (H e (or_introl eq_refl) E). apply IH. intros e' Hin. apply H. now right.
Qed.

Lemma number_ext : forall t1 t2 s, (forall e, In e s -> enabled e <> 0 -> is_entry_active e t1 = is_entry_active e t2) ->
  scheduler_get_active_entry_number s t1 = scheduler_get_active_entry_number s t2.
Proof. intros t1 t2 s H. unfold scheduler_get_active_entry_number. now rewrite (loop_ext t1 t2). Qed.

Lemma steady_active : forall s t1 t2 e, tm_ok t1 -> tm_ok t2 -> tm_wday t1 = tm_wday t2 -> clock t1 <= clock t2 ->
  nothing_due s (clock t1) (clock t2) -> entry_ok e -> In e s -> enabled e <> 0 ->
  is_entry_active e t1 = is_entry_active e t2.
Proof.
  intros s t1 t2 e H1 H2 Hw Hc Hn He Hin Hen. rewrite !active_eq by assumption. unfold active_today. rewrite Hw. f_equal.
  pose proof (Hn e (start_second e) Hin Hen) as A. pose proof (Hn e (end_second e) Hin Hen) as B.
  pose proof (Hn e (end_second e - DAY) Hin Hen) as C. unfold covers, DAY in *.
  clear Hn. assert (~ (clock t1 < start_second e <= clock t2)) by (intros X; apply A in X; lia).
  assert (~ (clock t1 < end_second e <= clock t2)) by (intros X; apply B in X; lia).
  assert (~ (clock t1 < end_second e - 86400 <= clock t2)) by (intros X; apply C in X; lia).
  clear A B C. lia.
Qed.

Lemma steady_l : forall s t1 t2, tm_ok t1 -> tm_ok t2 -> Forall entry_ok s -> zlen s <= INT_MAX ->
  tm_wday t1 = tm_wday t2 -> clock t1 <= clock t2 -> nothing_due s (clock t1) (clock t2) ->
  scheduler_get_active_entry_number s t2 = scheduler_get_active_entry_number s t1 /\
  scheduler_current_value s t2 = scheduler_current_value s t1 /\
  scheduler_is_active s t2 = scheduler_is_active s t1 /\
  (scheduler_is_active s t1 = 1 ->
   scheduler_get_current_remaining_duration s t2 =
     scheduler_get_current_remaining_duration s t1 - (clock t2 - clock t1)).
Proof.
  intros s t1 t2 H1 H2 Hs Hl Hw Hc Hn.
  assert (E : scheduler_get_active_entry_number s t2 = scheduler_get_active_entry_number s t1).
  { symmetry. apply number_ext. intros e Hin Hen. apply (steady_active s t1 t2); try assumption.
    rewrite Forall_forall in Hs. now apply Hs. }
  split; [exact E|]. split; [unfold scheduler_current_value; now rewrite E|]. split; [unfold scheduler_is_active; now rewrite E|].
  intros Ha. unfold scheduler_get_current_remaining_duration. rewrite E.
  destruct (scheduler_selects_l s t1 H1 Hs Hl) as [[N _]|(N & e & Hnth & Hel & _)].
  - unfold scheduler_is_active in Ha. rewrite N in Ha. discriminate.
  - destruct (scheduler_selects_l s t2 H2 Hs Hl) as [[N2 _]|(N2 & e2 & Hnth2 & Hel2 & _)]; [rewrite E in N2; lia|].
    rewrite E in Hnth2. rewrite Hnth in Hnth2. injection Hnth2 as <-.
    replace (0 <=? scheduler_get_active_entry_number s t1) with true by lia.
    assert (Hr : 0 <= scheduler_get_active_entry_number s t1 < 2 ^ 64).
    { split; [lia|]. assert (Z.to_nat (scheduler_get_active_entry_number s t1) < length s)%nat by (apply nth_error_Some; congruence).
      unfold zlen, INT_MAX in Hl. lia. }
    rewrite wrap64_small by lia. apply nth_error_In in Hnth as Hin. rewrite Forall_forall in Hs. pose proof (Hs e Hin) as He.
    rewrite !(remaining_l s _ _ e) by (assumption || lia). unfold eligible in Hel, Hel2.
    apply andb_prop in Hel. destruct Hel as [_ Hel]. apply andb_prop in Hel2. destruct Hel2 as [_ Hel2]. rewrite Hel, Hel2.
    pose proof (clock_range t1 H1). pose proof (clock_range t2 H2). unfold active_today, covers in *.
    destruct He as (_ & _ & _ & He & _). change (2 ^ 32) with 4294967296 in He. unfold DAY in *.
    rewrite !wrap64_small by lia. lia.
Qed.

Lemma midnight_l : forall s t1 t2, tm_ok t1 -> tm_ok t2 -> Forall entry_ok s ->
  clock t1 = DAY - 1 -> clock t2 = 0 -> nothing_at_midnight s (tm_wday t1) (tm_wday t2) ->
  scheduler_get_active_entry_number s t2 = scheduler_get_active_entry_number s t1 /\
  scheduler_current_value s t2 = scheduler_current_value s t1.
Proof.
  intros s t1 t2 H1 H2 Hs C1 C2 Hn.
  assert (E : scheduler_get_active_entry_number s t2 = scheduler_get_active_entry_number s t1).
  { symmetry. apply number_ext. intros e Hin Hen. rewrite Forall_forall in Hs. rewrite !active_eq by (try assumption; now apply Hs).
    destruct (Hn e Hin Hen) as (A & B & C). unfold active_today. rewrite C, C1, C2. f_equal. unfold covers, DAY in *. lia. }
  split; [exact E|]. unfold scheduler_current_value. now rewrite E.
Qed.
