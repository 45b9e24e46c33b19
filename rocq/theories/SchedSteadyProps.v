(** Property C205: the scheduler changes its answer only when an enabled entry starts or ends. *)
From Verif Require Import Base SchedulerModel SchedulerSpec SchedSteadySpec SchedSteadyProofs.

(** C205: within a day, from [t1] to [t2]. *)
Theorem scheduler_steady : forall s t1 t2, tm_ok t1 -> tm_ok t2 -> Forall entry_ok s -> zlen s <= INT_MAX ->
  tm_wday t1 = tm_wday t2 -> clock t1 <= clock t2 -> nothing_due s (clock t1) (clock t2) ->
  scheduler_get_active_entry_number s t2 = scheduler_get_active_entry_number s t1 /\
  scheduler_current_value s t2 = scheduler_current_value s t1 /\
  scheduler_is_active s t2 = scheduler_is_active s t1 /\
  (scheduler_is_active s t1 = 1 ->
   scheduler_get_current_remaining_duration s t2 =
     scheduler_get_current_remaining_duration s t1 - (clock t2 - clock t1)).
Proof. exact steady_l. Qed.
Print Assumptions scheduler_steady.

(** C205: from the last second of a day to the first of the next one. *)
Theorem scheduler_midnight : forall s t1 t2, tm_ok t1 -> tm_ok t2 -> Forall entry_ok s ->
  clock t1 = DAY - 1 -> clock t2 = 0 -> nothing_at_midnight s (tm_wday t1) (tm_wday t2) ->
  scheduler_get_active_entry_number s t2 = scheduler_get_active_entry_number s t1 /\
  scheduler_current_value s t2 = scheduler_current_value s t1.
Proof. exact midnight_l. Qed.
Print Assumptions scheduler_midnight.

(** Entries 8:00-18:00 and 12:00-13:00 on Monday, 22:00-30:00 every day: nothing is due from 12:00:00 to 12:59:59 nor at
    midnight, but the short entry ends at 13:00:00. *)
Example scheduler_steady_case :
  let s := [mkEntry 1 2 28800 64800 5; mkEntry 1 2 43200 46800 9; mkEntry 1 127 79200 108000 1; mkEntry 0 127 45000 46000 3] in
  Forall entry_ok s /\ tm_ok (mkTm 1 12 0 0) /\ tm_ok (mkTm 1 12 59 59) /\ nothing_due s 43200 46799 /\
  ~ nothing_at_midnight s 1 2 /\ nothing_at_midnight (skipn 2 s) 1 2 /\
  scheduler_current_value s (mkTm 1 12 0 0) = Done (1, Some 9) /\
  scheduler_current_value s (mkTm 1 12 59 59) = Done (1, Some 9) /\
  scheduler_current_value s (mkTm 1 13 0 0) = Done (1, Some 5) /\
  scheduler_get_current_remaining_duration s (mkTm 1 12 0 0) = 3600 /\
  scheduler_get_current_remaining_duration s (mkTm 1 12 59 59) = 1 /\
  scheduler_current_value s (mkTm 1 23 59 59) = Done (1, Some 1) /\
  scheduler_current_value s (mkTm 2 0 0 0) = Done (1, Some 1).
Proof.
  cbv zeta. split; [repeat constructor; cbn; unfold INT_MIN, INT_MAX; lia|].
  split; [unfold tm_ok, clock, DAY; cbn; lia|]. split; [unfold tm_ok, clock, DAY; cbn; lia|].
  split; [intros e x [<-|[<-|[<-|[<-|[]]]]]; cbn; unfold DAY; lia|].
  split; [intros H; destruct (H (mkEntry 1 2 28800 64800 5)) as (_ & _ & X); cbn; try tauto; discriminate|].
  split; [intros e [<-|[<-|[]]]; cbn; unfold DAY, on_day; cbn; intuition lia|].
  vm_compute. repeat split.
Qed.
