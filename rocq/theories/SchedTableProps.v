(** Tables filled with the overlap check. *)
From Verif Require Import Base SchedulerModel SchedulerSpec SchedTableSystem SchedTableProofs.

(** C196 is false past midnight: every day 23:00 to 25:00 and every day 00:00 to 01:00 are both accepted and both active at 00:30. *)
Theorem scheduler_checked_table_refuted : exists s ops t i j a b, tm_ok t /\ i <> j /\
  nth_error (table_history s ops) i = Some a /\ nth_error (table_history s ops) j = Some b /\
  enabled a <> 0 /\ enabled b <> 0 /\ running a (tm_wday t) (clock t) = true /\ running b (tm_wday t) (clock t) = true /\
  scheduler_is_active [a] t = 1 /\ scheduler_is_active [b] t = 1.
Proof.
  exists [zero_entry; zero_entry; zero_entry], [Add (mkEntry 1 127 82800 90000 5); Add (mkEntry 1 127 0 3600 6)], (mkTm 3 0 30 0), 0%nat, 1%nat.
  do 2 eexists. split; [unfold tm_ok, clock, DAY; cbn; lia|]. split; [discriminate|]. repeat split; try reflexivity; cbn; lia.
Qed.
Print Assumptions scheduler_checked_table_refuted.

(** C196 for entries that end by 24:00: at most one entry is active, it is the selected one, and its value is the current one.
    Missing: entries past midnight. *)
Theorem scheduler_checked_table_partial : forall s ops t, zlen s <= INT_MAX -> Forall op_fine ops -> tm_ok t ->
  let s' := table_history s ops in
  forall i a, nth_error s' i = Some a -> enabled a <> 0 -> scheduler_is_active [a] t = 1 ->
  (forall j b, nth_error s' j = Some b -> enabled b <> 0 -> scheduler_is_active [b] t = 1 -> j = i) /\
  scheduler_get_active_entry_number s' t = Z.of_nat i /\ scheduler_current_value s' t = Done (1, Some (value a)).
Proof. exact checked_l. Qed.
Print Assumptions scheduler_checked_table_partial.

(** The second entry is refused, later it takes the place of the first. *)
Example scheduler_checked_table_case :
  let a := mkEntry 1 127 36000 72000 5 in let b := mkEntry 1 2 40000 50000 6 in let c := mkEntry 1 127 3600 7200 7 in
  let ops := [Add a; Add b; Add c; Disable 0; Add b] in let s := [zero_entry; zero_entry; zero_entry] in
  Forall op_fine ops /\ tm_ok (mkTm 1 12 0 0) /\
  table_history s (firstn 3 ops) = [a; c; zero_entry] /\ table_history s ops = [b; c; zero_entry] /\
  scheduler_is_active [b] (mkTm 1 12 0 0) = 1 /\ scheduler_current_value (table_history s ops) (mkTm 1 12 0 0) = Done (1, Some 6).
Proof.
  cbv zeta. split; [repeat constructor; unfold entry_ok, same_day, DAY, INT_MIN, INT_MAX; cbn; lia|].
  split; [unfold tm_ok, clock, DAY; cbn; lia|]. vm_compute. auto.
Qed.
