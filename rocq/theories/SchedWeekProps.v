(** How long an entry is active in a week. *)
From Verif Require Import Base SchedulerModel SchedulerSpec SchedWeekSpec SchedWeekProofs.

(** C194: the number of seconds of a week in which an enabled entry is active. *)
Theorem scheduler_week_exact : forall e, entry_ok e -> enabled e <> 0 ->
  in_a_week (fun t => scheduler_is_active [e] t =? 1) = num_days e * seconds_a_day e.
Proof. exact week_l. Qed.
Print Assumptions scheduler_week_exact.

(** Tuesday and Thursday 23:00 to 25:00, and an entry that starts on the next day. *)
Example scheduler_week_case :
  let a := mkEntry 1 20 82800 90000 0 in let b := mkEntry 1 2 90000 100000 0 in
  entry_ok a /\ enabled a <> 0 /\ num_days a * seconds_a_day a = 2 * 7200 /\
  entry_ok b /\ enabled b <> 0 /\ num_days b * seconds_a_day b = 13600.
Proof. cbv zeta. unfold entry_ok, INT_MIN, INT_MAX. cbn. lia. Qed.

(** C195 is false: an entry that begins after 24:00 has a duration of 10000 s and is active 13600 s of the week; one
    whose end is before its start has a duration and is never active; one that lasts 30 hours is active 24. *)
Theorem scheduler_week_duration_refuted :
  (exists e, entry_ok e /\ enabled e <> 0 /\ num_days e = 1 /\ start_second e < end_second e /\
     scheduler_get_entry_duration e = 10000 /\ in_a_week (fun t => scheduler_is_active [e] t =? 1) = 13600) /\
  (exists e, entry_ok e /\ enabled e <> 0 /\ num_days e = 1 /\ start_second e < end_second e /\
     scheduler_get_entry_duration e = 30 * 3600 /\ in_a_week (fun t => scheduler_is_active [e] t =? 1) = DAY) /\
  (exists e, entry_ok e /\ enabled e <> 0 /\ num_days e = 1 /\
     scheduler_get_entry_duration e = 7200 /\ in_a_week (fun t => scheduler_is_active [e] t =? 1) = 0).
Proof.
  split; [exists (mkEntry 1 2 90000 100000 0)|split; [exists (mkEntry 1 2 36000 144000 0)|exists (mkEntry 1 2 82800 75600 0)]];
    (rewrite week_l; [|unfold entry_ok, INT_MIN, INT_MAX; cbn; lia|discriminate]);
    (split; [unfold entry_ok, INT_MIN, INT_MAX; cbn; lia|]); cbn; repeat split; lia.
Qed.
Print Assumptions scheduler_week_duration_refuted.

(** Of an entry that ends after its start it holds exactly if the entry ends by 24:00, or starts by 24:00 and lasts at most a
    day, or lasts exactly a day.  Missing: all others. *)
Theorem scheduler_week_duration_partial : forall e, entry_ok e -> enabled e <> 0 ->
  start_second e <= end_second e -> num_days e <> 0 ->
  (in_a_week (fun t => scheduler_is_active [e] t =? 1) = num_days e * scheduler_get_entry_duration e <->
   end_second e <= DAY \/ (start_second e <= DAY /\ end_second e - start_second e <= DAY) \/ end_second e - start_second e = DAY).
Proof. exact week_duration_l. Qed.
Print Assumptions scheduler_week_duration_partial.

Example scheduler_week_duration_case :
  let e := mkEntry 1 20 82800 90000 0 in
  entry_ok e /\ enabled e <> 0 /\ start_second e <= end_second e /\ num_days e = 2 /\
  start_second e <= DAY /\ end_second e - start_second e <= DAY /\ scheduler_get_entry_duration e = 7200.
Proof. cbv zeta. unfold entry_ok, INT_MIN, INT_MAX, DAY. cbn. lia. Qed.
