(** Schedules in a wear leveled memory. *)
From Verif Require Import Base SchedulerModel SchedulerSpec WearModel WearSpec WearSystem SchedStoreSpec SchedStoreSystem SchedStoreProofs.

(** C197: what is loaded is the table saved last, through restarts and through power failures while saving. *)
Theorem schedule_store : forall n N c d h1 buf s h2, (0 < n)%nat -> 11 * Z.of_nat n < 2 ^ 64 -> 0 < N < 256 -> 0 <= c < 256 ->
  dev_ok N (11 * Z.of_nat n) d -> erased c d ->
  let h := h1 ++ Save buf s :: h2 in
  Forall (store_op_ok n) h -> Forall (fun o => is_save o = false) h2 ->
  restarts_ok N (nth 0 (blocks d) [], 0) (map as_write h) ->
  store_load n N d h = Done (0, map restored s).
Proof. exact store_l. Qed.
Print Assumptions schedule_store.

Definition sched_a : list entry := [mkEntry 1 127 36000 72000 5; mkEntry 0 0 0 0 0].
Definition sched_b : list entry := [mkEntry 1 127 36000 72000 5; mkEntry 1 2 40000 90000 (-1)].

(** A value below 0 comes back as a byte. *)
Example schedule_store_case :
  let buf := repeat 7 22 in let d := mkDev [255; 255; 255] (repeat (repeat 255 22) 3) [] in
  let h := [Save buf sched_a; Restart] ++ Save buf sched_b :: [] in
  dev_ok 3 (11 * Z.of_nat 2) d /\ erased 255 d /\ Forall (store_op_ok 2) h /\
  restarts_ok 3 (nth 0 (blocks d) [], 0) (map as_write h) /\
  store_load 2 3 d h = Done (0, map restored sched_b) /\ nth_error (map restored sched_b) 1 = Some (mkEntry 1 2 40000 90000 255) /\
  store_load 2 3 d [Save buf sched_a; TornSave buf sched_b (repeat 9 22); Restart] = Done (0, sched_a).
Proof.
  cbv zeta. split; [unfold dev_ok; cbn; repeat split; repeat constructor; lia|]. split; [repeat constructor|].
  split; [repeat constructor; unfold entry_ok, INT_MIN, INT_MAX; cbn; lia|].
  split; [vm_compute; intuition discriminate|]. split; [vm_compute; reflexivity|]. split; vm_compute; reflexivity.
Qed.
