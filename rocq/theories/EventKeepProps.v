(** Property C200: an event log of [m] events of [es] bytes whose structure is copied to permanent
    memory now and then and restored from the last copy after a restart. *)
From Verif Require Import Base BaseLemmas EventLogModel EventLogSpec EventLogSystem EventKeepSpec EventKeepSystem EventKeepProofs.

(** C200 refuted: two events are saved and the structure is copied; a third event is saved and
    the device restarts.  The log claims to hold two events but delivers the third, which no
    longer counts, in the place of the first. *)
Theorem eventlog_restart_refuted : exists m es slots h number reqs,
  0 < m <= INT_MAX /\ slots_ok m es slots /\ Forall (kop_ok es) h /\
  window m (events (keep_of h)) number 0 = [[1]; [2]] /\
  total_events (snd (fst (krun m es slots h))) = 2 /\
  kload (krun m es slots h) [0; 0] number 0 = Done (reqs, [3; 2], 2).
Proof.
  exists 2, 1, [[0]; [0]], [KLog (LSave [1]); KLog (LSave [2]); KStore; KLog (LSave [3]); KRestart], 2, [(2, 0)].
  split; [unfold INT_MAX; lia|]. split; [split; [reflexivity|repeat constructor]|].
  split; [repeat constructor|]. repeat split; vm_compute; reflexivity.
Qed.
Print Assumptions eventlog_restart_refuted.

(** C200, what holds after any history of saves (failing ones and half done ones included),
    copies and restarts: the number of events is that of the events that count, and a
    window is delivered if it does not reach into the [ahead] slots that may have been
    overwritten by events lost in restarts; each new event reduces them by one. *)
Theorem eventlog_restart_partial : forall m es, 0 < m <= INT_MAX -> 0 <= es ->
  forall slots h buf number jump, slots_ok m es slots -> Forall (kop_ok es) h ->
  sz number -> sz jump -> number + jump < 2 ^ 64 -> sz (zlen buf) ->
  let s := krun m es slots h in
  let k := keep_of h in
  let w := window m (events k) number jump in
  total_events (snd (fst s)) = Z.min m (zlen (events k)) /\
  (Z.min (number + jump) (zlen (events k)) <= m - ahead k -> zlen w * es <= zlen buf ->
   exists reqs, kload s buf number jump = Done (reqs, concat w ++ skipn (length (concat w)) buf, zlen w)).
Proof. exact keep_l. Qed.
Print Assumptions eventlog_restart_partial.

(** Two events are lost; at first two of the four slots are good, after two more events all. *)
Example eventlog_restart_case :
  let save n := KLog (LSave [n]) in
  let h := [save 1; save 2; save 3; save 4; save 5; KStore; save 6; save 7; KRestart] in
  slots_ok 4 1 (repeat [0] 4) /\ Forall (kop_ok 1) (h ++ [save 8; save 9]) /\
  events (keep_of h) = [[1]; [2]; [3]; [4]; [5]] /\ ahead (keep_of h) = 2 /\
  ahead (keep_of (h ++ [save 8; save 9])) = 0 /\
  (do (_, out, r) <- kload (krun 4 1 (repeat [0] 4) h) [0; 0] 2 0; Done (out, r)) = Done ([4; 5], 2) /\
  (do (_, out, r) <- kload (krun 4 1 (repeat [0] 4) (h ++ [save 8; save 9])) [0; 0; 0; 0] 4 0; Done (out, r)) =
    Done ([4; 5; 8; 9], 4).
Proof.
  cbv zeta. split; [split; [reflexivity|repeat constructor]|]. split; [repeat constructor|].
  repeat split; vm_compute; reflexivity.
Qed.
