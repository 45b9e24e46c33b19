(** Properties C47-C51, C138, C140: an event log of [m] events of [es] bytes over an array of slots.
    [saved h] are the events the history [h] saved successfully. *)
From Coq Require Import ZifyBool.
From Verif Require Import Base BaseLemmas EventLogModel EventLogSpec EventLogSystem EventLogProofs.

(** C47 for requests with number + jump below 2^64: the window of the history is delivered and
    counted; the rest of the buffer is kept.  Failed saves may be anywhere in the history. *)
Theorem eventlog_load_partial : forall m es, 0 < m <= INT_MAX -> 0 <= es ->
  forall slots h buf number jump, slots_ok m es slots -> Forall (lop_ok es) h -> Forall untorn h ->
  sz number -> sz jump -> number + jump < 2 ^ 64 -> sz (zlen buf) ->
  let w := window m (saved h) number jump in
  zlen w * es <= zlen buf ->
  exists reqs, load_after m es slots h no_fault buf number jump =
    Done (reqs, concat w ++ skipn (length (concat w)) buf, zlen w).
Proof.
  intros m es Hm Hes slots h buf number jump Hs Hok Hu Hn Hj Hsum Hb w Hroom. unfold load_after.
  pose proof (history_inv m es Hm m slots h ltac:(lia) Hs Hok (or_intror Hu)) as HI.
  destruct (lrun (fresh m es slots) h) as [sl l]. cbn [fst snd]. cbv zeta.
  destruct (load_l m es Hm Hes m sl l (saved h) no_fault buf number jump HI ltac:(discriminate) Hn Hj Hb Hsum)
    as ([[reqs out] res] & E & R); [unfold sz in *; lia|exact Hroom|].
  exists reqs. rewrite E. clear E. unfold load_result in R. cbv zeta in R. fold w in R. cbn [no_fault] in R.
  destruct R as (_ & _ & _ & R). destruct reqs as [|[n s] [|q [|q' reqs]]].
  - destruct R as (R1 & -> & ->). assert (Ew : w = []) by (apply window_beyond; lia). rewrite Ew. reflexivity.
  - destruct R as [-> ->]. reflexivity.
  - destruct R as (_ & _ & -> & ->). reflexivity.
  - destruct R.
Qed.
Print Assumptions eventlog_load_partial.

(** C47 also after saves that failed half way through their slot, for windows that do not
    include the oldest event. *)
Theorem eventlog_load_torn : forall m es, 0 < m <= INT_MAX -> 0 <= es ->
  forall slots h buf number jump, slots_ok m es slots -> Forall (lop_ok es) h ->
  sz number -> sz jump -> number + jump < 2 ^ 64 -> sz (zlen buf) ->
  number + jump < m \/ zlen (saved h) < m ->
  let w := window m (saved h) number jump in
  zlen w * es <= zlen buf ->
  exists reqs, load_after m es slots h no_fault buf number jump =
    Done (reqs, concat w ++ skipn (length (concat w)) buf, zlen w).
Proof.
  intros m es Hm Hes slots h buf number jump Hs Hok Hn Hj Hsum Hb Hc w Hroom. unfold load_after.
  pose proof (history_inv m es Hm (m - 1) slots h ltac:(lia) Hs Hok ltac:(left; lia)) as HI.
  destruct (lrun (fresh m es slots) h) as [sl l]. cbn [fst snd]. cbv zeta.
  destruct (load_l m es Hm Hes (m - 1) sl l (saved h) no_fault buf number jump HI ltac:(discriminate) Hn Hj Hb Hsum)
    as ([[reqs out] res] & E & R); [unfold sz in *; lia|exact Hroom|].
  exists reqs. rewrite E. clear E. unfold load_result in R. cbv zeta in R. fold w in R. cbn [no_fault] in R.
  destruct R as (_ & _ & _ & R). destruct reqs as [|[n s] [|q [|q' reqs]]].
  - destruct R as (R1 & -> & ->). assert (Ew : w = []) by (apply window_beyond; lia). rewrite Ew. reflexivity.
  - destruct R as [-> ->]. reflexivity.
  - destruct R as (_ & _ & -> & ->). reflexivity.
  - destruct R.
Qed.
Print Assumptions eventlog_load_torn.

(** C47 refuted, and C51 refuted: jump + number may wrap around; then the storage is asked for
    2^64 - 1 events.  The window would have been one event. *)
Theorem eventlog_load_refuted : exists m es slots h number jump,
  0 < m <= INT_MAX /\ slots_ok m es slots /\ Forall (lop_ok es) h /\ Forall untorn h /\ sz number /\ sz jump /\
  window m (saved h) number jump = [[2]] /\
  load_after m es slots h no_fault [0; 0; 0] number jump = Undef.
Proof.
  exists 2, 1, [[0]; [0]], [LSave [1]; LSave [2]; LSave [3]], 18446744073709551615, 1.
  unfold sz, INT_MAX. split; [lia|]. split; [split; [reflexivity|repeat constructor]|].
  split; [repeat constructor|]. split; [repeat constructor|]. split; [lia|]. split; [lia|]. split; vm_compute; reflexivity.
Qed.
Print Assumptions eventlog_load_refuted.

Example eventlog_example :
  let h := [LSave [1;1]; LFail [9;9] (-1); LSave [2;2]; LSave [3;3]; LSave [4;4]; LSave [5;5]] in
  let slots := [[0;0]; [0;0]; [0;0]] in
  slots_ok 3 2 slots /\ Forall (lop_ok 2) h /\ Forall untorn h /\
  window 3 (saved h) 2 1 = [[3;3]; [4;4]] /\
  load_after 3 2 slots h no_fault [7;7;7;7;7] 2 1 = Done ([(1, 2); (1, 0)], [3;3;4;4;7], 2).
Proof.
  cbv zeta. split; [split; [reflexivity|repeat constructor]|]. split; [repeat constructor; cbn; lia|].
  split; [repeat constructor|]. split; vm_compute; reflexivity.
Qed.

Example eventlog_torn_example :
  let h := [LSave [1]; LSave [2]; LSave [3]; LTorn [4] (-1) [99]] in
  Forall (lop_ok 1) h /\ window 3 (saved h) 2 0 = [[2]; [3]] /\
  load_after 3 1 [[0]; [0]; [0]] h no_fault [7;7] 2 0 = Done ([(2, 1)], [2;3], 2).
Proof. cbv zeta. split; [repeat constructor; cbn; lia|]. split; vm_compute; reflexivity. Qed.

(** C48, whatever saves failed. *)
Theorem eventlog_total : forall m es, 0 < m <= INT_MAX ->
  forall slots h, slots_ok m es slots -> Forall (lop_ok es) h ->
  total_events (snd (lrun (fresh m es slots) h)) = Z.min m (zlen (saved h)).
Proof.
  intros m es Hm slots h Hs Hok.
  pose proof (history_inv m es Hm (m - 1) slots h ltac:(lia) Hs Hok ltac:(left; lia)) as HI.
  destruct (lrun (fresh m es slots) h) as [sl l]. exact (total_eq m es Hm _ _ _ _ HI).
Qed.
Print Assumptions eventlog_total.

Example eventlog_total_example :
  total_events (snd (lrun (fresh 3 1 [[0]; [0]; [0]]) [LSave [1]; LSave [2]; LTorn [4] (-1) [99]])) = 2 /\
  total_events (snd (lrun (fresh 2 1 [[0]; [0]]) [LSave [1]; LSave [2]; LSave [3]])) = 2.
Proof. split; reflexivity. Qed.

(** C49: the code is returned and the failed attempts of a history leave no trace. *)
Theorem eventlog_failed_save : forall m es slots h, Forall (lop_ok es) h -> Forall untorn h ->
  (forall s e c, c <> 0 -> lstep s (LFail e c) = (s, c)) /\
  lrun (fresh m es slots) h = lrun (fresh m es slots) (map LSave (saved h)).
Proof.
  intros m es slots h Hok Hu.
  assert (HF : forall s e c, c <> 0 -> lstep s (LFail e c) = (s, c)).
  { intros [sl l] e c Hc. unfold lstep, new_event. cbn [save_of fst snd].
    destruct (Z.eqb_spec c 0); [contradiction|reflexivity]. }
  split; [exact HF|]. generalize (fresh m es slots). revert Hok Hu.
  induction h as [|o h IH]; intros Hok Hu s; [reflexivity|].
  apply Forall_cons_iff in Hok as [Ho Hok]. apply Forall_cons_iff in Hu as [Hu1 Hu].
  destruct o as [e|e c|e c g]; [| |destruct Hu1].
  - change (saved (LSave e :: h)) with (e :: saved h). cbn [map lrun fold_left]. apply IH; assumption.
  - change (saved (LFail e c :: h)) with (saved h). unfold lrun at 1. cbn [fold_left]. rewrite HF by exact Ho.
    cbn [fst]. apply IH; assumption.
Qed.
Print Assumptions eventlog_failed_save.

Example eventlog_failed_example :
  lop_ok 1 (LFail [9] (-1)) /\
  lrun (fresh 3 1 [[0]; [0]; [0]]) [LSave [1]; LFail [9] (-1); LSave [2]] =
  ([[1]; [2]; [0]], mkElog 2 3 1 false).
Proof. split; [cbn; lia|reflexivity]. Qed.

(** C50 refuted: the second of two reads fails with -1, the result is still a count, 1. *)
Theorem eventlog_error_refuted : exists m es slots h fault number jump reqs out res,
  0 < m <= INT_MAX /\ slots_ok m es slots /\ Forall (lop_ok es) h /\ Forall untorn h /\
  load_after m es slots h fault [0; 0; 0] number jump = Done (reqs, out, res) /\
  length reqs = 2%nat /\ fault 1%nat = Some (-1) /\ 0 < res.
Proof.
  exists 3, 1, [[0]; [0]; [0]], [LSave [1]; LSave [2]; LSave [3]; LSave [4]],
    (fun k => if Nat.eqb k 1 then Some (-1) else None), 3, 0.
  eexists. eexists. eexists. unfold INT_MAX. split; [lia|]. split; [split; [reflexivity|repeat constructor]|].
  split; [repeat constructor|]. split; [repeat constructor|]. split; [vm_compute; reflexivity|].
  split; [reflexivity|]. split; [reflexivity|lia].
Qed.
Print Assumptions eventlog_error_refuted.

(** C50 for the first, or only, read: its error code is returned and no event delivered.  An
    error code of the second read comes back added to the length of the first. *)
Theorem eventlog_error_partial : forall m es, 0 < m <= INT_MAX -> 0 <= es ->
  forall slots h fault buf number jump, slots_ok m es slots -> Forall (lop_ok es) h -> Forall untorn h ->
  sz number -> sz jump -> number + jump < 2 ^ 64 -> sz (zlen buf) ->
  zlen (window m (saved h) number jump) * es <= zlen buf -> fault_ok fault ->
  exists reqs out res, load_after m es slots h fault buf number jump = Done (reqs, out, res) /\
    (reqs <> [] -> forall c, fault 0%nat = Some c -> res = c /\ out = buf) /\
    (forall q1 q2 c, reqs = [q1; q2] -> fault 1%nat = Some c -> fault 0%nat = None /\ res = fst q1 + c).
Proof.
  intros m es Hm Hes slots h fault buf number jump Hs Hok Hu Hn Hj Hsum Hb Hroom Hf. unfold load_after.
  pose proof (history_inv m es Hm m slots h ltac:(lia) Hs Hok (or_intror Hu)) as HI.
  destruct (lrun (fresh m es slots) h) as [sl l]. cbn [fst snd]. cbv zeta.
  destruct (load_l m es Hm Hes m sl l (saved h) fault buf number jump HI Hf Hn Hj Hb Hsum)
    as ([[reqs out] res] & E & R); [unfold sz in *; lia|exact Hroom|].
  exists reqs, out, res. split; [exact E|]. clear E. unfold load_result in R. cbv zeta in R.
  destruct R as (_ & _ & _ & R). destruct reqs as [|[n s] [|q [|q' reqs]]].
  - split; [congruence|]. intros; discriminate.
  - split; [|intros; discriminate]. intros _ c Hc. rewrite Hc in R. exact R.
  - destruct R as (_ & _ & R). split.
    + intros _ c Hc. rewrite Hc in R. destruct R.
    + intros q1 q2 c Hq Hc. rewrite Hc in R. destruct (fault 0%nat); [destruct R|]. split; [reflexivity|].
      injection Hq as <- <-. exact R.
  - destruct R.
Qed.
Print Assumptions eventlog_error_partial.

Example eventlog_error_example :
  let fault := fun _ : nat => Some (-5) in
  fault_ok fault /\
  load_after 3 1 [[0]; [0]; [0]] [LSave [1]; LSave [2]; LSave [3]; LSave [4]] fault [7;7;7] 3 0 =
  Done ([(2, 1)], [7;7;7], -5).
Proof. cbv zeta. split; [|reflexivity]. intros k c E. injection E as <-. unfold INT_MIN. lia. Qed.

(** C51 for requests with number + jump below 2^64: at most two reads, inside the array, of at
    most [m] events together, whatever the storage answers. *)
Theorem eventlog_requests_partial : forall m es, 0 < m <= INT_MAX -> 0 <= es ->
  forall slots h fault buf number jump, slots_ok m es slots -> Forall (lop_ok es) h -> Forall untorn h ->
  sz number -> sz jump -> number + jump < 2 ^ 64 -> sz (zlen buf) ->
  zlen (window m (saved h) number jump) * es <= zlen buf -> fault_ok fault ->
  exists reqs out res, load_after m es slots h fault buf number jump = Done (reqs, out, res) /\
    (forall n start, In (n, start) reqs -> 0 <= n /\ 0 <= start /\ start + n <= m) /\
    fold_right Z.add 0 (map fst reqs) <= m /\ (length reqs <= 2)%nat.
Proof.
  intros m es Hm Hes slots h fault buf number jump Hs Hok Hu Hn Hj Hsum Hb Hroom Hf. unfold load_after.
  pose proof (history_inv m es Hm m slots h ltac:(lia) Hs Hok (or_intror Hu)) as HI.
  destruct (lrun (fresh m es slots) h) as [sl l]. cbn [fst snd]. cbv zeta.
  destruct (load_l m es Hm Hes m sl l (saved h) fault buf number jump HI Hf Hn Hj Hb Hsum)
    as ([[reqs out] res] & E & R); [unfold sz in *; lia|exact Hroom|].
  exists reqs, out, res. split; [exact E|]. clear E. destruct R as (R1 & R2 & R3 & _).
  split; [|auto]. intros n start Hin. specialize (R1 _ Hin). cbn [fst snd] in R1. lia.
Qed.
Print Assumptions eventlog_requests_partial.

(** C51 refuted: here the storage is asked for 2^64 - 1 events. *)
Theorem eventlog_requests_refuted : exists m es slots h fault number jump reqs out res n start,
  0 < m <= INT_MAX /\ slots_ok m es slots /\ Forall (lop_ok es) h /\ sz number /\ sz jump /\
  load_after m es slots h fault [0; 0; 0] number jump = Done (reqs, out, res) /\
  In (n, start) reqs /\ m < start + n.
Proof.
  exists 2, 1, [[0]; [0]], [LSave [1]; LSave [2]; LSave [3]], (fun _ => Some (-1)), 18446744073709551615, 1.
  eexists. eexists. eexists. exists 18446744073709551615, 1. unfold sz, INT_MAX.
  split; [lia|]. split; [split; [reflexivity|repeat constructor]|].
  split; [repeat constructor|]. split; [lia|]. split; [lia|]. split; [vm_compute; reflexivity|]. split; [now left|lia].
Qed.
Print Assumptions eventlog_requests_refuted.

(** C138: all numbers and jumps; the claim of C47 fails exactly if the jump is within the log and the sum wraps around. *)
Theorem eventlog_load_exact : forall m es, 0 < m <= INT_MAX -> 0 <= es ->
  forall slots h buf number jump, slots_ok m es slots -> Forall (lop_ok es) h -> Forall untorn h ->
  sz number -> sz jump -> sz (zlen buf) ->
  let w := window m (saved h) number jump in
  zlen w * es <= zlen buf ->
  if (2 ^ 64 <=? number + jump) && (jump <=? Z.min m (zlen (saved h)))
  then load_after m es slots h no_fault buf number jump = Undef
  else exists reqs, load_after m es slots h no_fault buf number jump =
         Done (reqs, concat w ++ skipn (length (concat w)) buf, zlen w).
Proof.
  intros m es Hm Hes slots h buf number jump Hs Hok Hu Hn Hj Hb w Hroom.
  destruct (Z.leb_spec (2 ^ 64) (number + jump)) as [H|H].
  - pose proof (history_inv m es Hm m slots h ltac:(lia) Hs Hok (or_intror Hu)) as HI.
    unfold load_after. destruct (lrun (fresh m es slots) h) as [sl l]. cbn [fst snd].
    pose proof (wrapped_l m es Hm m sl l (saved h) buf number jump HI Hn Hj H) as E. rewrite E. clear E. cbn [andb].
    destruct (Z.ltb_spec (Z.min m (zlen (saved h))) jump), (Z.leb_spec jump (Z.min m (zlen (saved h)))); try lia; [|reflexivity].
    exists []. assert (E : w = []).
    { unfold w, window, last_n at 1, drop_last, last_n. pose proof (zlen_nonneg _ (saved h)).
      assert (zlen (skipn (Z.to_nat (zlen (saved h) - m)) (saved h)) <= Z.min m (zlen (saved h))).
      { unfold zlen at 1. rewrite skipn_length. unfold zlen in *. lia. }
      replace (Z.to_nat (zlen (skipn (Z.to_nat (zlen (saved h) - m)) (saved h)) - jump)) with 0%nat by lia. now rewrite skipn_nil. }
    rewrite E. reflexivity.
  - cbn [andb]. exact (eventlog_load_partial m es Hm Hes slots h buf number jump Hs Hok Hu Hn Hj H Hb Hroom).
Qed.
Print Assumptions eventlog_load_exact.

Example eventlog_load_exact_example :
  let h := [LSave [1]; LSave [2]; LSave [3]] in
  window 2 (saved h) (2 ^ 64 - 1) 1 = [[2]] /\ load_after 2 1 [[0]; [0]] h no_fault [0; 0; 0] (2 ^ 64 - 1) 1 = Undef /\
  load_after 2 1 [[0]; [0]] h no_fault [0; 0; 0] (2 ^ 64 - 1) 3 = Done ([], [0; 0; 0], 0) /\
  load_after 2 1 [[0]; [0]] h no_fault [0; 0; 0] (2 ^ 64 - 2) 1 = Done ([(1, 1)], [2; 0; 0], 1).
Proof. vm_compute. repeat split. Qed.

(** C140 is false: asked for two events, the storage delivers one; the second read delivers one more.  The answer is 2,
    but the second event in the buffer is none of the log's. *)
Theorem eventlog_short_reads_refuted : exists m es slots h give number jump buf reqs out res,
  0 < m <= INT_MAX /\ slots_ok m es slots /\ Forall (lop_ok es) h /\ Forall untorn h /\ (forall k, 0 <= give k) /\
  load_some_after m es slots h give buf number jump = Done (reqs, out, res) /\
  window m (saved h) number jump = [[2]; [3]; [4]] /\ res = 2 /\ out = [2; 77; 4].
Proof.
  exists 3, 1, [[0]; [0]; [0]], [LSave [1]; LSave [2]; LSave [3]; LSave [4]], (fun _ => 1), 3, 0, [77; 77; 77].
  do 3 eexists. unfold INT_MAX. split; [lia|]. split; [split; [reflexivity|repeat constructor]|].
  split; [repeat constructor|]. split; [repeat constructor|]. split; [lia|]. split; [vm_compute; reflexivity|]. repeat split.
Qed.
Print Assumptions eventlog_short_reads_refuted.

(** C140, exactly: buffer and answer for every storage that delivers the first of the events it is asked for. *)
Theorem eventlog_short_reads_exact_partial : forall m es, 0 < m <= INT_MAX -> 0 <= es ->
  forall slots h give buf number jump, slots_ok m es slots -> Forall (lop_ok es) h -> Forall untorn h ->
  (forall k, 0 <= give k) -> sz number -> sz jump -> number + jump < 2 ^ 64 -> sz (zlen buf) ->
  zlen (window m (saved h) number jump) * es <= zlen buf ->
  let d := delivered m es (saved h) number jump (give 0%nat) (give 1%nat) buf in
  exists reqs, load_some_after m es slots h give buf number jump = Done (reqs, fst d, snd d).
Proof.
  intros m es Hm Hes slots h give buf number jump Hs Hok Hu Hg Hn Hj Hsum Hb Hroom d. unfold load_some_after.
  pose proof (history_inv m es Hm m slots h ltac:(lia) Hs Hok (or_intror Hu)) as HI.
  destruct (lrun (fresh m es slots) h) as [sl l]. cbn [fst snd]. cbv zeta.
  exact (some_l m es Hm Hes sl l (saved h) give buf number jump HI Hg Hn Hj Hb Hsum Hroom).
Qed.
Print Assumptions eventlog_short_reads_exact_partial.

(** C140 for a single read, a complete first read, or a read that delivers nothing: the answer counts the events at the
    start of the buffer, the oldest of the window. *)
Theorem eventlog_short_reads_partial : forall m es, 0 < m <= INT_MAX -> 0 <= es ->
  forall slots h give buf number jump, slots_ok m es slots -> Forall (lop_ok es) h -> Forall untorn h ->
  (forall k, 0 <= give k) -> sz number -> sz jump -> number + jump < 2 ^ 64 -> sz (zlen buf) ->
  let w := window m (saved h) number jump in
  zlen w * es <= zlen buf ->
  let t := to_the_end m (saved h) (zlen w) jump in
  zlen w <= t \/ t <= give 0%nat \/ give 0%nat = 0 \/ give 1%nat = 0 ->
  exists reqs r, load_some_after m es slots h give buf number jump =
      Done (reqs, concat (firstn (Z.to_nat r) w) ++ skipn (Z.to_nat (r * es)) buf, r) /\ 0 <= r <= zlen w.
Proof.
  intros m es Hm Hes slots h give buf number jump Hs Hok Hu Hg Hn Hj Hsum Hb w Hroom t Hc.
  destruct (eventlog_short_reads_exact_partial m es Hm Hes slots h give buf number jump Hs Hok Hu Hg Hn Hj Hsum Hb Hroom) as (reqs & E).
  exists reqs. rewrite E. clear E. exact (contiguous_l m es Hm Hes (saved h) number jump (give 0%nat) (give 1%nat) buf (Hg _) (Hg _) reqs Hc).
Qed.
Print Assumptions eventlog_short_reads_partial.

Example eventlog_short_reads_example :
  let h := [LSave [1]; LSave [2]; LSave [3]; LSave [4]] in
  to_the_end 3 (saved h) 3 0 = 2 /\
  load_some_after 3 1 [[0]; [0]; [0]] h (fun k => if Nat.eqb k 0 then 2 else 0) [7; 7; 7] 3 0 = Done ([(2, 1); (1, 0)], [2; 3; 7], 2) /\
  load_some_after 3 1 [[0]; [0]; [0]] h (fun _ => 0) [7; 7; 7] 3 0 = Done ([(2, 1)], [7; 7; 7], 0) /\
  load_some_after 3 1 [[0]; [0]; [0]] h (fun _ => 1) [7; 7; 7] 2 0 = Done ([(1, 2); (1, 0)], [3; 4; 7], 2).
Proof. vm_compute. repeat split. Qed.
