(** Property C199: do the callbacks of a periodic timer keep to multiples of the period? *)
From Verif Require Import Base BaseLemmas TimeSpec StopwatchModel TimerModel TimerSpec TimerSystem TimerProofs TimerProps.
From Verif Require Import TimerDriftSpec TimerDriftProofs.

(** C199 refuted: period 10, polled every 7 units; the third callback comes at 42, more than
    one polling gap after 30.  The period is counted from the poll that found the timer due. *)
Theorem timer_drift_refuted : exists p J (polls : list (Z * Z)) k t,
  0 < p < 2 ^ 31 /\ 0 <= J < 2 ^ 31 /\ gaps_ok J 0 polls /\
  nth_error (fired polls (timer_run 32 (fun (c : Z) t (u a : Z) => t)
    (gel_timer_set_autoreload (gel_timer_init STOPWATCH_NULL p (counter 32 0) 8 9) 1) (poll_all polls))) k = Some t /\
  t > (Z.of_nat k + 1) * p + J.
Proof.
  exists 10, 7, [(7, 1); (14, 1); (21, 1); (28, 1); (35, 1); (42, 1)], 2%nat, 42.
  split; [lia|]. split; [lia|]. split; [cbn; lia|]. split; [vm_compute; reflexivity|]. reflexivity.
Qed.
Print Assumptions timer_drift_refuted.

(** C199, what holds: with polls at most [J] apart each callback comes [p] to [p+J] after the
    one before, the k-th one k*p to k*(p+J) after the start, and none is missing: by
    n*(p+J) after the start there have been n.  The callback leaves autoreload and period
    alone; [p] and [J] are below half the range of the clock. *)
Theorem timer_drift_partial : forall w Cb User Arg (call : Cb -> timer Cb Arg -> User -> Arg -> timer Cb Arg)
    s p J t0 cb arg polls b, 0 < w -> 0 < p < 2 ^ (w - 1) -> 0 <= J < 2 ^ (w - 1) -> 0 < b < 256 ->
  (forall t u, autoreload t <> 0 -> total_time (stopwatch_ t) = p -> callback t = cb -> targ t = arg ->
     let t' := call cb t u arg in
     autoreload t' <> 0 /\ total_time (stopwatch_ t') = p /\ callback t' = cb /\ targ t' = arg) ->
  gaps_ok J t0 polls ->
  let ts := fired polls (timer_run w call
    (gel_timer_set_autoreload (gel_timer_init s p (counter w t0) cb arg) b) (poll_all polls)) in
  (forall k t, nth_error ts k = Some t -> let before := nth k (t0 :: ts) t0 in before + p <= t <= before + p + J) /\
  (forall k t, nth_error ts k = Some t -> t0 + (Z.of_nat k + 1) * p <= t <= t0 + (Z.of_nat k + 1) * (p + J)) /\
  (forall n, t0 + n * (p + J) <= last_poll t0 polls -> n <= zlen ts).
Proof.
  intros w Cb User Arg call s p J t0 cb arg polls b Hw Hp HJ Hb Hcb Hg.
  assert (H2 : 2 ^ w = 2 * 2 ^ (w - 1)) by (rewrite <- Z.pow_succ_r by lia; f_equal; lia).
  assert (Hr : polls_regular w p t0 polls) by (apply (gaps_regular w p J Hp HJ polls t0 t0); [lia|exact Hg]).
  cbv zeta. rewrite (timer_autoreload w Cb User Arg call s p t0 cb arg polls b Hw ltac:(lia) Hb Hcb Hr).
  rewrite (fired_map (fun u => (cb, u, arg))). split; [|split].
  - eapply drift_steps with (prev := t0); eauto; lia.
  - eapply drift_sum with (prev := t0); eauto; lia.
  - intros n. eapply drift_count with (prev := t0); eauto; lia.
Qed.
Print Assumptions timer_drift_partial.

(** Across the wrap-around of a 32 bit clock. *)
Example timer_drift_case :
  let t0 := 2 ^ 32 - 20 in
  let polls := map (fun t => (t0 + t, 1)) [0; 7; 14; 21; 25; 28; 35; 36; 42] in
  gaps_ok 7 t0 polls /\ last_poll t0 polls = t0 + 42 /\
  fired polls (timer_run 32 (fun (c : Z) t (u a : Z) => t)
    (gel_timer_set_autoreload (gel_timer_init STOPWATCH_NULL 10 (counter 32 t0) 8 9) 1) (poll_all polls)) =
  [t0 + 14; t0 + 25; t0 + 35].
Proof. cbv zeta. split; [cbn; lia|]. split; vm_compute; reflexivity. Qed.
