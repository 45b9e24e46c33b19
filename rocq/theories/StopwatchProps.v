(** Properties C62-C65: the stopwatch. [w] is the width of unsigned long; [t] is any memory content. *)
From Coq Require Import ZifyBool.
From Verif Require Import Base BaseLemmas TimeModel TimeSpec TimeProofs
  StopwatchModel StopwatchSpec StopwatchSystem StopwatchProofs.

(** C62: elapsed time over any history, at any instant [now]. *)
Theorem stopwatch_elapsed : forall w t h now, 0 < w -> history_ok w new_watch h ->
  let s := watch_run new_watch h in
  stretch_ok w s now ->
  stopwatch_get_elapsed w (sw_run w (stopwatch_init t) h) (counter w now) = elapsed s now mod 2 ^ w.
Proof. exact sw_elapsed_l. Qed.
Print Assumptions stopwatch_elapsed.

Definition sw_history : list (Z * sw_op) :=
  [(0, SetPeriod 100); (2 ^ 32 - 10, Start); (2 ^ 32 + 20, Pause); (2 ^ 32 + 500, Start)].

Example stopwatch_elapsed_example :
  history_ok 32 new_watch sw_history /\ stretch_ok 32 (watch_run new_watch sw_history) (2 ^ 32 + 525) /\
  elapsed (watch_run new_watch sw_history) (2 ^ 32 + 525) = 55 /\
  stopwatch_get_elapsed 32 (sw_run 32 (stopwatch_init (mkSw 7 7 7 TIMER_PAUSED)) sw_history) 525 = 55.
Proof. repeat split; vm_compute; congruence. Qed.

(** C63 refuted: stopping a stopped stopwatch reports success. *)
Theorem stopwatch_codes_refuted : exists t, refused Stop (wphase new_watch) = true /\
  forall w, snd (sw_call w (sw_run w (stopwatch_init t) []) 0 Stop) <> -1.
Proof. exists STOPWATCH_NULL. split; [reflexivity|]. cbn. congruence. Qed.
Print Assumptions stopwatch_codes_refuted.

(** C63 for every call but stopping a stopped stopwatch: refused ones return -1 and change nothing, others return 0;
    the state and the period are those of the reference. *)
Theorem stopwatch_codes_partial : forall w t h now o, 0 < w -> history_ok w new_watch h ->
  let s := watch_run new_watch h in let m := sw_run w (stopwatch_init t) h in
  (o = Stop -> wphase s <> Idle) ->
  if refused o (wphase s) then sw_call w m now o = (m, -1) else snd (sw_call w m now o) = 0.
Proof. exact sw_codes_l. Qed.
Print Assumptions stopwatch_codes_partial.

Theorem stopwatch_states : forall w t h, 0 < w -> history_ok w new_watch h ->
  stopwatch_get_state (sw_run w (stopwatch_init t) h) = state_of (wphase (watch_run new_watch h)) /\
  stopwatch_get_total_time (sw_run w (stopwatch_init t) h) = period (watch_run new_watch h).
Proof. exact sw_state_l. Qed.
Print Assumptions stopwatch_states.

Example stopwatch_codes_example :
  refused Start (wphase (watch_run new_watch sw_history)) = true /\
  refused Pause (wphase (watch_run new_watch sw_history)) = false.
Proof. split; reflexivity. Qed.

(** STOPWATCH_NULL is an initialised stopwatch, so everything here holds of it too; stopping
    a stopped stopwatch reports success. *)
Theorem stopwatch_null : forall t, stopwatch_init t = STOPWATCH_NULL /\ snd (stopwatch_stop STOPWATCH_NULL) = 0 /\
  stopwatch_get_state STOPWATCH_NULL = TIMER_STOPPED.
Proof. now intros. Qed.
Print Assumptions stopwatch_null.

(** C64: reached iff nothing remains iff the period has elapsed. *)
Theorem stopwatch_reached : forall w t h now, 0 < w -> history_ok w new_watch h ->
  let s := watch_run new_watch h in let m := sw_run w (stopwatch_init t) h in
  stretch_ok w s now -> elapsed s now < 2 ^ w -> period s < 2 ^ (w - 1) ->
  stopwatch_get_remaining w m (counter w now) = Z.max 0 (period s - elapsed s now) /\
  stopwatch_is_timer_reached w m (counter w now) =
    match wphase s with Idle => false | _ => period s <=? elapsed s now end.
Proof. exact sw_reached_l. Qed.
Print Assumptions stopwatch_reached.

Example stopwatch_reached_example :
  let m := sw_run 32 (stopwatch_init STOPWATCH_NULL) sw_history in
  period (watch_run new_watch sw_history) < 2 ^ 31 /\
  stopwatch_get_remaining 32 m 525 = 45 /\ stopwatch_is_timer_reached 32 m 569 = false /\
  stopwatch_is_timer_reached 32 m 570 = true.
Proof. repeat split. Qed.

(** C65 refuted: beyond half the range the elapsed time runs backwards, and a period of
    half the range or more is reached at once. *)
Theorem stopwatch_any_duration_refuted :
  let m p := stopwatch_setngo (stopwatch_init STOPWATCH_NULL) p 0 in
  (exists p t1 t2, 0 <= t1 < t2 /\ t2 < 2 ^ 32 /\
     stopwatch_get_elapsed 32 (m p) t2 < stopwatch_get_elapsed 32 (m p) t1) /\
  (exists p, 0 < p < 2 ^ 32 /\ stopwatch_is_timer_reached 32 (m p) 0 = true).
Proof.
  split.
  - exists 100, (2 ^ 31), (2 ^ 31 + 1). repeat split; vm_compute; congruence.
  - exists (2 ^ 31). repeat split.
Qed.
Print Assumptions stopwatch_any_duration_refuted.

(** C65, exact: after [d] ticks the elapsed time shown is the shorter way around the
    counter, and a period [p] is reported reached at the start iff it is 0 or at least half
    the range. *)
Theorem stopwatch_any_duration_partial : forall w t p t0 d, 0 < w -> 0 <= p < 2 ^ w -> 0 <= d < 2 ^ w ->
  let m := stopwatch_setngo (stopwatch_init t) p (counter w t0) in
  stopwatch_get_elapsed w m (counter w (t0 + d)) = Z.min d (2 ^ w - d) /\
  stopwatch_is_timer_reached w m (counter w t0) = (p =? 0) || (2 ^ (w - 1) <=? p).
Proof.
  intros w t p t0 d Hw Hp Hd m. destruct (pow_half w Hw). split.
  - unfold stopwatch_get_elapsed, m, stopwatch_setngo, stopwatch_start, stopwatch_set, stopwatch_init; cbn.
    rewrite time_interval_far_l by lia. apply wrap_small. lia.
  - unfold stopwatch_is_timer_reached, m, stopwatch_setngo, stopwatch_start, stopwatch_set, stopwatch_init; cbn.
    destruct (Z.ltb_spec 0 p); [|lia].
    rewrite Z.sub_0_r, (wrap_small w p) by lia.
    unfold is_expired, is_loosely_expired, time_after_or_equal.
    rewrite plus_counter, sdiff_counter by lia.
    replace (t0 + p - t0) with p by lia. unfold swrap. cbv zeta. rewrite Z.mod_small by lia.
    destruct (Z.ltb_spec p (2 ^ (w - 1))); lia.
Qed.
Print Assumptions stopwatch_any_duration_partial.
