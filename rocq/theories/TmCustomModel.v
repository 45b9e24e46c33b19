(** gel/timer/timer.c compiled with GEL_CUSTOM_TIMESTAMP_TYPE (timecheck.h:9-13).

    As [TimerModel] on top of [SwCustomModel]; [I], [L] bits of int and long, [T] bits of
    timestamp_t.  The functions that do not reach timecheck.h are those of [TimerModel]. *)
From Verif Require Import Base StopwatchModel SwCustomModel TimerModel.

Section Custom.
Variables I L T : Z.
Context {Cb User Arg : Type}.

(** timer.c:16-30. *)
Definition c_timer_reset (t : timer Cb Arg) (timestamp : Z) : timer Cb Arg :=
  match stopwatch_get_state (stopwatch_ t) with
  | TIMER_COUNTING => with_sw t (fst (stopwatch_restart (stopwatch_ t) timestamp))
  | TIMER_PAUSED =>
      with_sw t (fst (c_pause I L T (fst (stopwatch_restart (stopwatch_ t) timestamp)) timestamp))
  | TIMER_STOPPED => t
  end.

(** timer.c:48-50. *)
Definition c_timer_pause (t : timer Cb Arg) (timestamp : Z) : timer Cb Arg :=
  with_sw t (fst (c_pause I L T (stopwatch_ t) timestamp)).

(** timer.c:53-67. *)
Definition c_timer_change_period (t : timer Cb Arg) (period timestamp : Z) : timer Cb Arg :=
  match stopwatch_get_state (stopwatch_ t) with
  | TIMER_COUNTING => with_sw t (stopwatch_change (stopwatch_ t) period timestamp)
  | TIMER_PAUSED =>
      with_sw t (fst (c_pause I L T (stopwatch_change (stopwatch_ t) period timestamp) timestamp))
  | TIMER_STOPPED => t
  end.

Variable call : Cb -> timer Cb Arg -> User -> Arg -> timer Cb Arg.

(** timer.c:70-82. *)
Definition c_timer_manage_callback (t : timer Cb Arg) (timestamp : Z) (user : User)
  : timer Cb Arg * Z * option (Cb * User * Arg) :=
  if c_is_timer_reached I L T (stopwatch_ t) timestamp then
    let t1 := call (callback t) t user (targ t) in
    let t2 := if negb (autoreload t1 =? 0)
              then with_sw t1 (fst (stopwatch_restart (stopwatch_ t1) timestamp))
              else with_sw t1 (fst (stopwatch_stop (stopwatch_ t1))) in
    (t2, 1, Some (callback t, user, targ t))
  else (t, 0, None).

(** timer.c:85-87. *)
Definition c_timer_get_remaining (t : timer Cb Arg) (timestamp : Z) : Z :=
  c_get_remaining I L T (stopwatch_ t) timestamp.

End Custom.
