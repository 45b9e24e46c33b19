(** Model of gel/timer/timer.c.

    Simplifications: the callback pointer is an element of an abstract type [Cb]
    interpreted by [call], which receives the timer, the user pointer and the argument and
    returns the timer as the callback leaves it; any other effect of the callback is
    represented by the call being reported.  [w] is the width of unsigned long. *)
From Verif Require Import Base StopwatchModel.

Section Timer.
Variable w : Z.
Context {Cb User Arg : Type}.

(** timer.h:15-20. *)
Record timer := mkTimer { autoreload : Z; stopwatch_ : stopwatch; callback : Cb; targ : Arg }.

Definition with_sw (t : timer) (s : stopwatch) : timer := mkTimer (autoreload t) s (callback t) (targ t).

(** timer.c:5-13; the whole struct is overwritten. *)
Definition gel_timer_init (s : stopwatch) (period timestamp : Z) (cb : Cb) (arg : Arg) : timer :=
  mkTimer 0 (stopwatch_setngo (stopwatch_init s) period timestamp) cb arg.

(** timer.c:16-30. *)
Definition gel_timer_reset (t : timer) (timestamp : Z) : timer :=
  match stopwatch_get_state (stopwatch_ t) with
  | TIMER_COUNTING => with_sw t (fst (stopwatch_restart (stopwatch_ t) timestamp))
  | TIMER_PAUSED =>
      with_sw t (fst (stopwatch_pause w (fst (stopwatch_restart (stopwatch_ t) timestamp)) timestamp))
  | TIMER_STOPPED => t
  end.

(** timer.c:33-35. *)
Definition gel_timer_stop (t : timer) : timer := with_sw t (fst (stopwatch_stop (stopwatch_ t))).

(** timer.c:38-40. *)
Definition gel_timer_resume (t : timer) (timestamp : Z) : timer :=
  with_sw t (fst (stopwatch_start (stopwatch_ t) timestamp)).

(** timer.c:43-45; the parameter is a uint8_t. *)
Definition gel_timer_set_autoreload (t : timer) (a : Z) : timer :=
  mkTimer (wrap 8 a) (stopwatch_ t) (callback t) (targ t).

(** timer.c:48-50. *)
Definition gel_timer_pause (t : timer) (timestamp : Z) : timer :=
  with_sw t (fst (stopwatch_pause w (stopwatch_ t) timestamp)).

(** timer.c:53-67. *)
Definition gel_timer_change_period (t : timer) (period timestamp : Z) : timer :=
  match stopwatch_get_state (stopwatch_ t) with
  | TIMER_COUNTING => with_sw t (stopwatch_change (stopwatch_ t) period timestamp)
  | TIMER_PAUSED =>
      with_sw t (fst (stopwatch_pause w (stopwatch_change (stopwatch_ t) period timestamp) timestamp))
  | TIMER_STOPPED => t
  end.

Variable call : Cb -> timer -> User -> Arg -> timer.

(** timer.c:70-82; the last component reports the callback invocation. *)
Definition gel_timer_manage_callback (t : timer) (timestamp : Z) (user : User)
  : timer * Z * option (Cb * User * Arg) :=
  if stopwatch_is_timer_reached w (stopwatch_ t) timestamp then
    let t1 := call (callback t) t user (targ t) in
    let t2 := if negb (autoreload t1 =? 0)
              then with_sw t1 (fst (stopwatch_restart (stopwatch_ t1) timestamp))
              else with_sw t1 (fst (stopwatch_stop (stopwatch_ t1))) in
    (t2, 1, Some (callback t, user, targ t))
  else (t, 0, None).

(** timer.c:85-87. *)
Definition gel_timer_get_remaining (t : timer) (timestamp : Z) : Z :=
  stopwatch_get_remaining w (stopwatch_ t) timestamp.

End Timer.
Arguments timer : clear implicits.
