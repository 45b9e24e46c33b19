(** gel/timer/stopwatch.c compiled with GEL_CUSTOM_TIMESTAMP_TYPE (timecheck.h:9-13).

    [I], [L] bits of int and long, [T] bits of the unsigned timestamp_t.  The stopwatch stores
    unsigned long; the inline functions of timecheck.h take timestamp_t, so every argument is
    converted ([wrap T]) and the result converted back to unsigned long (no change).  The
    functions that do not call timecheck.h are those of [StopwatchModel]. *)
From Verif Require Import Base TimeModel StopwatchModel.

Section Custom.
Variables I L T : Z.

(** stopwatch.c:62-73. *)
Definition c_pause (t : stopwatch) (timestamp : Z) : stopwatch * Z :=
  match sstate t with
  | TIMER_COUNTING =>
      (mkSw (starting_time t)
            (wrap L (elapsed_time t + time_interval I L T (wrap T (starting_time t)) (wrap T timestamp)))
            (total_time t) TIMER_PAUSED, 0)
  | TIMER_STOPPED | TIMER_PAUSED => (t, -1)
  end.

(** stopwatch.c:107-112. *)
Definition c_get_elapsed (t : stopwatch) (timestamp : Z) : Z :=
  match sstate t with
  | TIMER_COUNTING =>
      wrap L (elapsed_time t + time_interval I L T (wrap T (starting_time t)) (wrap T timestamp))
  | _ => elapsed_time t
  end.

(** stopwatch.c:125-128. *)
Definition c_get_remaining (t : stopwatch) (timestamp : Z) : Z :=
  let elapsed := c_get_elapsed t timestamp in
  if elapsed <? total_time t then wrap L (total_time t - elapsed) else 0.

(** stopwatch.c:138-156. *)
Definition c_is_timer_reached (t : stopwatch) (timestamp : Z) : bool :=
  match sstate t with
  | TIMER_STOPPED => false
  | TIMER_COUNTING =>
      if elapsed_time t <? total_time t then
        is_expired I L T (wrap T (starting_time t)) (wrap T timestamp)
          (wrap T (wrap L (total_time t - elapsed_time t)))
      else true
  | TIMER_PAUSED => total_time t <=? elapsed_time t
  end.

End Custom.
