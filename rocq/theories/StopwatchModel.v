(** Model of gel/timer/stopwatch.c and the macros of stopwatch.h.

    [w] is the width of unsigned long; timestamp_t is its default, unsigned long, so the
    timecheck functions are used with int, long and timestamp width [w] (no promotion).
    A function returning void returns the new state only. *)
From Verif Require Import Base TimeModel.

(** stopwatch.h:26-30. *)
Inductive sw_state := TIMER_STOPPED | TIMER_COUNTING | TIMER_PAUSED.

(** stopwatch.h:33-38. *)
Record stopwatch := mkSw { starting_time : Z; elapsed_time : Z; total_time : Z; sstate : sw_state }.

(** stopwatch.h:21. *)
Definition STOPWATCH_NULL : stopwatch := mkSw 0 0 0 TIMER_STOPPED.

Section Stopwatch.
Variable w : Z.

(** stopwatch.c:27-32. *)
Definition stopwatch_init (t : stopwatch) : stopwatch := mkSw 0 0 0 TIMER_STOPPED.

(** stopwatch.c:36-49. *)
Definition stopwatch_start (t : stopwatch) (timestamp : Z) : stopwatch * Z :=
  match sstate t with
  | TIMER_STOPPED | TIMER_PAUSED => (mkSw timestamp (elapsed_time t) (total_time t) TIMER_COUNTING, 0)
  | TIMER_COUNTING => (t, -1)
  end.

(** stopwatch.c:53-58. *)
Definition stopwatch_stop (t : stopwatch) : stopwatch * Z :=
  (mkSw 0 0 (total_time t) TIMER_STOPPED, 0).

(** stopwatch.c:62-73. *)
Definition stopwatch_pause (t : stopwatch) (timestamp : Z) : stopwatch * Z :=
  match sstate t with
  | TIMER_COUNTING =>
      (mkSw (starting_time t)
            (wrap w (elapsed_time t + time_interval w w w (starting_time t) timestamp))
            (total_time t) TIMER_PAUSED, 0)
  | TIMER_STOPPED | TIMER_PAUSED => (t, -1)
  end.

(** stopwatch.c:77-80. *)
Definition stopwatch_restart (t : stopwatch) (timestamp : Z) : stopwatch * Z :=
  let (t1, _) := stopwatch_stop t in stopwatch_start t1 timestamp.

(** stopwatch.c:84-87. *)
Definition stopwatch_change (t : stopwatch) (period timestamp : Z) : stopwatch :=
  let t1 := mkSw (starting_time t) (elapsed_time t) period (sstate t) in
  fst (stopwatch_restart t1 timestamp).

(** stopwatch.c:91-97. *)
Definition stopwatch_set (t : stopwatch) (period : Z) : stopwatch * Z :=
  match sstate t with
  | TIMER_STOPPED => (mkSw (starting_time t) (elapsed_time t) period (sstate t), 0)
  | _ => (t, -1)
  end.

(** stopwatch.c:101-103. *)
Definition stopwatch_get_state (t : stopwatch) : sw_state := sstate t.

(** stopwatch.c:107-112. *)
Definition stopwatch_get_elapsed (t : stopwatch) (timestamp : Z) : Z :=
  match sstate t with
  | TIMER_COUNTING => wrap w (elapsed_time t + time_interval w w w (starting_time t) timestamp)
  | _ => elapsed_time t
  end.

(** stopwatch.c:115-122. *)
Definition stopwatch_set_elapsed (t : stopwatch) (elapsed : Z) : stopwatch * Z :=
  match sstate t with
  | TIMER_STOPPED => (mkSw (starting_time t) elapsed (total_time t) (sstate t), 0)
  | _ => (t, -1)
  end.

(** stopwatch.c:125-128. *)
Definition stopwatch_get_remaining (t : stopwatch) (timestamp : Z) : Z :=
  let elapsed := stopwatch_get_elapsed t timestamp in
  if elapsed <? total_time t then wrap w (total_time t - elapsed) else 0.

(** stopwatch.c:132-134. *)
Definition stopwatch_get_total_time (t : stopwatch) : Z := total_time t.

(** stopwatch.c:138-156. *)
Definition stopwatch_is_timer_reached (t : stopwatch) (timestamp : Z) : bool :=
  match sstate t with
  | TIMER_STOPPED => false
  | TIMER_COUNTING =>
      if elapsed_time t <? total_time t then
        is_expired w w w (starting_time t) timestamp (wrap w (total_time t - elapsed_time t))
      else true
  | TIMER_PAUSED => total_time t <=? elapsed_time t
  end.

(** stopwatch.h:23, the macro stopwatch_setngo. *)
Definition stopwatch_setngo (t : stopwatch) (duration timestamp : Z) : stopwatch :=
  fst (stopwatch_start (fst (stopwatch_set t duration)) timestamp).

End Stopwatch.
