(** A history of calls executed by the stopwatch model, on a [w]-bit clock. *)
From Verif Require Import Base TimeSpec StopwatchModel StopwatchSpec.

Definition sw_call (w : Z) (t : stopwatch) (now : Z) (o : sw_op) : stopwatch * Z :=
  match o with
  | Start => stopwatch_start t (counter w now)
  | Stop => stopwatch_stop t
  | Pause => stopwatch_pause w t (counter w now)
  | Restart => stopwatch_restart t (counter w now)
  | Change p => (stopwatch_change t p (counter w now), 0)
  | SetPeriod p => stopwatch_set t p
  | SetElapsed e => stopwatch_set_elapsed t e
  end.

Definition sw_run (w : Z) (t : stopwatch) (h : list (Z * sw_op)) : stopwatch :=
  fold_left (fun t c => fst (sw_call w t (fst c) (snd c))) h t.

Definition state_of (ph : phase) : sw_state :=
  match ph with Idle => TIMER_STOPPED | Running _ => TIMER_COUNTING | Held => TIMER_PAUSED end.
