(** Histories of a stopwatch compiled with a [T]-bit timestamp type.  The application passes
    the value of a [C]-bit clock: [C] = [T] when it keeps its time in a timestamp_t. *)
From Verif Require Import Base TimeSpec StopwatchModel StopwatchSpec SwCustomModel.

Definition c_call (I L T C : Z) (t : stopwatch) (now : Z) (o : sw_op) : stopwatch * Z :=
  match o with
  | Start => stopwatch_start t (counter C now)
  | Stop => stopwatch_stop t
  | Pause => c_pause I L T t (counter C now)
  | Restart => stopwatch_restart t (counter C now)
  | Change p => (stopwatch_change t p (counter C now), 0)
  | SetPeriod p => stopwatch_set t p
  | SetElapsed e => stopwatch_set_elapsed t e
  end.

Definition c_run (I L T C : Z) (t : stopwatch) (h : list (Z * sw_op)) : stopwatch :=
  fold_left (fun t c => fst (c_call I L T C t (fst c) (snd c))) h t.
