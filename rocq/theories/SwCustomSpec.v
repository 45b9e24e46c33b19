(** What a stopwatch on a [T]-bit clock can be asked for. *)
From Verif Require Import Base StopwatchSpec.

(** The current counting stretch is shorter than the clock's range [T]; if the type is
    narrower than int ([I]) the clock has also not wrapped within it. *)
Definition stretch_fits (I T : Z) (s : watch) (now : Z) : Prop :=
  match wphase s with
  | Running since => 0 <= now - since < 2 ^ T /\ (T < I -> since / 2 ^ T = now / 2 ^ T)
  | _ => True
  end.

Definition custom_call_ok (I L T : Z) (s : watch) (now : Z) (o : sw_op) : Prop :=
  match o with
  | Pause => stretch_fits I T s now
  | Change v | SetPeriod v | SetElapsed v => 0 <= v < 2 ^ L
  | _ => True
  end.

Fixpoint custom_history_ok (I L T : Z) (s : watch) (h : list (Z * sw_op)) : Prop :=
  match h with
  | [] => True
  | (now, o) :: h' => custom_call_ok I L T s now o /\ custom_history_ok I L T (watch_step s now o) h'
  end.

(** What is left of the period when the current stretch starts. *)
Definition left_at_start (s : watch) : Z := period s - acc s.
