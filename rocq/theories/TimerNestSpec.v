(** What timer callbacks may do, and what a history of nested callbacks must look like. *)
From Verif Require Import Base StopwatchModel TimerModel TimerNestModel.

Section TimerNestSpec.
Context {Cb User Arg : Type}.

(** Only timers [0 .. n-1] are used, and none is resumed. *)
Fixpoint tame (n : Z) (b : body User) : Prop :=
  match b with
  | Return => True
  | Do i o k => 0 <= i < n /\ (forall now, o <> OResume now) /\ tame n k
  | Ask i _ k => 0 <= i < n /\ forall r, tame n (k r)
  | Poll i _ _ k => 0 <= i < n /\ forall r, tame n (k r)
  end.

(** The first thing a callback does is to stop its own timer. *)
Definition stops_first (n i : Z) (b : body User) : Prop := exists k, b = Do i OStop k /\ tame n k.

(** Calls are properly nested, and no timer's callback is called while it runs; those of [running] are running. *)
Inductive nested (running : list Z) : list (ev Cb User Arg) -> Prop :=
| nested_nil : nested running []
| nested_call : forall i c u a inner rest, ~ In i running -> nested (i :: running) inner -> nested running rest ->
    nested running (Began i c u a :: inner ++ Ended i :: rest).

(** A callback that makes a list of calls on its own timer [i]. *)
Fixpoint own_calls (i : Z) (l : list op) : body User :=
  match l with [] => Return | o :: l => Do i o (own_calls i l) end.

(** Timer [t] right after its callback: counting from [now], or stopped. *)
Definition reloaded (now : Z) (t : timer Cb Arg) : Prop :=
  if autoreload t =? 0 then sstate (stopwatch_ t) = TIMER_STOPPED
  else sstate (stopwatch_ t) = TIMER_COUNTING /\ starting_time (stopwatch_ t) = now /\ elapsed_time (stopwatch_ t) = 0.

End TimerNestSpec.
