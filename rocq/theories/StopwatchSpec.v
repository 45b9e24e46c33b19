(** A stopwatch in true, unbounded time. *)
From Verif Require Import Base.

Inductive phase := Idle | Running (since : Z) | Held.

(** [acc]: time counted before the current stretch; [period]: the target. *)
Record watch := mkWatch { wphase : phase; acc : Z; period : Z }.

Definition new_watch : watch := mkWatch Idle 0 0.

Definition elapsed (s : watch) (now : Z) : Z :=
  match wphase s with Running since => acc s + (now - since) | _ => acc s end.

Inductive sw_op :=
| Start | Stop | Pause | Restart | Change (p : Z) | SetPeriod (p : Z) | SetElapsed (e : Z).

(** Calls that fail and change nothing. *)
Definition refused (o : sw_op) (ph : phase) : bool :=
  match o, ph with
  | Start, Running _ => true
  | Pause, (Idle | Held) => true
  | (SetPeriod _ | SetElapsed _), (Running _ | Held) => true
  | Stop, Idle => true
  | _, _ => false
  end.

Definition watch_step (s : watch) (now : Z) (o : sw_op) : watch :=
  match o, wphase s with
  | Start, (Idle | Held) => mkWatch (Running now) (acc s) (period s)
  | Pause, Running _ => mkWatch Held (elapsed s now) (period s)
  | Stop, _ => mkWatch Idle 0 (period s)
  | Restart, _ => mkWatch (Running now) 0 (period s)
  | Change p, _ => mkWatch (Running now) 0 p
  | SetPeriod p, Idle => mkWatch Idle (acc s) p
  | SetElapsed e, Idle => mkWatch Idle e (period s)
  | _, _ => s
  end.

(** History: calls with their instants. *)
Definition watch_run (s : watch) (h : list (Z * sw_op)) : watch :=
  fold_left (fun s c => watch_step s (fst c) (snd c)) h s.

(** The current counting stretch is shorter than half the range of a [w]-bit counter. *)
Definition stretch_ok (w : Z) (s : watch) (now : Z) : Prop :=
  match wphase s with Running since => 0 <= now - since < 2 ^ (w - 1) | _ => True end.

(** Arguments are representable, and stretches ended by a pause are short. *)
Definition call_ok (w : Z) (s : watch) (now : Z) (o : sw_op) : Prop :=
  match o with
  | Pause => stretch_ok w s now
  | Change v | SetPeriod v | SetElapsed v => 0 <= v < 2 ^ w
  | _ => True
  end.

Fixpoint history_ok (w : Z) (s : watch) (h : list (Z * sw_op)) : Prop :=
  match h with
  | [] => True
  | (now, o) :: h' => call_ok w s now o /\ history_ok w (watch_step s now o) h'
  end.
