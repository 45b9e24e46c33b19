(** What a history of nested events must look like. *)
From Verif Require Import Base SmNestModel.

Section SmNestSpec.
Context {M E : Type}.

(** The state after a history that began in [s0]: the result of the manager that returned last with a
    state. *)
Fixpoint state_after (s0 : Z) (tr : list (ev E)) : Z :=
  match tr with
  | [] => s0
  | Began _ _ :: tr => state_after s0 tr
  | Ended r :: tr => state_after (if r <? 0 then s0 else r) tr
  end.

(** Every event goes to the manager of the state at that moment. *)
Definition dispatched (s0 : Z) (tr : list (ev E)) : Prop :=
  forall before s e rest, tr = before ++ Began s e :: rest -> s = state_after s0 before.

(** Calls are properly nested. *)
Inductive call : list (ev E) -> Prop :=
| one_call : forall s e inner r, calls inner -> call (Began s e :: inner ++ [Ended r])
with calls : list (ev E) -> Prop :=
| no_calls : calls []
| more_calls : forall l l', call l -> calls l' -> calls (l ++ l').

(** A result that names a state is not replaced by another one before an event was sent in it. *)
Definition kept (tr : list (ev E)) : Prop :=
  forall before r between r' rest, tr = before ++ Ended r :: between ++ Ended r' :: rest ->
    0 <= r -> 0 <= r' -> exists s e, In (Began s e) between.

(** Whatever it finds, a manager returns only results with [P]. *)
Fixpoint returns (P : Z -> Prop) (b : body M E) : Prop :=
  match b with Return _ r => P r | Send _ _ k => forall m a, returns P (k m a) end.

(** It sends only events with [P]. *)
Fixpoint sends (P : E -> Prop) (b : body M E) : Prop :=
  match b with Return _ _ => True | Send _ e k => P e /\ forall m a, sends P (k m a) end.

(** If it sends events it stays in its state itself. *)
Definition modest (b : body M E) : Prop :=
  match b with Return _ _ => True | Send _ _ k => forall m a, returns (fun r => r < 0) (k m a) end.

End SmNestSpec.
