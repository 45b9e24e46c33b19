(** All executions of an enqueuing and a dequeuing thread on a typed queue. *)
From Verif Require Import Base QueueModel QueueConcModel QueueConcSpec.

Section QueueConcSystem.
Context {A : Type}.

Definition qstart (q : queue A) : qstate A := mkQs (queue_init q) PIdle CIdle [] [] [] [].

Inductive qsteps (m : mode) (q : queue A) : qstate A -> Prop :=
| qs_start : qsteps m q (qstart q)
| qs_enqueue : forall s s' a, qsteps m q s -> (m = DequeueHandler -> cp s = CIdle) -> pstep a s = Done s' -> qsteps m q s'
| qs_dequeue : forall s s' d, qsteps m q s -> (m = EnqueueHandler -> pp s = PIdle) -> cstep d s = Done s' -> qsteps m q s'.

(** A schedule, for examples: [inl a] a step of the enqueuing thread, [inr d] of the dequeuing one; [Abort] if it does not respect the mode. *)
Definition may_p (m : mode) (s : qstate A) : bool := match m, cp s with DequeueHandler, CIdle => true | DequeueHandler, _ => false | _, _ => true end.
Definition may_c (m : mode) (s : qstate A) : bool := match m, pp s with EnqueueHandler, PIdle => true | EnqueueHandler, _ => false | _, _ => true end.
Fixpoint qsched (m : mode) (s : qstate A) (sch : list (A + bool)) : outcome (qstate A) :=
  match sch with
  | [] => Done s
  | inl a :: sch' => if may_p m s then do s' <- pstep a s; qsched m s' sch' else Abort
  | inr d :: sch' => if may_c m s then do s' <- cstep d s; qsched m s' sch' else Abort
  end.

(** Steps of one thread only. *)
Fixpoint p_alone (n : nat) (a : A) (s : qstate A) : outcome (qstate A) :=
  match n with O => Done s | S n' => do s' <- pstep a s; p_alone n' a s' end.
Fixpoint c_alone (n : nat) (d : bool) (s : qstate A) : outcome (qstate A) :=
  match n with O => Done s | S n' => do s' <- cstep d s; c_alone n' d s' end.

(** Items published by enqueue and not yet claimed by dequeue. *)
Definition published (s : qstate A) : Z :=
  zlen (accepted (pret s)) + (match pp s with PCell _ _ => 1 | _ => 0 end).
Definition claimed (s : qstate A) : Z :=
  zlen (removals (cret s)) + (match cp s with CCell _ _ => 1 | _ => 0 end).

End QueueConcSystem.
