(** What a third thread may see of a typed queue. *)
From Verif Require Import Base QueueModel QueueConcModel QueueConcSpec QueueConcSystem.

Section Spec.
Context {A : Type}.

(** The items in the queue. *)
Definition held (s : qstate A) : Z := published s - claimed s.

(** Consecutive states, the enqueuing thread making steps if [P], the dequeuing one if [C]. *)
Fixpoint run_of (P C : bool) (s : qstate A) (l : list (qstate A)) : Prop :=
  match l with
  | [] => True
  | s' :: l' => (P = true /\ (exists a, pstep a s = Done s') \/ C = true /\ (exists d, cstep d s = Done s')) /\ run_of P C s' l'
  end.

(** At some of these moments, or at all of them, a number of items such that [Q]. *)
Definition sometime (Q : Z -> Prop) (l : list (qstate A)) : Prop := exists s, In s l /\ Q (held s).
Definition always (Q : Z -> Prop) (l : list (qstate A)) : Prop := forall s, In s l -> Q (held s).
End Spec.
