(** is_empty and is_full of gel/collections/queue.h (QUEUE_DEFINITION) called while the enqueuing and the dequeuing
    thread of [QueueConcModel] run: a query is modelled by the values its two loads return, each at any moment of the
    call and in any order.  Sequential consistency, as there. *)
From Verif Require Import Base QueueModel QueueConcModel.

(** queue.h:75-77: the subtraction is made in int, without reduction to 16 bits. *)
Definition asked_empty (w r : Z) : bool := w - r =? 0.

(** queue.h:79-84: the difference is stored in a uint16_t. *)
Definition asked_full (cap w r : Z) : bool := wrap 16 (w - r) =? cap.

(** Executions between two moments: steps of the enqueuing thread if [P], of the dequeuing one if [C]. *)
Inductive moves {A : Type} (P C : bool) (s : qstate A) : qstate A -> Prop :=
| m_here : moves P C s s
| m_enqueue : forall s1 s2 a, P = true -> moves P C s s1 -> pstep a s1 = Done s2 -> moves P C s s2
| m_dequeue : forall s1 s2 d, C = true -> moves P C s s1 -> cstep d s1 = Done s2 -> moves P C s s2.
