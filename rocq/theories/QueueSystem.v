(** A history of user calls executed by the queue model. *)
From Verif Require Import Base QueueModel QueueSpec.

Section QueueSystem.
Context {A : Type}.

Definition olist (o : option A) : list A := match o with Some a => [a] | None => [] end.

Definition queue_step (q : queue A) (o : qop A) : outcome (queue A * (Z * list A)) :=
  match o with
  | Enqueue a => do (q', r) <- queue_enqueue q a; Done (q', (r, []))
  | Dequeue => do (q', (r, d)) <- queue_dequeue q true; Done (q', (r, olist d))
  | Drop => do (q', (r, d)) <- queue_drop q; Done (q', (r, olist d))
  | IsEmpty => Done (q, (b2z (queue_is_empty q), []))
  | IsFull => Done (q, (b2z (queue_is_full q), []))
  end.

Fixpoint queue_run (q : queue A) (ops : list (qop A)) : outcome (queue A * list (Z * list A)) :=
  match ops with
  | [] => Done (q, [])
  | o :: rest =>
      do (q', r) <- queue_step q o;
      do (q'', rs) <- queue_run q' rest;
      Done (q'', r :: rs)
  end.

End QueueSystem.
