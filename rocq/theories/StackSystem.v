(** A history of user calls executed by the stack model. *)
From Verif Require Import Base StackModel StackSpec.

Section StackSystem.
Context {A : Type}.

Definition oitem (o : option A) : list A := match o with Some a => [a] | None => [] end.

Definition stack_step (s : stack A) (o : sop A) : outcome (stack A * (Z * list A)) :=
  match o with
  | Push a => do (s', r) <- stack_push s a; Done (s', (r, []))
  | Pop => do (s', (r, d)) <- stack_pop s true; Done (s', (r, oitem d))
  | PopNull => do (s', (r, d)) <- stack_pop s false; Done (s', (r, oitem d))
  | Dequeue => do s' <- stack_dequeue s; Done (s', (0, []))
  | IsEmpty => Done (s, (b2z (stack_is_empty s), []))
  | IsFull => Done (s, (b2z (stack_is_full s), []))
  end.

Fixpoint stack_run (s : stack A) (ops : list (sop A)) : outcome (stack A * list (Z * list A)) :=
  match ops with
  | [] => Done (s, [])
  | o :: rest =>
      do (s', r) <- stack_step s o;
      do (s'', rs) <- stack_run s' rest;
      Done (s'', r :: rs)
  end.

End StackSystem.
