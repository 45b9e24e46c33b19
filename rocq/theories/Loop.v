(** C loops of the form [for (i = from; i < from + n; i++) body]. *)
From Verif Require Import Base.

Fixpoint for_up {S : Type} (n : nat) (i : Z) (body : S -> Z -> outcome S) (s : S) : outcome S :=
  match n with
  | O => Done s
  | Datatypes.S n' => do s' <- body s i; for_up n' (i + 1) body s'
  end.
