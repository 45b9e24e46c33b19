(** Blocks xored byte by byte. *)
From Verif Require Import Base.

Fixpoint xor_blocks (x y : list Z) : list Z :=
  match x, y with
  | a :: x', b :: y' => Z.lxor a b :: xor_blocks x' y'
  | _, _ => []
  end.
