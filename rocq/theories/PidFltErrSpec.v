(** How far a rounded number may be from the number meant. *)
From Coq Require Import ZArith.
Open Scope Z_scope.

(** [r] is [x] up to one part in 2^24, both in the same unit. *)
Definition near (r x : Z) : Prop := 2 ^ 24 * Z.abs (r - x) <= Z.abs x.
