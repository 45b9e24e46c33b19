(** What a count promises to the thread that asked. *)
From Verif Require Import Base.

(** The results [later] are those of [before] and more, of which the first [n] (if there are as many) are successes. *)
Definition next_succeed {R : Type} (result : R -> Z) (n : Z) (before later : list R) : Prop :=
  exists l, later = before ++ l /\ forall j c, nth_error l j = Some c -> Z.of_nat j < n -> result c = 0.
