(** What an answer promises to the thread that asked. *)
From Verif Require Import Base CbufSpec.

Section Spec.
Context {A : Type}.

(** The results a thread has got [later] are those it had got [before] and more, of which the first [k] (if there are
    as many) are successes. *)
Definition next_succeed (k : Z) (before later : list (op A * out A)) : Prop :=
  exists l, later = before ++ l /\ forall j call, nth_error l j = Some call -> Z.of_nat j < k -> fst (snd call) = 0.
End Spec.
