(** Specification of circular doubly linked lists: a heap holds the list [l] under the sentinel [head]
    when, going round head, l, head, next leads from each to the following one and prev back. *)
From Coq Require Import ZArith List.
Import ListNotations.
Open Scope Z_scope.

Section Spec.
Variable h : Z -> option (Z * Z).

Definition linked (a b : Z) : Prop := (exists p, h a = Some (b, p)) /\ (exists n, h b = Some (n, a)).

Fixpoint chain (s : list Z) : Prop :=
  match s with
  | a :: (b :: _) as s' => linked a b /\ chain s'
  | _ => True
  end.

Definition holds (head : Z) (l : list Z) : Prop := NoDup (head :: l) /\ chain (head :: l ++ [head]).

End Spec.

(** Nothing differs at the addresses outside of [s]. *)
Definition same_outside (s : list Z) (h h' : Z -> option (Z * Z)) : Prop := forall a, ~ In a s -> h' a = h a.
