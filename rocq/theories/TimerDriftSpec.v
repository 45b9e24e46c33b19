(** When the callbacks of a periodic timer come. *)
From Verif Require Import Base.

Section Drift.
Context {User : Type}.

(** Polls (instant, user pointer) in order, the first at most [J] after [prev] and every other
    one at most [J] after the one before. *)
Fixpoint gaps_ok (J prev : Z) (polls : list (Z * User)) : Prop :=
  match polls with
  | [] => True
  | (t, _) :: r => prev <= t <= prev + J /\ gaps_ok J t r
  end.

(** The instants of the polls that called the callback, from the answers to the polls. *)
Definition fired {R : Type} (polls : list (Z * User)) (answers : list (Z * option R)) : list Z :=
  flat_map (fun '((t, _), (_, e)) => match e with Some _ => [t] | None => [] end) (combine polls answers).

(** The instant of the last poll. *)
Definition last_poll (t0 : Z) (polls : list (Z * User)) : Z := last (map fst polls) t0.

End Drift.
