(** Bouncing signals and the pulses in them. *)
From Coq Require Import ZArith List Bool.
Import ListNotations.
Open Scope Z_scope.

(** [d]+1 equal samples [b] in a row occur in [l]. *)
Definition has_run (d : Z) (b : bool) (l : list bool) : Prop := exists x y, l = x ++ repeat b (Z.to_nat d + 1) ++ y.

(** A signal that starts at [level] and changes with every stretch: within a stretch it may bounce, but the new level
    is there for [d]+1 samples at some moment, and the old one never. *)
Fixpoint bouncing (d : Z) (level : bool) (stretches : list (list bool)) : Prop :=
  match stretches with
  | [] => True
  | s :: r => has_run d (negb level) s /\ ~ has_run d level s /\ bouncing d (negb level) r
  end.

(** How many of [n] changes of a level that starts at [level] end a pulse: a high one ends when the level falls. *)
Fixpoint pulses (high level : bool) (n : nat) : Z :=
  match n with
  | O => 0
  | S n' => (if eqb level high then 1 else 0) + pulses high (negb level) n'
  end.
