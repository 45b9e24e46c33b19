(** True time is an unbounded integer; a free running counter of [w] bits shows it modulo 2^w. *)
From Verif Require Import Base.

Definition counter (w t : Z) : Z := t mod 2 ^ w.

(** Two instants less than half the counter range apart. *)
Definition close (w t u : Z) : Prop := Z.abs (t - u) < 2 ^ (w - 1).
