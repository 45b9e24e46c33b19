(** Integer parameters stepped again and again. *)
From Verif Require Import Base ParameterModel ParameterSpec.

(** [n] steps of [q] > 0 up from [v]: up to the last value within the limits, then round and round through
    [lo], [lo] + [q], ... *)
Definition up_cycle (lo hi q v n : Z) : Z :=
  if n <=? (hi - v) / q then v + q * n else lo + q * ((n - 1 - (hi - v) / q) mod ((hi - lo) / q + 1)).

(** The same down. *)
Definition down_cycle (lo hi q v n : Z) : Z :=
  if n <=? (v - lo) / q then v - q * n else hi - q * ((n - 1 - (v - lo) / q) mod ((hi - lo) / q + 1)).
