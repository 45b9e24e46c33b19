(** The numbers that floating point values stand for. *)
From Coq Require Import ZArith Bool Floats.SpecFloat.
Open Scope Z_scope.

(** a * 2^i = b * 2^j. *)
Definition same_number (a i b j : Z) : Prop := a * 2 ^ (i - Z.min i j) = b * 2 ^ (j - Z.min i j).

(** a * 2^i <= b * 2^j. *)
Definition le_number (a i b j : Z) : Prop := a * 2 ^ (i - Z.min i j) <= b * 2 ^ (j - Z.min i j).

(** [x] is the number z * 2^k. *)
Definition worth (x : spec_float) (z k : Z) : Prop :=
  match x with
  | S754_zero _ => z = 0
  | S754_finite s m e => same_number (if s then Zneg m else Zpos m) e z k
  | _ => False
  end.

(** z * 2^k is a number of the format with precision [prec] and exponent bound [emax] (24 and 128 for float, 53 and 1024
    for double). *)
Definition in_format (prec emax z k : Z) : Prop := Z.abs z < 2 ^ prec /\ 3 - emax - prec <= k <= emax - prec.

(** A value of the format. *)
Definition number (prec emax : Z) (x : spec_float) : Prop := valid_binary prec emax x = true.
