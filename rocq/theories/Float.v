(** C floating point arithmetic on the IEEE 754 reference operations of the standard library
    (Coq.Floats.SpecFloat: executable, no axioms), rounding to nearest even. *)
From Verif Require Import Base.
From Coq Require Import Floats.SpecFloat.

(** Precision and exponent bound of float and double. *)
Definition F32 (f : Z -> Z -> spec_float) : spec_float := f 24 128.
Definition F64 (f : Z -> Z -> spec_float) : spec_float := f 53 1024.

(** Conversion of an integer to a floating type. *)
Definition of_int (z prec emax : Z) : spec_float := binary_normalize prec emax z 0 false.

Definition fmul (x y : spec_float) (prec emax : Z) : spec_float := SFmul prec emax x y.
Definition fadd (x y : spec_float) (prec emax : Z) : spec_float := SFadd prec emax x y.

(** The integer part; none for infinities and NaN. *)
Definition trunc (x : spec_float) : option Z :=
  match x with
  | S754_zero _ => Some 0
  | S754_finite s m e =>
      let a := if 0 <=? e then Zpos m * 2 ^ e else Zpos m / 2 ^ (- e) in
      Some (if s then - a else a)
  | _ => None
  end.

(** Conversion to an integer type with the given bounds: undefined if the integer part does not fit. *)
Definition to_int (lo hi : Z) (x : spec_float) : outcome Z :=
  match trunc x with
  | Some z => if (lo <=? z) && (z <=? hi) then Done z else Undef
  | None => Undef
  end.
