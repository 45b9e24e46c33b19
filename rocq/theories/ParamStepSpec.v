(** Steps of floating point parameters: notions for direction, progress and loss. *)
From Verif Require Import Base FloatSpec ParameterModel ParameterSpec.
From Coq Require Import Floats.SpecFloat.

(** What [d] steps of [s] add: one rounded multiplication. *)
Definition increment (ty : ptype) (s : spec_float) (d : Z) : spec_float := fproduct ty s (nearest ty d).

(** Exponent of the last place of a number: v = ±f * 2^(last_place v).  That of the smallest number for 0. *)
Definition last_place (ty : ptype) (v : spec_float) : Z :=
  match v with S754_finite _ _ e => e | _ => match ty with DOUBLE => -1074 | _ => -149 end end.

Definition nonzero (v : spec_float) : Prop := match v with S754_finite _ _ _ => True | _ => False end.

(** Not negative. *)
Definition upward (s : spec_float) : Prop := SFleb (S754_zero false) s = true.

(** After [n] operations of [d] steps the parameter is [v]. *)
Definition after (n : nat) (h : handle) (m : mem) (d : Z) (v : spec_float) : Prop :=
  exists m', operations n h m d = Done m' /\ fholds m' (pointer h) (ptype_of h) v.
