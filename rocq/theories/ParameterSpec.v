(** What parameters are expected to do: values, limits and access levels, independently of the code. *)
From Verif Require Import Base FloatSpec ParameterModel.
From Coq Require Import Floats.SpecFloat.

(** * Values *)

Definition is_int (ty : ptype) : bool := match ty with FLOAT | DOUBLE => false | _ => true end.

(** The values of the integer types. *)
Definition rep_min (ty : ptype) : Z :=
  match ty with
  | INT8 => -128 | INT16 => -32768 | INT32 => -2147483648 | INT64 => -9223372036854775808 | _ => 0
  end.
Definition rep_max (ty : ptype) : Z :=
  match ty with
  | UINT8 => 255 | INT8 => 127 | UINT16 => 65535 | INT16 => 32767 | UINT32 => 4294967295 | INT32 => 2147483647
  | UINT64 => 18446744073709551615 | INT64 => 9223372036854775807 | _ => -1
  end.
Definition representable (ty : ptype) (v : Z) : Prop := rep_min ty <= v <= rep_max ty.

Definition byte (b : Z) : Prop := 0 <= b < 256.

(** Memory holds the integer [v] of type [ty] at [p], in little endian two's complement. *)
Definition holds (m : mem) (p : Z) (ty : ptype) (v : Z) : Prop :=
  is_int ty = true /\ representable ty v /\ 0 <= p /\
  forall i, 0 <= i < size ty -> nth_error m (Z.to_nat (p + i)) = Some ((v / 256 ^ i) mod 256).

(** A union holds the integer [v] of type [ty]. *)
Definition union_holds (u : Z) (ty : ptype) (v : Z) : Prop :=
  is_int ty = true /\ representable ty v /\ u mod 2 ^ (8 * size ty) = v mod 2 ^ (8 * size ty).

(** A limit is in memory if there is a pointer to it. *)
Definition limit (m : mem) (p : option Z) (u : Z) (ty : ptype) (v : Z) : Prop :=
  match p with Some p => holds m p ty v | None => union_holds u ty v end.

(** IEEE 754 interchange format: [mw] bits of mantissa, [ew] of exponent, 2^[emin] the smallest number. *)
Inductive ieee (mw ew emin : Z) : Z -> spec_float -> Prop :=
| ieee_zero s : ieee mw ew emin (b2z s * 2 ^ (mw + ew)) (S754_zero s)
| ieee_subnormal s f : 0 < Zpos f < 2 ^ mw -> ieee mw ew emin (b2z s * 2 ^ (mw + ew) + Zpos f) (S754_finite s f emin)
| ieee_normal s e f : 0 < e < 2 ^ ew - 1 -> 2 ^ mw <= Zpos f < 2 * 2 ^ mw ->
    ieee mw ew emin (b2z s * 2 ^ (mw + ew) + e * 2 ^ mw + (Zpos f - 2 ^ mw)) (S754_finite s f (emin + e - 1))
| ieee_infinity s : ieee mw ew emin (b2z s * 2 ^ (mw + ew) + (2 ^ ew - 1) * 2 ^ mw) (S754_infinity s)
| ieee_nan s f : 0 < f < 2 ^ mw -> ieee mw ew emin (b2z s * 2 ^ (mw + ew) + (2 ^ ew - 1) * 2 ^ mw + f) S754_nan.
Definition ieee_of (ty : ptype) : Z -> spec_float -> Prop :=
  match ty with FLOAT => ieee 23 8 (-149) | DOUBLE => ieee 52 11 (-1074) | _ => fun _ _ => False end.

(** Memory holds the floating point number [x] of type [ty] at [p]. *)
Definition fholds (m : mem) (p : Z) (ty : ptype) (x : spec_float) : Prop :=
  exists raw, ieee_of ty raw x /\ 0 <= p /\
  forall i, 0 <= i < size ty -> nth_error m (Z.to_nat (p + i)) = Some ((raw / 256 ^ i) mod 256).
Definition union_fholds (u : Z) (ty : ptype) (x : spec_float) : Prop := ieee_of ty (u mod 2 ^ (8 * size ty)) x.
Definition flimit (m : mem) (p : option Z) (u : Z) (ty : ptype) (x : spec_float) : Prop :=
  match p with Some p => fholds m p ty x | None => union_fholds u ty x end.
(** Within limits; never for NaN. *)
Definition within (lo x hi : spec_float) : bool := SFleb lo x && SFleb x hi.

(** * Memory *)

(** [m'] is [m] except for the [n] bytes at [p]. *)
Definition changed_only (m m' : mem) (p n : Z) : Prop :=
  length m' = length m /\ forall a, 0 <= a -> ~ p <= a < p + n -> nth_error m' (Z.to_nat a) = nth_error m (Z.to_nat a).

(** The [n] bytes at [p] of [m] and the [n] bytes at [p'] of [m'] are the same. *)
Definition same_bytes (m : mem) (p : Z) (m' : mem) (p' n : Z) : Prop :=
  forall i, 0 <= i < n -> nth_error m' (Z.to_nat (p' + i)) = nth_error m (Z.to_nat (p + i)).

Definition disjoint (p n p' n' : Z) : Prop := p + n <= p' \/ p' + n' <= p.
Definition inside (m : mem) (p n : Z) : Prop := 0 <= p /\ p + n <= zlen m.

(** * Stepping *)

(** What an operation of [mod_] steps should give. *)
Definition stepped (lo hi v s mod_ : Z) : Z :=
  let x := v + s * mod_ in
  if (lo <=? x) && (x <=? hi) then x else if 0 <? mod_ then lo else if mod_ <? 0 then hi else v.

(** Products of step and mod that the arithmetic of the C type can compute. *)
Definition computable (ty : ptype) (x : Z) : Prop :=
  match ty with
  | UINT32 | UINT64 => True
  | INT64 => -9223372036854775808 <= x <= 9223372036854775807
  | _ => INT_MIN <= x <= INT_MAX
  end.

(** The number of an integer type that stands for [x], modulo a power of 2. *)
Definition in_type (ty : ptype) (x : Z) : Z := rep_min ty + (x - rep_min ty) mod 2 ^ (8 * size ty).
(** A number within the limits stays, any other gives way to the limit opposite to the direction. *)
Definition confined (lo hi x mod_ : Z) : Z :=
  if (lo <=? x) && (x <=? hi) then x else if 0 <? mod_ then lo else if mod_ <? 0 then hi else x.
Definition unsigned_word (ty : ptype) : bool := match ty with UINT32 | UINT64 => true | _ => false end.
Definition of_64_bits (ty : ptype) : bool := match ty with UINT64 | INT64 => true | _ => false end.

(** The same in floating point: [v] + [s] * [mod_], rounded after each operation; [lo] or [hi] if that is not
    within the limits. *)
Definition fsum (ty : ptype) : spec_float -> spec_float -> spec_float :=
  match ty with DOUBLE => SFadd 53 1024 | _ => SFadd 24 128 end.
Definition fproduct (ty : ptype) : spec_float -> spec_float -> spec_float :=
  match ty with DOUBLE => SFmul 53 1024 | _ => SFmul 24 128 end.
Definition nearest (ty : ptype) (z : Z) : spec_float :=
  match ty with DOUBLE => binary_normalize 53 1024 z 0 false | _ => binary_normalize 24 128 z 0 false end.
Definition fstepped (ty : ptype) (lo hi v s : spec_float) (mod_ : Z) : spec_float :=
  let x := fsum ty v (fproduct ty s (nearest ty mod_)) in
  if within lo x hi then x else if 0 <? mod_ then lo else if mod_ <? 0 then hi else x.
Definition finite (x : spec_float) : Prop := match x with S754_zero _ | S754_finite _ _ _ => True | _ => False end.

(** z * 2^k is a number of the type. *)
Definition exact_in (ty : ptype) (z k : Z) : Prop :=
  match ty with DOUBLE => in_format 53 1024 z k | _ => in_format 24 128 z k end.

(** [n] operations of [d] steps each. *)
Fixpoint operations (n : nat) (h : handle) (m : mem) (d : Z) : outcome mem :=
  match n with
  | O => Done m
  | S n => do r <- parameter_operator (Some h) m d; operations n h (fst r) d
  end.

(** An integer of the type as an argument of a variadic function. *)
Definition passed (ty : ptype) (v : Z) : argument :=
  match ty with UINT32 => AnUnsigned v | UINT64 => AnUnsignedLong v | INT64 => ALong v | _ => AnInt v end.

(** [y] stands for the same as [x]. *)
Definition same_value (x y : spec_float) : Prop :=
  match x with
  | S754_finite s _ _ => (exists m e, y = S754_finite s m e) /\ forall z k, worth y z k <-> worth x z k
  | _ => y = x
  end.

(** * Access *)

(** Free access, or a bit in common. *)
Definition accessible (h : handle) (al : Z) : bool :=
  (access_level h =? 0) || negb (Z.land (access_level h) al =? 0).
Definition unsigned_int (x : Z) : Prop := 0 <= x < 2 ^ 32.

(** The part of a handle that says where the value is and what it may be. *)
Definition same_core (h h' : handle) : Prop :=
  ptype_of h' = ptype_of h /\ pointer h' = pointer h /\ pmin h' = pmin h /\ pmax h' = pmax h /\
  minv h' = minv h /\ maxv h' = maxv h /\ defaultv h' = defaultv h /\ step h' = step h.

Section Hooks.
Variable hook : Z -> handle -> mem -> handle * mem.

(** The runtime hooks of a table run in order. *)
Inductive hooked : list handle -> mem -> list handle -> mem -> Prop :=
| hooked_nil m : hooked [] m [] m
| hooked_some f h m h' m1 ps ps' m2 : runtime h = Some f -> hook f h m = (h', m1) -> hooked ps m1 ps' m2 ->
    hooked (h :: ps) m (h' :: ps') m2
| hooked_none h m ps ps' m2 : runtime h = None -> hooked ps m ps' m2 -> hooked (h :: ps) m (h :: ps') m2.

(** Hooks that only touch access level, user data and themselves. *)
Definition tame : Prop := forall f h m h' m', hook f h m = (h', m') -> m' = m /\ same_core h h'.
(** Access levels are unsigned ints whatever hooks do. *)
Definition levels (ps : list handle) : Prop :=
  Forall (fun h => unsigned_int (access_level h)) ps /\
  forall f h m, unsigned_int (access_level h) -> unsigned_int (access_level (fst (hook f h m))).

End Hooks.

(** Parameters have their own storage, and dynamic limits are elsewhere. *)
Definition distinct_storage (ps : list handle) (m : mem) : Prop :=
  (forall i h, nth_error ps i = Some h -> inside m (pointer h) (size (ptype_of h))) /\
  forall i j h h', i <> j -> nth_error ps i = Some h -> nth_error ps j = Some h' ->
    disjoint (pointer h) (size (ptype_of h)) (pointer h') (size (ptype_of h')).
Definition limits_elsewhere (ps : list handle) : Prop :=
  forall i j h h' q, nth_error ps i = Some h -> nth_error ps j = Some h' -> pmin h = Some q \/ pmax h = Some q ->
    disjoint q (size (ptype_of h)) (pointer h') (size (ptype_of h')).

(** Bytes that do not belong to a parameter are the same. *)
Definition only_parameters_changed (ps : list handle) (m m' : mem) : Prop :=
  length m' = length m /\
  forall a, 0 <= a -> (forall h, In h ps -> ~ pointer h <= a < pointer h + size (ptype_of h)) ->
    nth_error m' (Z.to_nat a) = nth_error m (Z.to_nat a).

(** Values, limits and defaults of the integer parameters of a table. *)
Record info := mkInfo { value : Z; lo : Z; hi : Z; deflt : Z }.
Definition describes (m : mem) (h : handle) (x : info) : Prop :=
  holds m (pointer h) (ptype_of h) (value x) /\ limit m (pmin h) (minv h) (ptype_of h) (lo x) /\
  limit m (pmax h) (maxv h) (ptype_of h) (hi x) /\ union_holds (defaultv h) (ptype_of h) (deflt x).
Definition in_range (x : info) : bool := (lo x <=? value x) && (value x <=? hi x).

(** The same for floating point parameters. *)
Record finfo := mkFinfo { fvalue : spec_float; flo : spec_float; fhi : spec_float; fdeflt : spec_float }.
Definition fdescribes (m : mem) (h : handle) (x : finfo) : Prop :=
  fholds m (pointer h) (ptype_of h) (fvalue x) /\ flimit m (pmin h) (minv h) (ptype_of h) (flo x) /\
  flimit m (pmax h) (maxv h) (ptype_of h) (fhi x) /\ union_fholds (defaultv h) (ptype_of h) (fdeflt x).
Definition numbers (x : finfo) : Prop := fvalue x <> S754_nan /\ flo x <> S754_nan /\ fhi x <> S754_nan.

(** Neither above the upper nor below the lower limit: NaN is neither. *)
Definition passes (x : finfo) : bool := negb (SFltb (fhi x) (fvalue x)) && negb (SFltb (fvalue x) (flo x)).
(** A parameter, and whether its value is accepted. *)
Definition accepted_as (m : mem) (h : handle) (ok : bool) : Prop :=
  (exists x, describes m h x /\ ok = in_range x) \/ (exists x, fdescribes m h x /\ ok = passes x).

(** A parameter whose value and limits are numbers, and whether it is within the limits. *)
Definition judged_as (m : mem) (h : handle) (ok : bool) : Prop :=
  (exists x, describes m h x /\ ok = in_range x) \/
  (exists x, fdescribes m h x /\ numbers x /\ ok = within (flo x) (fvalue x) (fhi x)).
