(** Model of gel/parameter/parameter.c and of the macros of parameter.h, with GEL_PARAMETER_MAX_SIZE 8 (its
    default, parameter.h:19-21), 32 bit int, 64 bit long and size_t, little endian memory.

    Memory is a list of bytes and pointers are offsets into it. *)
From Verif Require Import Base Loop Float.
From Coq Require Import Floats.SpecFloat.

Definition mem := list Z.

(** parameter.h:153-174. *)
Inductive ptype := UINT8 | INT8 | UINT16 | INT16 | UINT32 | INT32 | UINT64 | INT64 | FLOAT | DOUBLE.

(** sizeof the C type of a parameter type. *)
Definition size (ty : ptype) : Z :=
  match ty with
  | UINT8 | INT8 => 1 | UINT16 | INT16 => 2 | UINT32 | INT32 | FLOAT => 4 | UINT64 | INT64 | DOUBLE => 8
  end.

(** Little endian representation of [n] bytes. *)
Fixpoint le_bytes (n : nat) (v : Z) : list Z :=
  match n with O => [] | S n => v mod 256 :: le_bytes n (v / 256) end.
Fixpoint le_value (bs : list Z) : Z :=
  match bs with [] => 0 | b :: bs => b + 256 * le_value bs end.

(** Reads and writes through a pointer: bit patterns of [n] bytes. *)
Definition load (m : mem) (p n : Z) : outcome Z := do bs <- zread m p n; Done (le_value bs).
Definition store (m : mem) (p n v : Z) : outcome mem := zwrite m p (le_bytes (Z.to_nat n) v).

(** The integer with the given bit pattern. *)
Definition int_value (ty : ptype) (raw : Z) : Z :=
  match ty with INT8 => swrap 8 raw | INT16 => swrap 16 raw | INT32 => swrap 32 raw | INT64 => swrap 64 raw | _ => raw end.

(** The floating point number with the given bit pattern: [mw] bits of mantissa, [ew] of exponent, [emin] the
    exponent of the smallest number. *)
Definition decode (mw ew emin raw : Z) : spec_float :=
  let s := Z.odd (raw / 2 ^ (mw + ew)) in
  let e := (raw / 2 ^ mw) mod 2 ^ ew in
  let f := raw mod 2 ^ mw in
  if e =? 2 ^ ew - 1 then (if f =? 0 then S754_infinity s else S754_nan)
  else if e =? 0 then match f with Zpos p => S754_finite s p emin | _ => S754_zero s end
  else match f + 2 ^ mw with Zpos p => S754_finite s p (e - 1 + emin) | _ => S754_nan end.
Definition encode (mw ew emin : Z) (x : spec_float) : Z :=
  match x with
  | S754_zero s => b2z s * 2 ^ (mw + ew)
  | S754_infinity s => b2z s * 2 ^ (mw + ew) + (2 ^ ew - 1) * 2 ^ mw
  | S754_nan => (2 ^ ew - 1) * 2 ^ mw + 2 ^ (mw - 1)
  | S754_finite s m e =>
      b2z s * 2 ^ (mw + ew) + (if Zpos m <? 2 ^ mw then Zpos m else (e - emin + 1) * 2 ^ mw + (Zpos m - 2 ^ mw))
  end.
Definition float_value (ty : ptype) (raw : Z) : spec_float :=
  match ty with DOUBLE => decode 52 11 (-1074) raw | _ => decode 23 8 (-149) raw end.

(** [a > b] for bit patterns of the type. *)
Definition gt (ty : ptype) (a b : Z) : bool :=
  match ty with
  | FLOAT | DOUBLE => SFltb (float_value ty b) (float_value ty a)
  | _ => int_value ty b <? int_value ty a
  end.

(** parameter.h:201-212.  The unions are bit patterns of 64 bits.  [runtime] stands for the pair of function
    and argument. *)
Record handle := mkHandle {
  ptype_of : ptype; pointer : Z; pmin : option Z; pmax : option Z;
  minv : Z; maxv : Z; defaultv : Z; step : Z; access_level : Z; data : Z; runtime : option Z }.

Definition set_pointer (h : handle) (p : Z) : handle :=
  mkHandle (ptype_of h) p (pmin h) (pmax h) (minv h) (maxv h) (defaultv h) (step h) (access_level h) (data h) (runtime h).

(** Reading the field of a union that belongs to the type. *)
Definition field (ty : ptype) (u : Z) : Z := u mod 2 ^ (8 * size ty).

(** parameter.c:33-34: *)
Definition lower (h : handle) (m : mem) : outcome Z :=
  match pmin h with Some p => load m p (size (ptype_of h)) | None => Done (field (ptype_of h) (minv h)) end.
Definition upper (h : handle) (m : mem) : outcome Z :=
  match pmax h with Some p => load m p (size (ptype_of h)) | None => Done (field (ptype_of h) (maxv h)) end.

(** parameter.c:9-14.  Floating point values are copied as bit patterns. *)
Definition SET_DEFAULT (h : handle) (m : mem) : outcome mem :=
  store m (pointer h) (size (ptype_of h)) (field (ptype_of h) (defaultv h)).

(** parameter.c:17-27. *)
Definition CHECK_RANGE_AGAINST (h : handle) (m : mem) (newv : Z) : outcome Z :=
  do min <- lower h m; do max <- upper h m;
  Done (if gt (ptype_of h) newv max then 1 else if gt (ptype_of h) min newv then -1 else 0).

(** parameter.c:30-41. *)
Definition CHECK_RANGE (h : handle) (m : mem) : outcome Z :=
  do var <- load m (pointer h) (size (ptype_of h));
  do min <- lower h m; do max <- upper h m;
  Done (if gt (ptype_of h) var max then 1 else if gt (ptype_of h) min var then -1 else 0).

(** Signed arithmetic of [w] bits: overflow is undefined. *)
Definition signed (w x : Z) : outcome Z := if (- 2 ^ (w - 1) <=? x) && (x <? 2 ^ (w - 1)) then Done x else Undef.

(** parameter.c:49: *var + p.step.name * (mod), converted to the type; types smaller than int are promoted,
    [mod] is converted to the larger types.  No contraction of the floating point operations. *)
Definition add_steps (ty : ptype) (var step mod_ : Z) : outcome Z :=
  let v := int_value ty var in let s := int_value ty step in
  match ty with
  | UINT8 | INT8 | UINT16 | INT16 | INT32 =>
      do p <- signed 32 (s * mod_); do x <- signed 32 (v + p); Done (wrap (8 * size ty) x)
  | UINT32 => Done (wrap 32 (v + wrap 32 (s * wrap 32 mod_)))
  | UINT64 => Done (wrap 64 (v + wrap 64 (s * wrap 64 mod_)))
  | INT64 => do p <- signed 64 (s * mod_); do x <- signed 64 (v + p); Done (wrap 64 x)
  | FLOAT => Done (encode 23 8 (-149)
      (F32 (fadd (float_value FLOAT var) (F32 (fmul (float_value FLOAT step) (F32 (of_int mod_)))))))
  | DOUBLE => Done (encode 52 11 (-1074)
      (F64 (fadd (float_value DOUBLE var) (F64 (fmul (float_value DOUBLE step) (F64 (of_int mod_)))))))
  end.

(** parameter.c:44-57. *)
Definition APPLY_OPERATOR (h : handle) (m : mem) (mod_ : Z) : outcome mem :=
  let ty := ptype_of h in
  do var <- load m (pointer h) (size ty);
  do min <- lower h m; do max <- upper h m;
  do newv <- add_steps ty var (field ty (step h)) mod_;
  do res <- CHECK_RANGE_AGAINST h m newv;
  store m (pointer h) (size ty)
    (if negb (res =? 0) && (0 <? mod_) then min else if negb (res =? 0) && (mod_ <? 0) then max else newv).

(** parameter.c:298-347: memory and result. *)
Definition parameter_operator (h : option handle) (m : mem) (mod_ : Z) : outcome (mem * Z) :=
  match h with
  | Some h => do m <- APPLY_OPERATOR h m mod_; Done (m, 0)
  | None => Done (m, -1)
  end.

(** parameter.c:60-65 and 500-549. *)
Definition parameter_get_total_values (h : option handle) (m : mem) : outcome Z :=
  match h with
  | None => Done 0
  | Some h =>
      let ty := ptype_of h in
      do min <- lower h m; do max <- upper h m;
      match ty with
      | UINT8 | INT8 | UINT16 | INT16 | INT32 =>
          do d <- signed 32 (int_value ty max - int_value ty min); do x <- signed 32 (d + 1); Done (wrap 64 x)
      | UINT32 => Done (wrap 32 (wrap 32 (max - min) + 1))
      | UINT64 => Done (wrap 64 (wrap 64 (max - min) + 1))
      | INT64 => do d <- signed 64 (int_value ty max - int_value ty min); do x <- signed 64 (d + 1); Done (wrap 64 x)
      | FLOAT => to_int 0 (2 ^ 64 - 1) (F32 (fadd (SFsub 24 128 (float_value ty max) (float_value ty min)) (F32 (of_int 1))))
      | DOUBLE => to_int 0 (2 ^ 64 - 1) (F64 (fadd (SFsub 53 1024 (float_value ty max) (float_value ty min)) (F64 (of_int 1))))
      end
  end.

(** parameter.c:144-183; INT8 is read as uint8_t (line 150). *)
Definition parameter_to_long (h : option handle) (m : mem) : outcome Z :=
  match h with
  | None => Done 0
  | Some h =>
      match ptype_of h with
      | FLOAT | DOUBLE => Done 0
      | INT8 => do raw <- load m (pointer h) 1; Done (int_value UINT8 raw)
      | ty => do raw <- load m (pointer h) (size ty); Done (swrap 64 (int_value ty raw))
      end
  end.

(** parameter.c:187-226; INT8 is read as uint8_t (line 193). *)
Definition parameter_to_index (h : option handle) (m : mem) : outcome Z :=
  match h with
  | None => Done 0
  | Some h =>
      match ptype_of h with
      | FLOAT | DOUBLE => Done 0
      | INT8 => do raw <- load m (pointer h) 1; Done (int_value UINT8 raw)
      | ty => do raw <- load m (pointer h) (size ty); Done (wrap 64 (int_value ty raw))
      end
  end.

(** parameter.c:229-231. *)
Definition parameter_to_bool (h : option handle) (m : mem) : outcome Z :=
  do i <- parameter_to_index h m; Done (b2z (0 <? i)).

(** What sprintf gets for the variable argument, after the default promotions. *)
Inductive argument := AnInt (z : Z) | AnUnsigned (z : Z) | ALong (z : Z) | AnUnsignedLong (z : Z) | ADouble (x : spec_float).

(** Conversion of float to double. *)
Definition widen (x : spec_float) : spec_float :=
  match x with
  | S754_finite s m e => binary_normalize 53 1024 (if s then Zneg m else Zpos m) e s
  | _ => x
  end.

(** parameter.c:234-279.  [sprintf] is what printing an argument with the caller's buffer and format does to memory. *)
Definition parameter_to_string_format (sprintf : argument -> mem -> mem) (h : option handle) (m : mem) : outcome mem :=
  match h with
  | None => Done m
  | Some h =>
      let ty := ptype_of h in
      do raw <- load m (pointer h) (size ty);
      Done (sprintf (match ty with
        | UINT8 | INT8 | UINT16 | INT16 | INT32 => AnInt (int_value ty raw)
        | UINT32 => AnUnsigned (int_value ty raw)
        | INT64 => ALong (int_value ty raw)
        | UINT64 => AnUnsignedLong (int_value ty raw)
        | FLOAT => ADouble (widen (float_value ty raw))
        | DOUBLE => ADouble (float_value ty raw)
        end) m)
  end.

(** parameter.c:495-497; the null handle is undefined. *)
Definition parameter_get_user_data (h : option handle) : outcome Z := match h with Some h => Done (data h) | None => Undef end.

(** The enumerator of a type (parameter.h:153-174). *)
Definition type_code (ty : ptype) : Z :=
  match ty with
  | UINT8 => 0 | INT8 => 1 | UINT16 => 2 | INT16 => 3 | UINT32 => 4 | INT32 => 5 | UINT64 => 6 | INT64 => 7
  | FLOAT => 8 | DOUBLE => 9
  end.

(** parameter.c:560-604; overlapping memcpy is undefined. *)
Definition parameter_copy_value (dst src : option handle) (m : mem) : outcome (mem * Z) :=
  match src, dst with
  | Some s, Some d =>
      if type_code (ptype_of s) =? type_code (ptype_of d) then
        let n := size (ptype_of s) in
        if (pointer d <? pointer s + n) && (pointer s <? pointer d + n) then Undef else
        do bs <- zread m (pointer s) n;
        do m <- zwrite m (pointer d) bs;
        Done (m, 0)
      else Done (m, -1)
  | _, _ => Done (m, -1)
  end.

(** parameter.c:552-557: the clone and the memory. *)
Definition parameter_clone_with_buffer (src : handle) (buffer : Z) (m : mem) : outcome (handle * mem) :=
  let c := set_pointer src buffer in
  do (m, _) <- parameter_copy_value (Some c) (Some src) m;
  Done (c, m).

(** parameter.c:91-140: the destination handle and the memory; [None] is a null pointer. *)
Definition parameter_clone (dst src : option handle) (pointer_ : option Z) (m : mem) : outcome (option handle * mem) :=
  match src, dst, pointer_ with
  | Some s, Some _, Some p =>
      let d := set_pointer s p in
      do v <- load m (pointer s) (size (ptype_of s));
      do m <- store m (pointer d) (size (ptype_of s)) v;
      Done (Some d, m)
  | _, _, _ => Done (dst, m)
  end.

(** * Tables

    The table has exactly [length] entries.  [hook] is what runtime functions do: they may change the handle
    they belong to and memory, but not other handles. *)
Section Table.
Variable hook : Z -> handle -> mem -> handle * mem.

(** parameter.c:75-76 and 287-288. *)
Definition run_hook (h : handle) (m : mem) : handle * mem :=
  match runtime h with Some f => hook f h m | None => (h, m) end.

(** parameter.c:74-85: the table, the memory and the index of the result. *)
Fixpoint get_loop (ps : list handle) (m : mem) (i num al : Z) : list handle * mem * option Z :=
  match ps with
  | [] => ([], m, None)
  | h :: rest =>
      let (h, m) := run_hook h m in
      if (access_level h =? 0) || (0 <? Z.land (access_level h) al) then
        if num =? 0 then (h :: rest, m, Some i)
        else let '(rest, m, r) := get_loop rest m (i + 1) (num - 1) al in (h :: rest, m, r)
      else let '(rest, m, r) := get_loop rest m (i + 1) num al in (h :: rest, m, r)
  end.

(** parameter.c:70-88. *)
Definition parameter_get_handle (ps : list handle) (m : mem) (num al : Z) : outcome (list handle * mem * option Z) :=
  if num <? zlen ps then Done (get_loop ps m 0 num al) else Abort.

(** parameter.c:282-295. *)
Fixpoint parameter_get_count (ps : list handle) (m : mem) (al : Z) : list handle * mem * Z :=
  match ps with
  | [] => ([], m, 0)
  | h :: rest =>
      let (h, m) := run_hook h m in
      let '(rest, m, n) := parameter_get_count rest m al in
      (h :: rest, m, (if 0 <? Z.land (access_level h) al then 1 else 0) + n)
  end.

Definition ALL : Z := 4294967295.

(** parameter.c:350-400. *)
Definition parameter_reset_to_defaults (ps : list handle) (m : mem) : outcome (list handle * mem) :=
  for_up (length ps) 0 (fun '(ps, m) i =>
    do (ps, m, r) <- parameter_get_handle ps m i ALL;
    match r with
    | None => Done (ps, m)
    | Some j => do h <- zget ps j; do m <- SET_DEFAULT h m; Done (ps, m)
    end) (ps, m).

(** parameter.c:403-492; the counter does not overflow as tables have at most INT_MAX entries. *)
Definition parameter_check_ranges (ps : list handle) (m : mem) : outcome (list handle * mem * Z) :=
  for_up (length ps) 0 (fun '(ps, m, counter) i =>
    do (ps, m, r) <- parameter_get_handle ps m i ALL;
    match r with
    | None => Done (ps, m, counter)
    | Some j =>
        do h <- zget ps j;
        do c <- CHECK_RANGE h m;
        if c =? 0 then Done (ps, m, counter) else
        do m <- SET_DEFAULT h m; Done (ps, m, counter + 1)
    end) (ps, m, 0).

End Table.

(** * Macros *)

(** parameter.h:110-121 with the macros of lines 75, 86, 87, 100 and 101, for an integer constant [x]: the bit pattern of
    the field.  & and the conversions are arithmetic modulo powers of 2. *)
Definition LIMIT_VALUE_OPTION (ty : ptype) (x : Z) : Z :=
  match ty with
  | UINT8 => wrap 8 (Z.land (wrap 8 x) 255)
  | INT8 => wrap 8 (Z.land (swrap 8 x) 255)
  | UINT16 | INT16 => wrap 16 (Z.land (wrap 16 x) 65535)
  | UINT32 | INT32 => wrap 32 (Z.land (wrap 32 x) 4294967295)
  | UINT64 | INT64 => wrap 64 (Z.land (wrap 32 x) 18446744073709551615)
  | FLOAT => encode 23 8 (-149) (F32 (of_int x))
  | DOUBLE => encode 52 11 (-1074) (F64 (of_int x))
  end.

(** parameter.h:123-132: a conversion to the type of the field. *)
Definition C99_CAST (ty : ptype) (x : Z) : Z :=
  match ty with
  | FLOAT => encode 23 8 (-149) (F32 (of_int x))
  | DOUBLE => encode 52 11 (-1074) (F64 (of_int x))
  | _ => wrap (8 * size ty) x
  end.

(** parameter.h:138-142 (integer constants). *)
Definition PARAMETER_FULL (ty : ptype) (ptr : Z) (pmin pmax : option Z) (min max def step lvl udata : Z) (runtime : option Z) : handle :=
  mkHandle ty ptr pmin pmax (LIMIT_VALUE_OPTION ty min) (LIMIT_VALUE_OPTION ty max) (LIMIT_VALUE_OPTION ty def)
    (LIMIT_VALUE_OPTION ty step) lvl udata runtime.
(** parameter.h:144-149. *)
Definition PARAMETER (ty : ptype) (ptr min max def udata lvl : Z) : handle :=
  PARAMETER_FULL ty ptr None None min max def 1 lvl udata None.
Definition PARAMETER_STEP (ty : ptype) (ptr min max def step udata lvl : Z) : handle :=
  PARAMETER_FULL ty ptr None None min max def step lvl udata None.
Definition PARAMETER_DLIMITS (ty : ptype) (ptr : Z) (pmin pmax : option Z) (min max def udata lvl : Z) : handle :=
  PARAMETER_FULL ty ptr pmin pmax min max def 1 lvl udata None.
(** parameter.h:134-136. *)
Definition PARAMETER_C99 (ty : ptype) (ptr : Z) (pmin pmax : option Z) (min max def step lvl udata : Z) (runtime : option Z) : handle :=
  mkHandle ty ptr pmin pmax (C99_CAST ty min) (C99_CAST ty max) (C99_CAST ty def) (C99_CAST ty step) lvl udata runtime.
