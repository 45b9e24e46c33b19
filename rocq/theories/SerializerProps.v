(** Properties C29-C32 and C98: the serializer. *)
From Verif Require Import Base BaseLemmas SerializerModel SerializerSpec SerializerSystem SerializerProofs.

(** C29: what was written is read back ([pre], [mid], [post] are any buffer content). *)
Theorem serializer_unsigned_round_trip : forall w o (pre mid post : list Z) v,
  zlen mid = Z.of_nat (bytes_of w) -> 0 <= v < 2 ^ bits_of w ->
  exists buf, serialize w o (pre ++ mid ++ post) (zlen pre) v = Done (buf, Z.of_nat (bytes_of w)) /\
    deserialize_u w o buf (zlen pre) = Done (v, Z.of_nat (bytes_of w)).
Proof. exact u_round_trip_l. Qed.
Print Assumptions serializer_unsigned_round_trip.

(** C29: what was read is written back as the same bytes. *)
Theorem serializer_bytes_round_trip : forall w o (pre mid post pre' bs post' : list Z),
  zlen mid = Z.of_nat (bytes_of w) -> length bs = bytes_of w -> Forall is_byte bs ->
  exists v, deserialize_u w o (pre' ++ bs ++ post') (zlen pre') = Done (v, Z.of_nat (bytes_of w)) /\
    0 <= v < 2 ^ bits_of w /\
    serialize w o (pre ++ mid ++ post) (zlen pre) v = Done (pre ++ bs ++ post, Z.of_nat (bytes_of w)).
Proof. exact u_round_trip_bytes_l. Qed.
Print Assumptions serializer_bytes_round_trip.

Example serializer_round_trip_example :
  serialize W32 BE [9; 9; 9; 9; 9; 9] 1 305419896 = Done ([9; 18; 52; 86; 120; 9], 4) /\
  deserialize_u W32 BE [9; 18; 52; 86; 120; 9] 1 = Done (305419896, 4).
Proof. split; reflexivity. Qed.

(** C30: exact bytes written, everything else unchanged, size returned. *)
Theorem serializer_layout : forall w o (pre mid post : list Z) v,
  zlen mid = Z.of_nat (bytes_of w) -> 0 <= v < 2 ^ bits_of w ->
  serialize w o (pre ++ mid ++ post) (zlen pre) v =
    Done (pre ++ layout o (digits (bytes_of w) v) ++ post, Z.of_nat (bytes_of w)).
Proof. exact serialize_layout_l. Qed.
Print Assumptions serializer_layout.

(** C30, reading: the value of the digits. *)
Theorem serializer_reads_number : forall w o (pre ds post : list Z),
  length ds = bytes_of w -> Forall is_byte ds ->
  deserialize_u w o (pre ++ layout o ds ++ post) (zlen pre) =
    Done (number ds, Z.of_nat (bytes_of w)).
Proof. exact deserialize_u_l. Qed.
Print Assumptions serializer_reads_number.

Example serializer_layout_example :
  0 <= 258 < 2 ^ bits_of W64 /\ layout LE (digits (bytes_of W64) 258) = [2; 1; 0; 0; 0; 0; 0; 0] /\
  layout BE (digits (bytes_of W64) 258) = [0; 0; 0; 0; 0; 0; 1; 2] /\ number [2; 1] = 258.
Proof. repeat split; vm_compute; congruence. Qed.

(** C31: signed values, with gcc's wrapping shifts ([wrap] is the conversion of the signed
    argument to the unsigned parameter type). *)
Theorem serializer_signed_round_trip : forall w o (pre mid post : list Z) v,
  zlen mid = Z.of_nat (bytes_of w) -> - 2 ^ (bits_of w - 1) <= v < 2 ^ (bits_of w - 1) ->
  exists buf, serialize w o (pre ++ mid ++ post) (zlen pre) (wrap (bits_of w) v)
                = Done (buf, Z.of_nat (bytes_of w)) /\
    deserialize_s false w o buf (zlen pre) = Done (v, Z.of_nat (bytes_of w)).
Proof. exact s_round_trip_l. Qed.
Print Assumptions serializer_signed_round_trip.

Example serializer_signed_example :
  - 2 ^ (bits_of W32 - 1) <= -2 < 2 ^ (bits_of W32 - 1) /\
  serialize W32 LE [7; 0; 0; 0; 0] 1 (wrap (bits_of W32) (-2)) = Done ([7; 254; 255; 255; 255], 4) /\
  deserialize_s false W32 LE [7; 254; 255; 255; 255] 1 = Done (-2, 4).
Proof. repeat split; vm_compute; congruence. Qed.

(** C32 refuted: reading -1 as a signed 32 or 64 bit value shifts into the sign bit. *)
Theorem serializer_no_ub_refuted :
  exists bs, Forall is_byte bs /\ length bs = bytes_of W32 /\
    deserialize_s true W32 LE bs 0 = Undef /\ deserialize_s true W32 BE bs 0 = Undef.
Proof.
  exists [255; 255; 255; 255]. split; [repeat constructor; vm_compute; congruence|].
  repeat split; reflexivity.
Qed.
Print Assumptions serializer_no_ub_refuted.

(** C32, exact: the unsigned readers (see [serializer_reads_number]) and the 8 and 16
    bit signed readers are always defined; the 32 and 64 bit signed ones are undefined
    exactly when the most significant byte is 128 or more, and otherwise right. *)
Theorem serializer_signed_ub_exact_partial : forall w o (pre ds post : list Z),
  length ds = bytes_of w -> Forall is_byte ds ->
  deserialize_s true w o (pre ++ layout o ds ++ post) (zlen pre) =
    if (match w with W32 | W64 => 128 <=? last ds 0 | W8 | W16 => false end) then Undef
    else Done (two_complement (bits_of w) (number ds), Z.of_nat (bytes_of w)).
Proof.
  intros w o pre ds post Hl Hb. rewrite deserialize_s_l by assumption. now destruct w.
Qed.
Print Assumptions serializer_signed_ub_exact_partial.

(** C98: the PACK macros store the value modulo the field width, big endian, in their own
    bytes; UNPACK of what PACK wrote yields the value modulo the width, for every integer. *)
Theorem serializer_pack_unpack : forall (pre post : list Z) a b var,
  (exists buf, PACK_UINT16_BE (pre ++ [a; b] ++ post) (zlen pre) var = Done (buf, 2) /\
     UNPACK_UINT16_BE buf (zlen pre) = Done (var mod 65536, 2) /\
     buf = pre ++ [(var / 256) mod 256; var mod 256] ++ post) /\
  (exists buf, PACK_UINT8 (pre ++ [a] ++ post) (zlen pre) var = Done (buf, 1) /\
     UNPACK_UINT8 buf (zlen pre) = Done (var mod 256, 1) /\ buf = pre ++ [var mod 256] ++ post).
Proof.
  intros pre post a b var. split.
  - assert (HR : 0 <= wrap 16 var < 2 ^ bits_of W16) by (apply (wrap_range 16); lia).
    destruct (u_round_trip_l W16 BE pre [a; b] post (wrap 16 var) eq_refl HR) as (buf & E1 & E2).
    exists buf. split; [exact E1|]. split; [exact E2|].
    rewrite (serialize_layout_l W16 BE pre [a; b] post _ eq_refl HR) in E1.
    injection E1 as <-. cbn [bytes_of digits layout rev app]. unfold wrap.
    change (2 ^ 16) with 65536.
    replace ((var mod 65536) mod 256) with (var mod 256)
      by (clear; Z.div_mod_to_equations; lia).
    replace (var mod 65536 / 256 mod 256) with ((var / 256) mod 256)
      by (clear; Z.div_mod_to_equations; lia). reflexivity.
  - assert (HR : 0 <= wrap 8 var < 2 ^ bits_of W8) by (apply (wrap_range 8); lia).
    destruct (u_round_trip_l W8 BE pre [a] post (wrap 8 var) eq_refl HR) as (buf & E1 & E2).
    exists buf. split; [exact E1|]. split; [exact E2|].
    rewrite (serialize_layout_l W8 BE pre [a] post _ eq_refl HR) in E1.
    injection E1 as <-. cbn [bytes_of digits layout rev app]. unfold wrap.
    change (2 ^ 8) with 256. now rewrite Z.mod_mod by lia.
Qed.
Print Assumptions serializer_pack_unpack.

Example serializer_pack_example : PACK_UINT16_BE [0; 0; 0] 1 (-2) = Done ([0; 255; 254], 2).
Proof. reflexivity. Qed.

(** C98: UNPACK reads the bytes as a big endian number. *)
Theorem serializer_unpack_reads : forall (pre post : list Z) a b c d,
  is_byte a -> is_byte b -> is_byte c -> is_byte d ->
  UNPACK_UINT8 (pre ++ [a] ++ post) (zlen pre) = Done (a, 1) /\
  UNPACK_UINT16_BE (pre ++ [a; b] ++ post) (zlen pre) = Done (256 * a + b, 2) /\
  UNPACK_UINT32_BE (pre ++ [a; b; c; d] ++ post) (zlen pre)
    = Done (16777216 * a + 65536 * b + 256 * c + d, 4).
Proof.
  intros pre post a b c d Ha Hb Hc Hd. split; [|split].
  - pose proof (deserialize_u_l W8 BE pre [a] post eq_refl ltac:(repeat constructor; auto; apply Ha)) as E.
    cbn [layout rev app number deserialize_u] in E. etransitivity; [exact E|]. do 2 f_equal. lia.
  - pose proof (deserialize_u_l W16 BE pre [b; a] post eq_refl
      ltac:(constructor; [exact Hb|constructor; [exact Ha|constructor]])) as E.
    cbn [layout rev app number] in E. etransitivity; [exact E|]. do 2 f_equal. lia.
  - pose proof (deserialize_u_l W32 BE pre [d; c; b; a] post eq_refl
      ltac:(repeat (constructor; [assumption|]); constructor)) as E.
    cbn [layout rev app number] in E. etransitivity; [exact E|]. do 2 f_equal. lia.
Qed.
Print Assumptions serializer_unpack_reads.

Example serializer_unpack_example : UNPACK_UINT32_BE [7; 1; 2; 3; 4] 1 = Done (16909060, 4).
Proof. reflexivity. Qed.
