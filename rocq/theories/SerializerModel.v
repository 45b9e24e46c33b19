(** Model of gel/serializer/serializer.h.

    A [uint8_t*] argument is a buffer (list of bytes) and an offset into it; accesses
    outside the buffer are [Undef].  [iso] selects the meaning of a signed left shift
    whose result is not representable: [true] is ISO C (undefined), [false] is the
    documented gcc behaviour (wraps).  Conversions to a narrower signed type wrap. *)
From Verif Require Import Base.

(** Store of [(val >> sh) & 0xFF] into [buf[k]]. *)
Definition put (buf : list Z) (off k val sh : Z) : outcome (list Z) :=
  zset buf (off + k) (Z.land (Z.shiftr val sh) 255).

(** serializer.h:57-60. *)
Definition serialize_uint8 (buf : list Z) (off val : Z) : outcome (list Z * Z) :=
  do b <- zset buf off val; Done (b, 1).

(** serializer.h:63-67. *)
Definition serialize_uint16_le (buf : list Z) (off val : Z) : outcome (list Z * Z) :=
  do b0 <- put buf off 0 val 0;
  do b1 <- put b0 off 1 val 8;
  Done (b1, 2).

(** serializer.h:70-76. *)
Definition serialize_uint32_le (buf : list Z) (off val : Z) : outcome (list Z * Z) :=
  do b0 <- put buf off 0 val 0;
  do b1 <- put b0 off 1 val 8;
  do b2 <- put b1 off 2 val 16;
  do b3 <- put b2 off 3 val 24;
  Done (b3, 4).

(** serializer.h:79-89. *)
Definition serialize_uint64_le (buf : list Z) (off val : Z) : outcome (list Z * Z) :=
  do b0 <- put buf off 0 val 0;
  do b1 <- put b0 off 1 val 8;
  do b2 <- put b1 off 2 val 16;
  do b3 <- put b2 off 3 val 24;
  do b4 <- put b3 off 4 val 32;
  do b5 <- put b4 off 5 val 40;
  do b6 <- put b5 off 6 val 48;
  do b7 <- put b6 off 7 val 56;
  Done (b7, 8).

(** serializer.h:92-96. *)
Definition serialize_uint16_be (buf : list Z) (off val : Z) : outcome (list Z * Z) :=
  do b0 <- put buf off 0 val 8;
  do b1 <- put b0 off 1 val 0;
  Done (b1, 2).

(** serializer.h:99-105. *)
Definition serialize_uint32_be (buf : list Z) (off val : Z) : outcome (list Z * Z) :=
  do b0 <- put buf off 0 val 24;
  do b1 <- put b0 off 1 val 16;
  do b2 <- put b1 off 2 val 8;
  do b3 <- put b2 off 3 val 0;
  Done (b3, 4).

(** serializer.h:108-118. *)
Definition serialize_uint64_be (buf : list Z) (off val : Z) : outcome (list Z * Z) :=
  do b0 <- put buf off 0 val 56;
  do b1 <- put b0 off 1 val 48;
  do b2 <- put b1 off 2 val 40;
  do b3 <- put b2 off 3 val 32;
  do b4 <- put b3 off 4 val 24;
  do b5 <- put b4 off 5 val 16;
  do b6 <- put b5 off 6 val 8;
  do b7 <- put b6 off 7 val 0;
  Done (b7, 8).

(** serializer.h:121-124. *)
Definition deserialize_uint8 (buf : list Z) (off : Z) : outcome (Z * Z) :=
  do b0 <- zget buf off; Done (b0, 1).

(** serializer.h:127-130. *)
Definition deserialize_int8 (buf : list Z) (off : Z) : outcome (Z * Z) :=
  do b0 <- zget buf off; Done (swrap 8 b0, 1).

(** Left shift of a non-negative value of a signed type of width [w]. *)
Definition sshl (iso : bool) (w x n : Z) : outcome Z :=
  if iso && (2 ^ (w - 1) <=? Z.shiftl x n) then Undef else Done (swrap w (Z.shiftl x n)).

(** Left shift of an unsigned value of width [w]. *)
Definition ushl (w x n : Z) : outcome Z := Done (wrap w (Z.shiftl x n)).

(** serializer.h:133-136; 16-bit operands are promoted to int before the shift. *)
Definition deserialize_uint16_le (buf : list Z) (off : Z) : outcome (Z * Z) :=
  do b0 <- zget buf (off + 0);
  do b1 <- zget buf (off + 1);
  do s1 <- sshl true 32 b1 8;
  Done (wrap 16 (Z.lor b0 s1), 2).

(** serializer.h:139-142; 16-bit operands are promoted to int before the shift. *)
Definition deserialize_int16_le (iso : bool) (buf : list Z) (off : Z) : outcome (Z * Z) :=
  do b0 <- zget buf (off + 0);
  do b1 <- zget buf (off + 1);
  do s1 <- sshl iso 32 b1 8;
  Done (swrap 16 (Z.lor b0 s1), 2).

(** serializer.h:145-148. *)
Definition deserialize_uint32_le (buf : list Z) (off : Z) : outcome (Z * Z) :=
  do b0 <- zget buf (off + 0);
  do b1 <- zget buf (off + 1);
  do b2 <- zget buf (off + 2);
  do b3 <- zget buf (off + 3);
  do s1 <- ushl 32 b1 8;
  do s2 <- ushl 32 b2 16;
  do s3 <- ushl 32 b3 24;
  Done (wrap 32 (Z.lor (Z.lor (Z.lor b0 s1) s2) s3), 4).

(** serializer.h:151-154. *)
Definition deserialize_int32_le (iso : bool) (buf : list Z) (off : Z) : outcome (Z * Z) :=
  do b0 <- zget buf (off + 0);
  do b1 <- zget buf (off + 1);
  do b2 <- zget buf (off + 2);
  do b3 <- zget buf (off + 3);
  do s1 <- sshl iso 32 b1 8;
  do s2 <- sshl iso 32 b2 16;
  do s3 <- sshl iso 32 b3 24;
  Done (swrap 32 (Z.lor (Z.lor (Z.lor b0 s1) s2) s3), 4).

(** serializer.h:157-161. *)
Definition deserialize_uint64_le (buf : list Z) (off : Z) : outcome (Z * Z) :=
  do b0 <- zget buf (off + 0);
  do b1 <- zget buf (off + 1);
  do b2 <- zget buf (off + 2);
  do b3 <- zget buf (off + 3);
  do b4 <- zget buf (off + 4);
  do b5 <- zget buf (off + 5);
  do b6 <- zget buf (off + 6);
  do b7 <- zget buf (off + 7);
  do s1 <- ushl 64 b1 8;
  do s2 <- ushl 64 b2 16;
  do s3 <- ushl 64 b3 24;
  do s4 <- ushl 64 b4 32;
  do s5 <- ushl 64 b5 40;
  do s6 <- ushl 64 b6 48;
  do s7 <- ushl 64 b7 56;
  Done (wrap 64 (Z.lor (Z.lor (Z.lor (Z.lor (Z.lor (Z.lor (Z.lor b0 s1) s2) s3) s4) s5) s6) s7), 8).

(** serializer.h:164-168. *)
Definition deserialize_int64_le (iso : bool) (buf : list Z) (off : Z) : outcome (Z * Z) :=
  do b0 <- zget buf (off + 0);
  do b1 <- zget buf (off + 1);
  do b2 <- zget buf (off + 2);
  do b3 <- zget buf (off + 3);
  do b4 <- zget buf (off + 4);
  do b5 <- zget buf (off + 5);
  do b6 <- zget buf (off + 6);
  do b7 <- zget buf (off + 7);
  do s1 <- sshl iso 64 b1 8;
  do s2 <- sshl iso 64 b2 16;
  do s3 <- sshl iso 64 b3 24;
  do s4 <- sshl iso 64 b4 32;
  do s5 <- sshl iso 64 b5 40;
  do s6 <- sshl iso 64 b6 48;
  do s7 <- sshl iso 64 b7 56;
  Done (swrap 64 (Z.lor (Z.lor (Z.lor (Z.lor (Z.lor (Z.lor (Z.lor b0 s1) s2) s3) s4) s5) s6) s7), 8).

(** serializer.h:171-174; 16-bit operands are promoted to int before the shift. *)
Definition deserialize_uint16_be (buf : list Z) (off : Z) : outcome (Z * Z) :=
  do b0 <- zget buf (off + 0);
  do b1 <- zget buf (off + 1);
  do s1 <- sshl true 32 b0 8;
  Done (wrap 16 (Z.lor b1 s1), 2).

(** serializer.h:177-180; 16-bit operands are promoted to int before the shift. *)
Definition deserialize_int16_be (iso : bool) (buf : list Z) (off : Z) : outcome (Z * Z) :=
  do b0 <- zget buf (off + 0);
  do b1 <- zget buf (off + 1);
  do s1 <- sshl iso 32 b0 8;
  Done (swrap 16 (Z.lor b1 s1), 2).

(** serializer.h:183-186. *)
Definition deserialize_uint32_be (buf : list Z) (off : Z) : outcome (Z * Z) :=
  do b0 <- zget buf (off + 0);
  do b1 <- zget buf (off + 1);
  do b2 <- zget buf (off + 2);
  do b3 <- zget buf (off + 3);
  do s1 <- ushl 32 b2 8;
  do s2 <- ushl 32 b1 16;
  do s3 <- ushl 32 b0 24;
  Done (wrap 32 (Z.lor (Z.lor (Z.lor b3 s1) s2) s3), 4).

(** serializer.h:189-192. *)
Definition deserialize_int32_be (iso : bool) (buf : list Z) (off : Z) : outcome (Z * Z) :=
  do b0 <- zget buf (off + 0);
  do b1 <- zget buf (off + 1);
  do b2 <- zget buf (off + 2);
  do b3 <- zget buf (off + 3);
  do s1 <- sshl iso 32 b2 8;
  do s2 <- sshl iso 32 b1 16;
  do s3 <- sshl iso 32 b0 24;
  Done (swrap 32 (Z.lor (Z.lor (Z.lor b3 s1) s2) s3), 4).

(** serializer.h:195-199. *)
Definition deserialize_uint64_be (buf : list Z) (off : Z) : outcome (Z * Z) :=
  do b0 <- zget buf (off + 0);
  do b1 <- zget buf (off + 1);
  do b2 <- zget buf (off + 2);
  do b3 <- zget buf (off + 3);
  do b4 <- zget buf (off + 4);
  do b5 <- zget buf (off + 5);
  do b6 <- zget buf (off + 6);
  do b7 <- zget buf (off + 7);
  do s1 <- ushl 64 b6 8;
  do s2 <- ushl 64 b5 16;
  do s3 <- ushl 64 b4 24;
  do s4 <- ushl 64 b3 32;
  do s5 <- ushl 64 b2 40;
  do s6 <- ushl 64 b1 48;
  do s7 <- ushl 64 b0 56;
  Done (wrap 64 (Z.lor (Z.lor (Z.lor (Z.lor (Z.lor (Z.lor (Z.lor b7 s1) s2) s3) s4) s5) s6) s7), 8).

(** serializer.h:202-206. *)
Definition deserialize_int64_be (iso : bool) (buf : list Z) (off : Z) : outcome (Z * Z) :=
  do b0 <- zget buf (off + 0);
  do b1 <- zget buf (off + 1);
  do b2 <- zget buf (off + 2);
  do b3 <- zget buf (off + 3);
  do b4 <- zget buf (off + 4);
  do b5 <- zget buf (off + 5);
  do b6 <- zget buf (off + 6);
  do b7 <- zget buf (off + 7);
  do s1 <- sshl iso 64 b6 8;
  do s2 <- sshl iso 64 b5 16;
  do s3 <- sshl iso 64 b4 24;
  do s4 <- sshl iso 64 b3 32;
  do s5 <- sshl iso 64 b2 40;
  do s6 <- sshl iso 64 b1 48;
  do s7 <- sshl iso 64 b0 56;
  Done (swrap 64 (Z.lor (Z.lor (Z.lor (Z.lor (Z.lor (Z.lor (Z.lor b7 s1) s2) s3) s4) s5) s6) s7), 8).

(** serializer.h:42-47, 49-54: the value is truncated by the cast. *)
Definition PACK_UINT16_BE (buf : list Z) (off var : Z) : outcome (list Z * Z) :=
  serialize_uint16_be buf off (wrap 16 var).
Definition PACK_UINT8 (buf : list Z) (off var : Z) : outcome (list Z * Z) :=
  serialize_uint8 buf off (wrap 8 var).

(** serializer.h:17-39; result: the temporary assigned to [var] and the size. *)
Definition UNPACK_UINT16_BE (buf : list Z) (off : Z) := deserialize_uint16_be buf off.
Definition UNPACK_UINT32_BE (buf : list Z) (off : Z) := deserialize_uint32_be buf off.
Definition UNPACK_UINT8 (buf : list Z) (off : Z) := deserialize_uint8 buf off.
