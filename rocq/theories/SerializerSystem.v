(** The serializer functions by width and byte order. *)
From Verif Require Import Base SerializerModel SerializerSpec.

Definition serialize (w : width) (o : order) : list Z -> Z -> Z -> outcome (list Z * Z) :=
  match w, o with
  | W8, _ => serialize_uint8
  | W16, LE => serialize_uint16_le
  | W16, BE => serialize_uint16_be
  | W32, LE => serialize_uint32_le
  | W32, BE => serialize_uint32_be
  | W64, LE => serialize_uint64_le
  | W64, BE => serialize_uint64_be
  end.

Definition deserialize_u (w : width) (o : order) : list Z -> Z -> outcome (Z * Z) :=
  match w, o with
  | W8, _ => deserialize_uint8
  | W16, LE => deserialize_uint16_le
  | W16, BE => deserialize_uint16_be
  | W32, LE => deserialize_uint32_le
  | W32, BE => deserialize_uint32_be
  | W64, LE => deserialize_uint64_le
  | W64, BE => deserialize_uint64_be
  end.

Definition deserialize_s (iso : bool) (w : width) (o : order) : list Z -> Z -> outcome (Z * Z) :=
  match w, o with
  | W8, _ => deserialize_int8
  | W16, LE => deserialize_int16_le iso
  | W16, BE => deserialize_int16_be iso
  | W32, LE => deserialize_int32_le iso
  | W32, BE => deserialize_int32_be iso
  | W64, LE => deserialize_int64_le iso
  | W64, BE => deserialize_int64_be iso
  end.
