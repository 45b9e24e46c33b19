(** A caller of serializer.h that adds the size each call returns to its position, the use
    the return values are for. *)
From Verif Require Import Base SerializerModel SerializerSpec SerializerSystem SerRecSpec.

(** i += serialize_…(&buf[i], v) for each field; a signed value is converted to the unsigned
    parameter type of serializer.h:57-118. *)
Fixpoint write_record (buf : list Z) (i : Z) (r : list (ftype * Z)) : outcome (list Z * Z) :=
  match r with
  | [] => Done (buf, i)
  | (t, v) :: r' =>
      do x <- serialize (f_width t) (f_order t) buf i (wrap (bits_of (f_width t)) v);
      write_record (fst x) (i + snd x) r'
  end.

(** i += deserialize_…(&v, &buf[i]) for each field. *)
Fixpoint read_record (iso : bool) (buf : list Z) (i : Z) (ts : list ftype) : outcome (list Z * Z) :=
  match ts with
  | [] => Done ([], i)
  | t :: ts' =>
      do x <- (if f_signed t then deserialize_s iso (f_width t) (f_order t) buf i
               else deserialize_u (f_width t) (f_order t) buf i);
      do y <- read_record iso buf (i + snd x) ts';
      Done (fst x :: fst y, snd y)
  end.
