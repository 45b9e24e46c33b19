(** Records: a list of typed fields laid out one after the other.  Independent of the model. *)
From Verif Require Import Base SerializerSpec.

(** Type of a field: signed or not, width, byte order. *)
Record ftype := { f_signed : bool; f_width : width; f_order : order }.

Definition f_size (t : ftype) : Z := Z.of_nat (bytes_of (f_width t)).

(** Values a field of that type can hold. *)
Definition f_holds (t : ftype) (v : Z) : Prop :=
  if f_signed t then - 2 ^ (bits_of (f_width t) - 1) <= v < 2 ^ (bits_of (f_width t) - 1)
  else 0 <= v < 2 ^ bits_of (f_width t).

Definition record_fits (r : list (ftype * Z)) : Prop := Forall (fun x => f_holds (fst x) (snd x)) r.

Definition record_size (ts : list ftype) : Z := fold_right (fun t n => f_size t + n) 0 ts.

(** The bytes of a record: the digits of each value modulo its width. *)
Definition record_bytes (r : list (ftype * Z)) : list Z :=
  flat_map (fun x => layout (f_order (fst x)) (digits (bytes_of (f_width (fst x))) (snd x))) r.

(** Fields read by a signed reader of 32 or 64 bits: ISO C leaves negative ones undefined. *)
Definition iso_safe (x : ftype * Z) : bool :=
  negb (f_signed (fst x)) || match f_width (fst x) with W8 | W16 => true | W32 | W64 => 0 <=? snd x end.
