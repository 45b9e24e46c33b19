(** Positional notation in base 256, independent of the model. *)
From Verif Require Import Base.

Inductive width := W8 | W16 | W32 | W64.
Inductive order := LE | BE.

Definition bytes_of (w : width) : nat :=
  match w with W8 => 1 | W16 => 2 | W32 => 4 | W64 => 8 end.
Definition bits_of (w : width) : Z := 8 * Z.of_nat (bytes_of w).

(** The [n] least significant base-256 digits, least significant first. *)
Fixpoint digits (n : nat) (v : Z) : list Z :=
  match n with O => [] | S n' => v mod 256 :: digits n' (v / 256) end.

(** Number denoted by digits, least significant first. *)
Fixpoint number (ds : list Z) : Z :=
  match ds with [] => 0 | d :: ds' => d + 256 * number ds' end.

Definition layout (o : order) (ds : list Z) : list Z :=
  match o with LE => ds | BE => rev ds end.

Definition is_byte (b : Z) : Prop := 0 <= b < 256.

(** Two's complement reading of an unsigned [b]-bit number. *)
Definition two_complement (b v : Z) : Z := if v <? 2 ^ (b - 1) then v else v - 2 ^ b.
