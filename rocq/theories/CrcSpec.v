(** Cyclic redundancy codes, bit by bit. *)
From Verif Require Import Base.

(** One bit shifted into a CRC register of [w] bits with feedback polynomial [poly]
    (the leading term x^w is implicit), most significant bit first. *)
Definition shift_in (w poly reg : Z) (bit : bool) : Z :=
  let shifted := (2 * reg) mod 2 ^ w in
  if xorb (Z.testbit reg (w - 1)) bit then Z.lxor shifted poly else shifted.

Definition serial_crc (w poly init : Z) (bits : list bool) : Z :=
  fold_left (shift_in w poly) bits init.

(** Bits of a byte and of a message, most significant first. *)
Definition byte_bits (b : Z) : list bool := map (Z.testbit b) [7; 6; 5; 4; 3; 2; 1; 0].
Definition message_bits (m : list Z) : list bool := flat_map byte_bits m.

Definition is_byte (b : Z) : Prop := 0 <= b < 256.
Definition message (m : list Z) : Prop := Forall is_byte m.

Definition CRC32_POLY : Z := 0x04c11db7.
Definition CRC16_POLY : Z := 0x1021.

(** *** Error patterns, on the bit sequences of two messages *)

(** All differing bits lie in the [n] positions from [s]. *)
Definition differ_within (s n : nat) (x y : list bool) : Prop :=
  forall i, nth_error x i <> nth_error y i -> (s <= i < s + n)%nat.

(** Number of differing bits of two sequences of the same length. *)
Fixpoint distance (x y : list bool) : nat :=
  match x, y with
  | a :: x', b :: y' => (if eqb a b then 0 else 1) + distance x' y'
  | _, _ => 0
  end.

(** Exactly the bits at positions [i] and [j] differ. *)
Definition differ_at (i j : nat) (x y : list bool) : Prop :=
  length x = length y /\ (i < length x)%nat /\ (j < length x)%nat /\
  forall k, nth_error x k <> nth_error y k <-> k = i \/ k = j.

(** *** Polynomials over GF(2), as the integer whose binary digits are the coefficients *)

(** Product without carries. *)
Fixpoint cl_mul_pos (p : positive) (q : Z) : Z :=
  match p with
  | xH => q
  | xO p' => 2 * cl_mul_pos p' q
  | xI p' => Z.lxor q (2 * cl_mul_pos p' q)
  end.
Definition cl_mul (p q : Z) : Z := match p with Zpos p' => cl_mul_pos p' q | _ => 0 end.

(** The polynomial with the given coefficients, highest degree first. *)
Definition bits_poly (bits : list bool) : Z :=
  fold_left (fun acc (b : bool) => 2 * acc + (if b then 1 else 0)) bits 0.

(** [r] is the remainder of dividing [a] by [p], a polynomial of degree [w]. *)
Definition is_remainder (w a p r : Z) : Prop :=
  0 <= r < 2 ^ w /\ exists q, 0 <= q /\ a = Z.lxor (cl_mul q p) r.
