(** Properties C23-C28: the CRC functions. [post] is whatever follows the block in memory. *)
From Verif Require Import Base BaseLemmas CrcModel CrcSpec CrcProofs.

(** C23: the table driven CRC-32 is the bit serial one. *)
Theorem crc32_is_serial : forall m post init, message m -> 0 <= init < 2 ^ 32 ->
  crc32 (m ++ post) (zlen m) init = Done (serial_crc 32 CRC32_POLY init (message_bits m)).
Proof. exact crc32_serial_l. Qed.
Print Assumptions crc32_is_serial.

(** C23: equivalently, a remainder of polynomial division: the message times x^32, with
    the initial value added to its leading 32 coefficients, modulo x^32 + the polynomial. *)
Theorem crc32_is_remainder : forall m post init c, message m -> 0 <= init < 2 ^ 32 ->
  crc32 (m ++ post) (zlen m) init = Done c ->
  is_remainder 32 (Z.lxor (bits_poly (message_bits m) * 2 ^ 32) (init * 2 ^ (8 * zlen m)))
               (2 ^ 32 + CRC32_POLY) c.
Proof. exact crc32_remainder_l. Qed.
Print Assumptions crc32_is_remainder.

(** The published check value of CRC-32/MPEG-2 on "123456789". *)
Example crc32_example :
  message [49; 50; 51; 52; 53; 54; 55; 56; 57] /\ 0 <= 0xFFFFFFFF < 2 ^ 32 /\
  crc32 [49; 50; 51; 52; 53; 54; 55; 56; 57] 9 0xFFFFFFFF = Done 0x0376E6E7.
Proof. split; [repeat constructor; vm_compute; congruence|]. split; [lia|reflexivity]. Qed.

(** C24: likewise for the CRC-16. *)
Theorem crc16_is_serial : forall m post init, message m -> 0 <= init < 2 ^ 16 ->
  crc16_ccitt (m ++ post) (zlen m) init = Done (serial_crc 16 CRC16_POLY init (message_bits m)).
Proof. exact crc16_serial_l. Qed.
Print Assumptions crc16_is_serial.

Theorem crc16_is_remainder : forall m post init c, message m -> 0 <= init < 2 ^ 16 ->
  crc16_ccitt (m ++ post) (zlen m) init = Done c ->
  is_remainder 16 (Z.lxor (bits_poly (message_bits m) * 2 ^ 16) (init * 2 ^ (8 * zlen m)))
               (2 ^ 16 + CRC16_POLY) c.
Proof. exact crc16_remainder_l. Qed.
Print Assumptions crc16_is_remainder.

(** The published check value of CRC-16/XMODEM on "123456789". *)
Example crc16_example :
  message [49; 50; 51; 52; 53; 54; 55; 56; 57] /\
  crc16_ccitt [49; 50; 51; 52; 53; 54; 55; 56; 57] 9 0 = Done 0x31C3.
Proof. split; [repeat constructor; vm_compute; congruence|reflexivity]. Qed.

(** C25: segments. *)
Theorem crc32_segments : forall m1 m2 init, message m1 -> message m2 -> 0 <= init < 2 ^ 32 ->
  exists c1 c2, crc32 m1 (zlen m1) init = Done c1 /\ crc32 m2 (zlen m2) c1 = Done c2 /\
    crc32 (m1 ++ m2) (zlen (m1 ++ m2)) init = Done c2.
Proof.
  intros m1 m2 init H1 H2 Hi. pose proof (crc32_segments_l m1 m2 init H1 H2 Hi) as E.
  pose proof (crc32_serial_l m1 [] init H1 Hi) as E1. rewrite app_nil_r in E1.
  pose proof (crc32_serial_l (m1 ++ m2) [] init ltac:(now apply Forall_app) Hi) as E2.
  rewrite app_nil_r in E2. rewrite E2, E1 in E. cbn [obind] in E.
  do 2 eexists. split; [exact E1|]. split; [symmetry; exact E|exact E2].
Qed.
Print Assumptions crc32_segments.

Theorem crc16_segments : forall m1 m2 init, message m1 -> message m2 -> 0 <= init < 2 ^ 16 ->
  exists c1 c2, crc16_ccitt m1 (zlen m1) init = Done c1 /\ crc16_ccitt m2 (zlen m2) c1 = Done c2 /\
    crc16_ccitt (m1 ++ m2) (zlen (m1 ++ m2)) init = Done c2.
Proof.
  intros m1 m2 init H1 H2 Hi. pose proof (crc16_segments_l m1 m2 init H1 H2 Hi) as E.
  pose proof (crc16_serial_l m1 [] init H1 Hi) as E1. rewrite app_nil_r in E1.
  pose proof (crc16_serial_l (m1 ++ m2) [] init ltac:(now apply Forall_app) Hi) as E2.
  rewrite app_nil_r in E2. rewrite E2, E1 in E. cbn [obind] in E.
  do 2 eexists. split; [exact E1|]. split; [symmetry; exact E|exact E2].
Qed.
Print Assumptions crc16_segments.

Example crc_segments_example :
  crc16_ccitt [49; 50] 2 0 = Done 0x20B5 /\ crc16_ccitt [51] 1 0x20B5 = Done 0x9752 /\
  crc16_ccitt [49; 50; 51] 3 0 = Done 0x9752.
Proof. repeat split; reflexivity. Qed.

(** C26: bursts of at most 32 bits. *)
Theorem crc32_detects_bursts : forall m1 m2 init s c1 c2,
  message m1 -> message m2 -> length m1 = length m2 -> 0 <= init < 2 ^ 32 -> m1 <> m2 ->
  differ_within s 32 (message_bits m1) (message_bits m2) ->
  crc32 m1 (zlen m1) init = Done c1 -> crc32 m2 (zlen m2) init = Done c2 -> c1 <> c2.
Proof. exact crc32_burst_l. Qed.
Print Assumptions crc32_detects_bursts.

Example crc32_burst_example :
  differ_within 7 32 (message_bits [1; 2; 3; 4; 5]) (message_bits [0; 255; 3; 4; 133]) /\
  [1; 2; 3; 4; 5] <> [0; 255; 3; 4; 133].
Proof.
  split; [|congruence]. intros i Hi.
  do 40 (destruct i; [cbn in Hi; first [lia | now contradict Hi]|]). now contradict Hi.
Qed.

(** C27: bursts of at most 16 bits, and odd numbers of bit errors. *)
Theorem crc16_detects_bursts : forall m1 m2 init s c1 c2,
  message m1 -> message m2 -> length m1 = length m2 -> 0 <= init < 2 ^ 16 -> m1 <> m2 ->
  differ_within s 16 (message_bits m1) (message_bits m2) ->
  crc16_ccitt m1 (zlen m1) init = Done c1 -> crc16_ccitt m2 (zlen m2) init = Done c2 -> c1 <> c2.
Proof. exact crc16_burst_l. Qed.
Print Assumptions crc16_detects_bursts.

Theorem crc16_detects_odd_errors : forall m1 m2 init c1 c2,
  message m1 -> message m2 -> length m1 = length m2 -> 0 <= init < 2 ^ 16 ->
  Nat.odd (distance (message_bits m1) (message_bits m2)) = true ->
  crc16_ccitt m1 (zlen m1) init = Done c1 -> crc16_ccitt m2 (zlen m2) init = Done c2 -> c1 <> c2.
Proof. exact crc16_odd_l. Qed.
Print Assumptions crc16_detects_odd_errors.

Example crc16_errors_example :
  differ_within 7 16 (message_bits [1; 2; 3]) (message_bits [0; 2; 131]) /\
  distance (message_bits [1; 2; 3; 4]) (message_bits [0; 0; 3; 5]) = 3%nat.
Proof.
  split; [|reflexivity]. intros i Hi.
  do 24 (destruct i; [cbn in Hi; first [lia | now contradict Hi]|]). now contradict Hi.
Qed.

(** C28: double bit errors closer than the period of the polynomial. *)
Theorem crc32_detects_double_errors : forall m1 m2 init i j c1 c2,
  message m1 -> message m2 -> 0 <= init < 2 ^ 32 -> (i < j)%nat -> Z.of_nat (j - i) < 2 ^ 32 - 1 ->
  differ_at i j (message_bits m1) (message_bits m2) ->
  crc32 m1 (zlen m1) init = Done c1 -> crc32 m2 (zlen m2) init = Done c2 -> c1 <> c2.
Proof. exact crc32_double_l. Qed.
Print Assumptions crc32_detects_double_errors.

Theorem crc16_detects_double_errors : forall m1 m2 init i j c1 c2,
  message m1 -> message m2 -> 0 <= init < 2 ^ 16 -> (i < j)%nat -> Z.of_nat (j - i) < 32767 ->
  differ_at i j (message_bits m1) (message_bits m2) ->
  crc16_ccitt m1 (zlen m1) init = Done c1 -> crc16_ccitt m2 (zlen m2) init = Done c2 -> c1 <> c2.
Proof. exact crc16_double_l. Qed.
Print Assumptions crc16_detects_double_errors.

(** The bound is sharp: two bit errors 32767 apart are never detected. *)
Theorem crc16_double_errors_sharp : forall m1 m2 init i c1 c2,
  message m1 -> message m2 -> 0 <= init < 2 ^ 16 ->
  differ_at i (i + Z.to_nat 32767) (message_bits m1) (message_bits m2) ->
  crc16_ccitt m1 (zlen m1) init = Done c1 -> crc16_ccitt m2 (zlen m2) init = Done c2 -> c1 = c2.
Proof. exact crc16_double_sharp_l. Qed.
Print Assumptions crc16_double_errors_sharp.

Theorem crc32_double_errors_sharp : forall m1 m2 init i c1 c2,
  message m1 -> message m2 -> 0 <= init < 2 ^ 32 ->
  differ_at i (i + Z.to_nat (2 ^ 32 - 1)) (message_bits m1) (message_bits m2) ->
  crc32 m1 (zlen m1) init = Done c1 -> crc32 m2 (zlen m2) init = Done c2 -> c1 = c2.
Proof. exact crc32_double_sharp_l. Qed.
Print Assumptions crc32_double_errors_sharp.

Example crc_double_example : differ_at 3 22 (message_bits [1; 2; 3]) (message_bits [17; 2; 1]).
Proof.
  split; [reflexivity|]. split; [cbn; lia|]. split; [cbn; lia|]. intros k.
  do 24 (destruct k; [cbn; split; [intros H; first [lia | now contradict H] | intros [H|H]; first [lia | discriminate]]|]).
  cbn. split; [intros H; now contradict H | intros [H|H]; lia].
Qed.
