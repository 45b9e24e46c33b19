(** Properties C125-C126: errors of few bits. *)
From Verif Require Import Base BaseLemmas CrcModel CrcSpec CrcProofs CrcErrorsProofs CrcSearch.

(** C125: the CRC-32 detects every error of up to 3 bits within 91639 positions, of up to 4
    within 3006, 5 within 300, 6 within 203 and 7 within 123, anywhere in
    messages of any length. *)
Theorem crc32_detects_few_errors : forall m1 m2 init s n k N c1 c2,
  message m1 -> message m2 -> length m1 = length m2 -> 0 <= init < 2 ^ 32 ->
  differ_within s n (message_bits m1) (message_bits m2) ->
  In (k, N) [(3%nat, 91639); (4%nat, 3006); (5%nat, 300); (6%nat, 203); (7%nat, 123)] ->
  Z.of_nat n <= N -> (1 <= distance (message_bits m1) (message_bits m2) <= k)%nat ->
  crc32 m1 (zlen m1) init = Done c1 -> crc32 m2 (zlen m2) init = Done c2 -> c1 <> c2.
Proof. exact crc32_few_l. Qed.
Print Assumptions crc32_detects_few_errors.

Example crc32_few_example :
  differ_within 7 17 (message_bits [1; 2; 3]) (message_bits [0; 2; 130]) /\
  distance (message_bits [1; 2; 3]) (message_bits [0; 2; 130]) = 3%nat.
Proof.
  split; [|reflexivity]. intros i Hi.
  do 24 (destruct i; [cbn in Hi; first [lia | now contradict Hi]|]). now contradict Hi.
Qed.

(** None of these lengths can be extended by one. *)
Theorem crc32_few_errors_sharp : forall k N,
  In (k, N) [(3%nat, 91639); (4%nat, 3006); (5%nat, 300); (6%nat, 203); (7%nat, 123)] ->
  exists m1 m2, message m1 /\ message m2 /\ length m1 = length m2 /\
    distance (message_bits m1) (message_bits m2) = k /\
    differ_within 0 (Z.to_nat (N + 1)) (message_bits m1) (message_bits m2) /\
    forall init, 0 <= init < 2 ^ 32 -> crc32 m1 (zlen m1) init = crc32 m2 (zlen m2) init.
Proof. exact crc32_few_sharp_l. Qed.
Print Assumptions crc32_few_errors_sharp.

(** C126: the CRC-16 detects every error of up to 3 bits within 32767 positions, but not
    every error of 4 bits, even within 17 positions. *)
Theorem crc16_detects_few_errors : forall m1 m2 init s n c1 c2,
  message m1 -> message m2 -> length m1 = length m2 -> 0 <= init < 2 ^ 16 ->
  differ_within s n (message_bits m1) (message_bits m2) -> Z.of_nat n <= 32767 ->
  (1 <= distance (message_bits m1) (message_bits m2) <= 3)%nat ->
  crc16_ccitt m1 (zlen m1) init = Done c1 -> crc16_ccitt m2 (zlen m2) init = Done c2 -> c1 <> c2.
Proof. exact crc16_few_l. Qed.
Print Assumptions crc16_detects_few_errors.

Theorem crc16_few_errors_sharp :
  exists m1 m2, message m1 /\ message m2 /\ length m1 = length m2 /\
    distance (message_bits m1) (message_bits m2) = 4%nat /\
    differ_within 0 17 (message_bits m1) (message_bits m2) /\
    forall init, 0 <= init < 2 ^ 16 -> crc16_ccitt m1 (zlen m1) init = crc16_ccitt m2 (zlen m2) init.
Proof. exact crc16_few_sharp_l. Qed.
Print Assumptions crc16_few_errors_sharp.
