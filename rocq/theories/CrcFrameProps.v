(** Check values at the end of a frame, forged suffixes, linearity. *)
From Verif Require Import Base SerializerSpec SerializerSystem CrcModel CrcSpec CrcFrameSpec CrcFrameProofs.

(** C174: the CRC of a message with four (two) more bytes is 0 exactly when those bytes, most significant first, are the CRC of the message. *)
Theorem crc32_check : forall m x init c, message m -> message x -> length x = 4%nat -> 0 <= init < 2 ^ 32 ->
  crc32 m (zlen m) init = Done c ->
  (crc32 (m ++ x) (zlen (m ++ x)) init = Done 0 <-> number (layout BE x) = c).
Proof. exact crc32_check_l. Qed.
Print Assumptions crc32_check.
Theorem crc16_check : forall m x init c, message m -> message x -> length x = 2%nat -> 0 <= init < 2 ^ 16 ->
  crc16_ccitt m (zlen m) init = Done c ->
  (crc16_ccitt (m ++ x) (zlen (m ++ x)) init = Done 0 <-> number (layout BE x) = c).
Proof. exact crc16_check_l. Qed.
Print Assumptions crc16_check.

(** C174: a buffer whose last bytes are filled with the CRC of the rest by the serializer has CRC 0. *)
Theorem crc32_frame : forall m mid init, message m -> zlen mid = 4 -> 0 <= init < 2 ^ 32 ->
  exists c frame, crc32 (m ++ mid) (zlen m) init = Done c /\ serialize W32 BE (m ++ mid) (zlen m) c = Done (frame, 4) /\
    zlen frame = zlen m + 4 /\ firstn (length m) frame = m /\ message frame /\
    crc32 frame (zlen frame) init = Done 0.
Proof. exact crc32_frame_l. Qed.
Print Assumptions crc32_frame.
Theorem crc16_frame : forall m mid init, message m -> zlen mid = 2 -> 0 <= init < 2 ^ 16 ->
  exists c frame, crc16_ccitt (m ++ mid) (zlen m) init = Done c /\ serialize W16 BE (m ++ mid) (zlen m) c = Done (frame, 2) /\
    zlen frame = zlen m + 2 /\ firstn (length m) frame = m /\ message frame /\
    crc16_ccitt frame (zlen frame) init = Done 0.
Proof. exact crc16_frame_l. Qed.
Print Assumptions crc16_frame.

(** C174: such a frame hit by a burst anywhere, check bytes included, does not have CRC 0 any more. *)
Theorem crc32_frame_detects : forall f g init s, message f -> message g -> length f = length g -> 0 <= init < 2 ^ 32 ->
  crc32 f (zlen f) init = Done 0 -> g <> f -> differ_within s 32 (message_bits f) (message_bits g) ->
  exists c, crc32 g (zlen g) init = Done c /\ c <> 0.
Proof. exact crc32_frame_burst_l. Qed.
Print Assumptions crc32_frame_detects.
Theorem crc16_frame_detects : forall f g init s, message f -> message g -> length f = length g -> 0 <= init < 2 ^ 16 ->
  crc16_ccitt f (zlen f) init = Done 0 -> g <> f -> differ_within s 16 (message_bits f) (message_bits g) ->
  exists c, crc16_ccitt g (zlen g) init = Done c /\ c <> 0.
Proof. exact crc16_frame_burst_l. Qed.
Print Assumptions crc16_frame_detects.

(** C175: behind any message, exactly one sequence of four (two) bytes gives a wanted CRC. *)
Theorem crc32_suffix : forall m init t, message m -> 0 <= init < 2 ^ 32 -> 0 <= t < 2 ^ 32 ->
  exists! x, message x /\ length x = 4%nat /\ crc32 (m ++ x) (zlen (m ++ x)) init = Done t.
Proof. exact crc32_suffix_l. Qed.
Print Assumptions crc32_suffix.
Theorem crc16_suffix : forall m init t, message m -> 0 <= init < 2 ^ 16 -> 0 <= t < 2 ^ 16 ->
  exists! x, message x /\ length x = 2%nat /\ crc16_ccitt (m ++ x) (zlen (m ++ x)) init = Done t.
Proof. exact crc16_suffix_l. Qed.
Print Assumptions crc16_suffix.

(** C176: the CRC of the xor of two messages is the xor of their CRCs; different initial values give different CRCs. *)
Theorem crc32_linear : forall m1 m2 i1 i2 c1 c2, message m1 -> message m2 -> length m1 = length m2 -> 0 <= i1 < 2 ^ 32 -> 0 <= i2 < 2 ^ 32 ->
  crc32 m1 (zlen m1) i1 = Done c1 -> crc32 m2 (zlen m2) i2 = Done c2 ->
  crc32 (xor_blocks m1 m2) (zlen m1) (Z.lxor i1 i2) = Done (Z.lxor c1 c2).
Proof. exact crc32_linear_l. Qed.
Print Assumptions crc32_linear.
Theorem crc16_linear : forall m1 m2 i1 i2 c1 c2, message m1 -> message m2 -> length m1 = length m2 -> 0 <= i1 < 2 ^ 16 -> 0 <= i2 < 2 ^ 16 ->
  crc16_ccitt m1 (zlen m1) i1 = Done c1 -> crc16_ccitt m2 (zlen m2) i2 = Done c2 ->
  crc16_ccitt (xor_blocks m1 m2) (zlen m1) (Z.lxor i1 i2) = Done (Z.lxor c1 c2).
Proof. exact crc16_linear_l. Qed.
Print Assumptions crc16_linear.
Theorem crc_init_distinct : forall m i1 i2, message m ->
  (0 <= i1 < 2 ^ 32 -> 0 <= i2 < 2 ^ 32 -> crc32 m (zlen m) i1 = crc32 m (zlen m) i2 -> i1 = i2) /\
  (0 <= i1 < 2 ^ 16 -> 0 <= i2 < 2 ^ 16 -> crc16_ccitt m (zlen m) i1 = crc16_ccitt m (zlen m) i2 -> i1 = i2).
Proof. exact crc_init_l. Qed.
Print Assumptions crc_init_distinct.

(** The digits 1 to 9 with the usual initial values. *)
Definition nine : list Z := [49; 50; 51; 52; 53; 54; 55; 56; 57].
Ltac bytes := unfold message, nine; cbn [app]; repeat (apply Forall_cons; [split; [discriminate|reflexivity]|]); apply Forall_nil.
Example nine_frames :
  message nine /\
  crc32 nine 9 0xffffffff = Done 0x0376e6e7 /\ crc32 (nine ++ [0x03; 0x76; 0xe6; 0xe7]) 13 0xffffffff = Done 0 /\
  crc16_ccitt nine 9 0xffff = Done 0x29b1 /\ crc16_ccitt (nine ++ [0x29; 0xb1]) 11 0xffff = Done 0.
Proof. split; [bytes|]. vm_compute. repeat split. Qed.

Example nine_burst :
  let f := nine ++ [0x29; 0xb1] in let g := nine ++ [0x28; 0x31] in
  message f /\ message g /\ differ_within 79 16 (message_bits f) (message_bits g) /\
  crc16_ccitt g 11 0xffff = Done 41657.
Proof.
  split; [bytes|]. split; [bytes|]. split; [|vm_compute; reflexivity].
  intros i H. assert (D : (i < 88)%nat \/ (88 <= i)%nat) by lia. destruct D as [D|D].
  - destruct (Nat.lt_ge_cases i 79) as [L|G]; [|lia]. exfalso. apply H.
    do 79 (destruct i as [|i]; [reflexivity|]). lia.
  - exfalso. apply H. rewrite !(proj2 (nth_error_None _ _)); [reflexivity|vm_compute; lia..].
Qed.

Example nine_linear :
  xor_blocks nine [1; 2; 3; 4; 5; 6; 7; 8; 9] = repeat 48 9 /\
  crc16_ccitt nine 9 0xffff = Done 10673 /\ crc16_ccitt [1; 2; 3; 4; 5; 6; 7; 8; 9] 9 0 = Done 9080 /\
  crc16_ccitt (repeat 48 9) 9 0xffff = Done 2761 /\ Z.lxor 10673 9080 = 2761.
Proof. vm_compute. repeat split. Qed.
