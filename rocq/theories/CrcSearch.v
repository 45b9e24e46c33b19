(** The searches behind C125, and what follows from them for messages. *)
From Verif Require Import Base BaseLemmas CrcModel CrcSpec CrcProofs CrcErrorsProofs.

(** The register of the CRC-32, without division. *)
Definition fstep (r : Z) : Z :=
  let d := Z.double r in if d <? 4294967296 then d else Z.lxor d 0x104c11db7.
Fixpoint powers (n : nat) (r : Z) : list Z :=
  match n with O => [] | S n' => r :: powers n' (fstep r) end.
Definition powers32 (n : Z) : list Z := powers (Z.to_nat n) (fstep (2 ^ 31)).

Lemma fstep_ok : forall r, inr 32 r -> fstep r = step0 32 CRC32_POLY r.
Proof.
  intros r Hr. unfold fstep. rewrite Z.double_spec. cbv zeta. unfold inr in Hr.
  destruct (Z.ltb_spec (2 * r) 4294967296) as [H|H].
  - symmetry. apply step0_small; [lia|]. change (2 ^ (32 - 1)) with 2147483648. lia.
  - unfold step0, shift_in. cbv zeta.
    assert (HT : Z.testbit r (32 - 1) = true).
    { change (32 - 1) with 31. rewrite Z.testbit_true by lia. change (2 ^ 31) with 2147483648.
      change (2 ^ 32) with 4294967296 in Hr.
      assert (E : r / 2147483648 = 1) by (symmetry; apply Z.div_unique with (r - 2147483648); lia).
      now rewrite E. }
    rewrite HT. cbn [xorb].
    change 0x104c11db7 with (Z.lxor (2 ^ 32) CRC32_POLY). rewrite <- Z.lxor_assoc. f_equal.
    apply Z.bits_inj'. intros i Hi. rewrite Z.lxor_spec, Z.pow2_bits_eqb by lia.
    destruct (Z.ltb_spec i 32) as [Hl|Hl].
    + rewrite Z.mod_pow2_bits_low by lia. destruct (Z.eqb_spec 32 i); [lia|]. apply xorb_false_r.
    + rewrite Z.mod_pow2_bits_high by lia.
      destruct (Z.eqb_spec 32 i) as [<-|Hn].
      * replace 32 with (Z.succ (32 - 1)) at 1 by lia. rewrite Z.double_bits_succ, HT. reflexivity.
      * replace i with (Z.succ (i - 1)) by lia. rewrite Z.double_bits_succ.
        rewrite (inr_bits 32 r Hr) by lia. reflexivity.
Qed.

Lemma powers_ok : forall n r, inr 32 r -> powers n r = table 32 CRC32_POLY n r.
Proof.
  induction n as [|n IH]; intros r Hr; cbn [powers table]; [reflexivity|].
  rewrite fstep_ok by assumption. f_equal. apply IH. apply step0_inr; [lia|exact p32].
Qed.

Lemma top32 : top 32 = 2 ^ 31. Proof. reflexivity. Qed.
Lemma inr_top32 : inr 32 (2 ^ 31). Proof. split; [lia|reflexivity]. Qed.

Lemma powers32_ok : forall n, powers32 n = table 32 CRC32_POLY (Z.to_nat n) (step0 32 CRC32_POLY (top 32)).
Proof.
  intros n. unfold powers32. rewrite fstep_ok by exact inr_top32. rewrite top32.
  apply powers_ok. apply step0_inr; [lia|exact p32].
Qed.

(** Bits shifted in with it. *)
Definition fserial (bits : list bool) (r : Z) : Z :=
  fold_left (fun r (b : bool) => fstep (if b then Z.lxor r (2 ^ 31) else r)) bits r.

Lemma fserial_ok : forall bits r, inr 32 r -> fserial bits r = serial_crc 32 CRC32_POLY r bits.
Proof.
  induction bits as [|b bits IH]; intros r Hr; [reflexivity|].
  cbn [fserial fold_left]. change (serial_crc 32 CRC32_POLY r (b :: bits)) with
    (serial_crc 32 CRC32_POLY (shift_in 32 CRC32_POLY r b) bits).
  rewrite shift_in_true by lia. change (2 ^ (32 - 1)) with (2 ^ 31).
  assert (Hi : inr 32 (if b then Z.lxor r (2 ^ 31) else r)).
  { destruct b; [|assumption]. apply inr_lxor; [lia|assumption|exact inr_top32]. }
  rewrite fstep_ok by assumption.
  replace (Z.lxor r (if b then 2 ^ 31 else 0)) with (if b then Z.lxor r (2 ^ 31) else r)
    by (destruct b; [reflexivity|now rewrite Z.lxor_0_r]).
  apply IH. apply step0_inr; [lia|exact p32].
Qed.

Lemma search3 : search 0 1 (2 ^ 31) (powers32 91638) = true.
Proof. vm_cast_no_check (eq_refl true). Qed.
Lemma search4 : search 1 1 (2 ^ 31) (powers32 3005) = true.
Proof. vm_cast_no_check (eq_refl true). Qed.
Lemma search5 : search 0 2 (2 ^ 31) (powers32 299) = true.
Proof. vm_cast_no_check (eq_refl true). Qed.
Lemma search6 : search 1 2 (2 ^ 31) (powers32 202) = true.
Proof. vm_cast_no_check (eq_refl true). Qed.
Lemma search7 : search 0 3 (2 ^ 31) (powers32 122) = true.
Proof. vm_cast_no_check (eq_refl true). Qed.

Lemma exact_weight : forall p q N m1 m2 init s n c1 c2, search p q (2 ^ 31) (powers32 N) = true ->
  message m1 -> message m2 -> length m1 = length m2 -> 0 <= init < 2 ^ 32 ->
  differ_within s n (message_bits m1) (message_bits m2) -> Z.of_nat n <= N + 1 ->
  distance (message_bits m1) (message_bits m2) = S (p + (q + q)) ->
  crc32 m1 (zlen m1) init = Done c1 -> crc32 m2 (zlen m2) init = Done c2 -> c1 <> c2.
Proof.
  intros p q N m1 m2 init s n c1 c2 HS H1 H2 Hl Hi Hd Hn Hk E1 E2.
  rewrite <- (app_nil_r m1) in E1 at 1. rewrite <- (app_nil_r m2) in E2 at 1.
  rewrite crc32_serial_l in E1, E2 by assumption. injection E1 as <-. injection E2 as <-.
  rewrite powers32_ok, <- top32 in HS. assert (Hb : (n <= S (Z.to_nat N))%nat) by lia. revert HS Hb.
  generalize (Z.to_nat N). intros M HS Hb.
  apply (few_detected 32 CRC32_POLY ltac:(lia) p32 eq_refl p q M _ _ init s n); auto.
  rewrite !message_bits_length. lia.
Qed.

Lemma differ_at_two : forall xs ys, length xs = length ys -> distance xs ys = 2%nat ->
  exists i j, (i < j)%nat /\ differ_at i j xs ys.
Proof.
  assert (Z0 : forall xs ys, length xs = length ys -> distance xs ys = 0%nat -> xs = ys).
  { induction xs as [|x xs IH]; intros [|y ys] Hl H; cbn in *; try lia; auto.
    destruct x, y; cbn in H; try lia; f_equal; apply IH; lia. }
  assert (O1 : forall xs ys, length xs = length ys -> distance xs ys = 1%nat ->
    exists j, (j < length xs)%nat /\ forall k, nth_error xs k <> nth_error ys k <-> k = j).
  { induction xs as [|x xs IH]; intros [|y ys] Hl H; cbn in Hl, H; try lia.
    destruct (eqb x y) eqn:E.
    - apply eqb_prop in E. subst y. destruct (IH ys ltac:(lia) ltac:(lia)) as (j & Hj & Hd).
      exists (S j). cbn. split; [lia|]. intros [|k]; cbn; [split; [intros A; now contradict A|lia]|].
      rewrite Hd. lia.
    - assert (xs = ys) by (apply Z0; lia). subst ys. exists O. cbn. split; [lia|].
      intros [|k]; cbn; [|split; [intros A; now contradict A|lia]].
      split; auto. intros _ A. injection A as ->. now rewrite eqb_reflx in E. }
  induction xs as [|x xs IH]; intros [|y ys] Hl H; cbn in Hl, H; try lia.
  destruct (eqb x y) eqn:E.
  - apply eqb_prop in E. subst y. destruct (IH ys ltac:(lia) ltac:(lia)) as (i & j & Hij & A & B & C & Hd).
    exists (S i), (S j). split; [lia|]. unfold differ_at. cbn. repeat split; try lia.
    + destruct k as [|k]; cbn; [intros X; now contradict X|]. rewrite Hd. lia.
    + destruct k as [|k]; cbn; [lia|]. intros X. apply Hd. lia.
  - destruct (O1 xs ys ltac:(lia) ltac:(lia)) as (j & Hj & Hd).
    exists O, (S j). split; [lia|]. unfold differ_at. cbn. repeat split; try lia.
    + destruct k as [|k]; cbn; [lia|]. rewrite Hd. lia.
    + destruct k as [|k]; cbn; [|rewrite Hd; lia]. intros _ A. injection A as ->. now rewrite eqb_reflx in E.
Qed.

Lemma differ_within_span : forall s n xs ys i j, differ_within s n xs ys -> differ_at i j xs ys ->
  (i < j)%nat -> (j - i < n)%nat.
Proof.
  intros s n xs ys i j Hw (_ & _ & _ & Hd) Hij.
  pose proof (Hw i (proj2 (Hd i) (or_introl eq_refl))). pose proof (Hw j (proj2 (Hd j) (or_intror eq_refl))). lia.
Qed.

Lemma differ_one : forall xs ys, length xs = length ys -> distance xs ys = 1%nat ->
  exists s, differ_within s 1 xs ys.
Proof.
  assert (Z0 : forall xs ys, length xs = length ys -> distance xs ys = 0%nat -> xs = ys).
  { induction xs as [|x xs IH]; intros [|y ys] Hl H; cbn in *; try lia; auto.
    destruct x, y; cbn in H; try lia; f_equal; apply IH; lia. }
  induction xs as [|x xs IH]; intros [|y ys] Hl H; cbn in Hl, H; try lia.
  destruct (eqb x y) eqn:E.
  - apply eqb_prop in E. subst y. destruct (IH ys ltac:(lia) ltac:(lia)) as (s & Hd).
    exists (S s). intros [|k] Hk; cbn in Hk; [now contradict Hk|]. apply Hd in Hk. lia.
  - assert (xs = ys) by (apply Z0; lia). subst ys. exists O. intros [|k] Hk; cbn in Hk; [lia|now contradict Hk].
Qed.

Lemma differ_within_weaken : forall s n n' xs ys, differ_within s n xs ys -> (n <= n')%nat -> differ_within s n' xs ys.
Proof. intros s n n' xs ys H Hn i Hi. apply H in Hi. lia. Qed.

Lemma distance_refl : forall xs, distance xs xs = 0%nat.
Proof. induction xs as [|x xs IH]; cbn; auto. rewrite IH. now destruct x. Qed.

Lemma crc32_few_l : forall m1 m2 init s n k N c1 c2,
  message m1 -> message m2 -> length m1 = length m2 -> 0 <= init < 2 ^ 32 ->
  differ_within s n (message_bits m1) (message_bits m2) ->
  In (k, N) [(3%nat, 91639); (4%nat, 3006); (5%nat, 300); (6%nat, 203); (7%nat, 123)] ->
  Z.of_nat n <= N -> (1 <= distance (message_bits m1) (message_bits m2) <= k)%nat ->
  crc32 m1 (zlen m1) init = Done c1 -> crc32 m2 (zlen m2) init = Done c2 -> c1 <> c2.
Proof.
  intros m1 m2 init s n k N c1 c2 H1 H2 Hl Hi Hd Hin HN Hk E1 E2.
  assert (HL : length (message_bits m1) = length (message_bits m2)) by (rewrite !message_bits_length; lia).
  assert (HX : forall p q M, search p q (2 ^ 31) (powers32 M) = true ->
    Z.of_nat n <= M + 1 -> distance (message_bits m1) (message_bits m2) = S (p + (q + q)) -> c1 <> c2).
  { intros p q M HS HM HD. exact (exact_weight p q M m1 m2 init s n c1 c2 HS H1 H2 Hl Hi Hd HM HD E1 E2). }
  destruct (Nat.eq_dec (distance (message_bits m1) (message_bits m2)) 1) as [D1|D1].
  { destruct (differ_one _ _ HL D1) as (s' & Hs).
    apply (crc32_burst_l m1 m2 init s' c1 c2); try assumption.
    - intros ->. rewrite distance_refl in D1. discriminate.
    - apply (differ_within_weaken _ 1); [assumption|lia]. }
  destruct (Nat.eq_dec (distance (message_bits m1) (message_bits m2)) 2) as [D2|D2].
  { destruct (differ_at_two _ _ HL D2) as (i & j & Hij & Hat).
    pose proof (differ_within_span _ _ _ _ _ _ Hd Hat Hij).
    apply (crc32_double_l m1 m2 init i j); auto.
    cbn [In] in Hin. repeat destruct Hin as [Hin|Hin]; try contradiction; injection Hin as <- <-; lia. }
  assert (HB : Z.of_nat n <= 91639) by
    (cbn [In] in Hin; repeat destruct Hin as [Hin|Hin]; try contradiction; injection Hin as <- <-; lia).
  destruct (Nat.eq_dec (distance (message_bits m1) (message_bits m2)) 3) as [D3|D3].
  { apply (HX 0%nat 1%nat 91638 search3); [lia|exact D3]. }
  cbn [In] in Hin. destruct Hin as [Hin|Hin]; [injection Hin as <- <-; lia|].
  assert (HB4 : Z.of_nat n <= 3006) by
    (repeat destruct Hin as [Hin|Hin]; try contradiction; injection Hin as <- <-; lia).
  destruct (Nat.eq_dec (distance (message_bits m1) (message_bits m2)) 4) as [D4|D4].
  { apply (HX 1%nat 1%nat 3005 search4); [lia|exact D4]. }
  destruct Hin as [Hin|Hin]; [injection Hin as <- <-; lia|].
  assert (HB5 : Z.of_nat n <= 300) by
    (repeat destruct Hin as [Hin|Hin]; try contradiction; injection Hin as <- <-; lia).
  destruct (Nat.eq_dec (distance (message_bits m1) (message_bits m2)) 5) as [D5|D5].
  { apply (HX 0%nat 2%nat 299 search5); [lia|exact D5]. }
  destruct Hin as [Hin|Hin]; [injection Hin as <- <-; lia|].
  assert (HB6 : Z.of_nat n <= 203) by
    (repeat destruct Hin as [Hin|Hin]; try contradiction; injection Hin as <- <-; lia).
  destruct (Nat.eq_dec (distance (message_bits m1) (message_bits m2)) 6) as [D6|D6].
  { apply (HX 1%nat 2%nat 202 search6); [lia|exact D6]. }
  destruct Hin as [Hin|Hin]; [injection Hin as <- <-; lia|].
  destruct Hin as [Hin|[]]. injection Hin as <- <-.
  apply (HX 0%nat 3%nat 122 search7); [lia|]. cbn [Nat.add]. lia.
Qed.

(** CRC-16: any three bits, the two bits closer than the period. *)
Lemma crc16_few_l : forall m1 m2 init s n c1 c2,
  message m1 -> message m2 -> length m1 = length m2 -> 0 <= init < 2 ^ 16 ->
  differ_within s n (message_bits m1) (message_bits m2) -> Z.of_nat n <= 32767 ->
  (1 <= distance (message_bits m1) (message_bits m2) <= 3)%nat ->
  crc16_ccitt m1 (zlen m1) init = Done c1 -> crc16_ccitt m2 (zlen m2) init = Done c2 -> c1 <> c2.
Proof.
  intros m1 m2 init s n c1 c2 H1 H2 Hl Hi Hd HN Hk E1 E2.
  assert (HL : length (message_bits m1) = length (message_bits m2)) by (rewrite !message_bits_length; lia).
  destruct (Nat.eq_dec (distance (message_bits m1) (message_bits m2)) 2) as [D2|D2].
  - destruct (differ_at_two _ _ HL D2) as (i & j & Hij & Hat).
    pose proof (differ_within_span _ _ _ _ _ _ Hd Hat Hij).
    apply (crc16_double_l m1 m2 init i j); auto. lia.
  - apply (crc16_odd_l m1 m2 init); auto.
    assert (D : distance (message_bits m1) (message_bits m2) = 1%nat \/
                distance (message_bits m1) (message_bits m2) = 3%nat) by lia.
    destruct D as [-> | ->]; reflexivity.
Qed.

(** *** Errors that go unnoticed *)

Definition zeros (n : Z) : list Z := repeat 0 (Z.to_nat n).

Lemma same_bits : forall n xs ys, skipn n xs = skipn n ys -> differ_within 0 n xs ys.
Proof.
  intros n xs ys H i Hi. destruct (Nat.lt_ge_cases i n) as [|Hge]; [lia|]. exfalso. apply Hi.
  replace i with (n + (i - n))%nat by lia. rewrite <- !nth_error_skipn. now rewrite H.
Qed.

Lemma unnoticed32 : forall m1 m2, message m1 -> message m2 -> length m1 = length m2 ->
  serial_crc 32 CRC32_POLY 0 (diff (message_bits m1) (message_bits m2)) = 0 ->
  forall init, 0 <= init < 2 ^ 32 -> crc32 m1 (zlen m1) init = crc32 m2 (zlen m2) init.
Proof.
  intros m1 m2 H1 H2 Hl H init Hi.
  rewrite <- (app_nil_r m1) at 1. rewrite <- (app_nil_r m2) at 1.
  rewrite !crc32_serial_l by assumption. f_equal. apply Z.lxor_eq_0_iff.
  rewrite <- (serial_lin 32 CRC32_POLY ltac:(lia)) by (rewrite !message_bits_length; lia).
  rewrite Z.lxor_nilpotent. exact H.
Qed.

Lemma unnoticed16 : forall m1 m2, message m1 -> message m2 -> length m1 = length m2 ->
  serial_crc 16 CRC16_POLY 0 (diff (message_bits m1) (message_bits m2)) = 0 ->
  forall init, 0 <= init < 2 ^ 16 -> crc16_ccitt m1 (zlen m1) init = crc16_ccitt m2 (zlen m2) init.
Proof.
  intros m1 m2 H1 H2 Hl H init Hi.
  rewrite <- (app_nil_r m1) at 1. rewrite <- (app_nil_r m2) at 1.
  rewrite !crc16_serial_l by assumption. f_equal. apply Z.lxor_eq_0_iff.
  rewrite <- (serial_lin 16 CRC16_POLY ltac:(lia)) by (rewrite !message_bits_length; lia).
  rewrite Z.lxor_nilpotent. exact H.
Qed.

Definition is_byteb (b : Z) : bool := (0 <=? b) && (b <? 256).
Lemma messageb : forall m, forallb is_byteb m = true -> message m.
Proof.
  intros m H. apply Forall_forall. intros b Hb. rewrite forallb_forall in H. apply H in Hb.
  unfold is_byteb in Hb. apply andb_prop in Hb as [A B]. apply Z.leb_le in A. apply Z.ltb_lt in B. split; assumption.
Qed.

(** Everything to be computed about a pair of messages. *)
Definition bits_eqb (xs ys : list bool) : bool :=
  Nat.eqb (length xs) (length ys) && forallb (fun p => eqb (fst p) (snd p)) (combine xs ys).
Lemma bits_eqb_ok : forall xs ys, bits_eqb xs ys = true -> xs = ys.
Proof.
  unfold bits_eqb. induction xs as [|x xs IH]; intros [|y ys] H; cbn in H; try discriminate; auto.
  apply andb_prop in H as [L H]. apply andb_prop in H as [E H]. apply eqb_prop in E. subst y. f_equal.
  apply IH. now rewrite L, H.
Qed.

Definition unnoticed (syndrome : list bool -> Z) (k n : nat) (m1 m2 : list Z) : bool :=
  forallb is_byteb m1 && forallb is_byteb m2 && Nat.eqb (length m1) (length m2) &&
  Nat.eqb (distance (message_bits m1) (message_bits m2)) k &&
  bits_eqb (skipn n (message_bits m1)) (skipn n (message_bits m2)) &&
  (syndrome (diff (message_bits m1) (message_bits m2)) =? 0).

Lemma unnoticed_ok : forall syn k n m1 m2, unnoticed syn k n m1 m2 = true ->
  message m1 /\ message m2 /\ length m1 = length m2 /\ distance (message_bits m1) (message_bits m2) = k /\
  differ_within 0 n (message_bits m1) (message_bits m2) /\
  syn (diff (message_bits m1) (message_bits m2)) = 0.
Proof.
  intros syn k n m1 m2 H. unfold unnoticed in H.
  repeat match goal with H : _ && _ = true |- _ => apply andb_prop in H as [? ?] end.
  split; [now apply messageb|]. split; [now apply messageb|].
  split; [now apply Nat.eqb_eq|]. split; [now apply Nat.eqb_eq|].
  split; [apply same_bits; now apply bits_eqb_ok | now apply Z.eqb_eq].
Qed.

Definition syn32 (bits : list bool) : Z := fserial bits 0.

Lemma pair3 : unnoticed syn32 3 (Z.to_nat 91640) (zeros 11455) ([128] ++ zeros 6244 ++ [64] ++ zeros 5208 ++ [1]) = true.
Proof. vm_cast_no_check (eq_refl true). Qed.
Lemma pair4 : unnoticed syn32 4 (Z.to_nat 3007) (zeros 376) ([128] ++ zeros 16 ++ [8] ++ zeros 80 ++ [1] ++ zeros 276 ++ [2]) = true.
Proof. vm_cast_no_check (eq_refl true). Qed.
Lemma pair5 : unnoticed syn32 5 (Z.to_nat 301) (zeros 38) ([128] ++ zeros 17 ++ [64] ++ zeros 3 ++ [1] ++ zeros 3 ++ [16] ++ zeros 10 ++ [8]) = true.
Proof. vm_cast_no_check (eq_refl true). Qed.
Lemma pair6 : unnoticed syn32 6 (Z.to_nat 204) (zeros 26) ([128] ++ zeros 1 ++ [64] ++ zeros 7 ++ [128] ++ zeros 3 ++ [2] ++ [8] ++ zeros 9 ++ [16]) = true.
Proof. vm_cast_no_check (eq_refl true). Qed.
Lemma pair7 : unnoticed syn32 7 (Z.to_nat 124) (zeros 16) ([144] ++ zeros 4 ++ [16] ++ [64] ++ zeros 1 ++ [2] ++ [2] ++ zeros 5 ++ [16]) = true.
Proof. vm_cast_no_check (eq_refl true). Qed.
Lemma pair16 : unnoticed (serial_crc 16 CRC16_POLY 0) 4 (Z.to_nat 17) (zeros 3) ([136] ++ [16] ++ [128]) = true.
Proof. vm_cast_no_check (eq_refl true). Qed.

Lemma crc32_few_sharp_l : forall k N,
  In (k, N) [(3%nat, 91639); (4%nat, 3006); (5%nat, 300); (6%nat, 203); (7%nat, 123)] ->
  exists m1 m2, message m1 /\ message m2 /\ length m1 = length m2 /\
    distance (message_bits m1) (message_bits m2) = k /\
    differ_within 0 (Z.to_nat (N + 1)) (message_bits m1) (message_bits m2) /\
    forall init, 0 <= init < 2 ^ 32 -> crc32 m1 (zlen m1) init = crc32 m2 (zlen m2) init.
Proof.
  assert (HU : forall k n m1 m2, unnoticed syn32 k n m1 m2 = true ->
    exists m1 m2, message m1 /\ message m2 /\ length m1 = length m2 /\
      distance (message_bits m1) (message_bits m2) = k /\
      differ_within 0 n (message_bits m1) (message_bits m2) /\
      forall init, 0 <= init < 2 ^ 32 -> crc32 m1 (zlen m1) init = crc32 m2 (zlen m2) init).
  { intros k n m1 m2 H. destruct (unnoticed_ok _ _ _ _ _ H) as (A & B & C & D & E & F).
    exists m1, m2. repeat (split; [assumption|]). intros init Hi. apply unnoticed32; auto.
    rewrite <- fserial_ok; [exact F|split; [lia|reflexivity]]. }
  intros k N Hin. cbn [In] in Hin.
  destruct Hin as [Hin|[Hin|[Hin|[Hin|[Hin|[]]]]]]; injection Hin as <- <-.
  - exact (HU _ _ _ _ pair3).
  - exact (HU _ _ _ _ pair4).
  - exact (HU _ _ _ _ pair5).
  - exact (HU _ _ _ _ pair6).
  - exact (HU _ _ _ _ pair7).
Qed.

Lemma crc16_few_sharp_l :
  exists m1 m2, message m1 /\ message m2 /\ length m1 = length m2 /\
    distance (message_bits m1) (message_bits m2) = 4%nat /\
    differ_within 0 17 (message_bits m1) (message_bits m2) /\
    forall init, 0 <= init < 2 ^ 16 -> crc16_ccitt m1 (zlen m1) init = crc16_ccitt m2 (zlen m2) init.
Proof.
  destruct (unnoticed_ok _ _ _ _ _ pair16) as (A & B & C & D & E & F).
  exists (zeros 3), ([136] ++ [16] ++ [128]).
  repeat (split; [assumption|]). intros init Hi. now apply unnoticed16.
Qed.
