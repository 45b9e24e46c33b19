(** Proofs about the CRC models. *)
From Coq Require Import Znumtheory.
From Verif Require Import Base BaseLemmas CrcModel CrcSpec.

(** *** The register as a linear system *)

Section Register.
Variables (w poly : Z).
Hypothesis Hw : 8 <= w.
Hypothesis Hpoly : 0 <= poly < 2 ^ w.

Definition step0 (r : Z) : Z := shift_in w poly r false.
Fixpoint steps (n : nat) (r : Z) : Z :=
  match n with O => r | S n' => steps n' (step0 r) end.

Definition inr (r : Z) : Prop := 0 <= r < 2 ^ w.

Lemma pow_pos : 0 < 2 ^ w.
Proof. apply Z.pow_pos_nonneg; lia. Qed.

Lemma inr_bits : forall r, inr r -> forall m, w <= m -> Z.testbit r m = false.
Proof.
  intros r Hr m Hm. unfold inr in Hr.
  destruct (Z.eq_dec r 0) as [->|]; [apply Z.bits_0|].
  apply Z.bits_above_log2; [lia|]. apply Z.log2_lt_pow2; [lia|].
  apply Z.lt_le_trans with (2 ^ w); [lia|]. apply Z.pow_le_mono_r; lia.
Qed.

Lemma bits_inr : forall r, 0 <= r -> (forall m, w <= m -> Z.testbit r m = false) -> inr r.
Proof.
  intros r H0 Hb. unfold inr. split; [exact H0|].
  destruct (Z.eq_dec r 0) as [->|]; [apply pow_pos|].
  apply Z.log2_lt_pow2; [lia|].
  destruct (Z.lt_ge_cases (Z.log2 r) w) as [|H]; [assumption|].
  specialize (Hb _ H). rewrite Z.bit_log2 in Hb; [discriminate|lia].
Qed.

Lemma inr_lxor : forall a b, inr a -> inr b -> inr (Z.lxor a b).
Proof.
  intros a b Ha Hb. apply bits_inr.
  - apply Z.lxor_nonneg. unfold inr in *; lia.
  - intros m Hm. now rewrite Z.lxor_spec, !inr_bits.
Qed.

Lemma shifted_bits : forall r m, 0 <= m ->
  Z.testbit ((2 * r) mod 2 ^ w) m = (m <? w) && (0 <? m) && Z.testbit r (m - 1).
Proof.
  intros r m Hm. destruct (Z.ltb_spec m w); cbn [andb].
  - rewrite Z.mod_pow2_bits_low by lia.
    destruct (Z.ltb_spec 0 m); cbn [andb].
    + replace m with (Z.succ (m - 1)) at 1 by lia. apply Z.double_bits_succ.
    + replace m with 0 by lia. apply Z.testbit_even_0.
  - apply Z.mod_pow2_bits_high; lia.
Qed.

Lemma shift_in_inr : forall r b, inr (shift_in w poly r b).
Proof.
  intros r b. unfold shift_in. cbv zeta.
  assert (inr ((2 * r) mod 2 ^ w)) by (apply Z.mod_pos_bound; apply pow_pos).
  destruct (xorb _ _); [apply inr_lxor; [assumption|exact Hpoly]|assumption].
Qed.

Lemma shift_in_lin : forall a b x y,
  shift_in w poly (Z.lxor a b) (xorb x y) = Z.lxor (shift_in w poly a x) (shift_in w poly b y).
Proof.
  intros a b x y. unfold shift_in. cbv zeta. rewrite Z.lxor_spec.
  assert (HS : (2 * Z.lxor a b) mod 2 ^ w = Z.lxor ((2 * a) mod 2 ^ w) ((2 * b) mod 2 ^ w)).
  { apply Z.bits_inj'. intros m Hm. rewrite Z.lxor_spec, !shifted_bits, Z.lxor_spec by assumption.
    destruct (m <? w), (0 <? m), (Z.testbit a (m - 1)), (Z.testbit b (m - 1)); reflexivity. }
  rewrite HS.
  destruct (Z.testbit a (w - 1)), (Z.testbit b (w - 1)), x, y; cbn [xorb];
    apply Z.bits_inj'; intros m Hm; rewrite ?Z.lxor_spec;
    destruct (Z.testbit ((2 * a) mod 2 ^ w) m), (Z.testbit ((2 * b) mod 2 ^ w) m), (Z.testbit poly m);
    reflexivity.
Qed.

Lemma step0_lin : forall a b, step0 (Z.lxor a b) = Z.lxor (step0 a) (step0 b).
Proof. intros. apply (shift_in_lin a b false false). Qed.

Lemma step0_inr : forall r, inr (step0 r).
Proof. intros. apply shift_in_inr. Qed.

Lemma step0_0 : step0 0 = 0.
Proof. unfold step0, shift_in. cbv zeta. rewrite Z.bits_0. cbn [xorb]. now rewrite Z.mul_0_r, Z.mod_0_l by (pose proof pow_pos; lia). Qed.

Lemma steps_S : forall n r, steps (S n) r = steps n (step0 r).
Proof. reflexivity. Qed.

Lemma steps_add : forall n m r, steps (n + m) r = steps n (steps m r).
Proof.
  intros n m. rewrite Nat.add_comm. induction m; intros r; [reflexivity|].
  cbn [Nat.add steps]. apply IHm.
Qed.

Lemma steps_lin : forall n a b, steps n (Z.lxor a b) = Z.lxor (steps n a) (steps n b).
Proof. induction n; intros; [reflexivity|]. rewrite !steps_S, step0_lin. apply IHn. Qed.

Lemma steps_inr : forall n r, inr r -> inr (steps n r).
Proof. induction n; intros; auto. rewrite steps_S. apply IHn, step0_inr. Qed.

Lemma steps_0 : forall n, steps n 0 = 0.
Proof. induction n; auto. now rewrite steps_S, step0_0. Qed.

Lemma top_inr : inr (2 ^ (w - 1)).
Proof.
  unfold inr. split; [apply Z.pow_nonneg; lia|]. apply Z.pow_lt_mono_r; lia.
Qed.

Lemma shift_in_true : forall r b, shift_in w poly r b = step0 (Z.lxor r (if b then 2 ^ (w - 1) else 0)).
Proof.
  intros r b. destruct b; [|now rewrite Z.lxor_0_r].
  unfold step0.
  assert (E : shift_in w poly (2 ^ (w - 1)) true = 0).
  { unfold shift_in. cbv zeta. rewrite Z.pow2_bits_true by lia. cbn [xorb].
    replace (2 * 2 ^ (w - 1)) with (2 ^ w).
    - apply Z.mod_same. pose proof pow_pos; lia.
    - replace w with (Z.succ (w - 1)) at 1 by lia. rewrite Z.pow_succ_r; lia. }
  pose proof (shift_in_lin (Z.lxor r (2 ^ (w - 1))) (2 ^ (w - 1)) false true) as H.
  cbn [xorb] in H. rewrite E, Z.lxor_0_r in H. rewrite <- H. f_equal.
  now rewrite Z.lxor_assoc, Z.lxor_nilpotent, Z.lxor_0_r.
Qed.

Lemma serial_lin : forall xs ys a b, length xs = length ys ->
  serial_crc w poly (Z.lxor a b) (map (fun p => xorb (fst p) (snd p)) (combine xs ys)) =
  Z.lxor (serial_crc w poly a xs) (serial_crc w poly b ys).
Proof.
  unfold serial_crc.
  induction xs as [|x xs IH]; intros [|y ys] a b H; cbn in *; try lia; auto.
  rewrite shift_in_lin. apply IH. lia.
Qed.

Lemma serial_false : forall n r, serial_crc w poly r (repeat false n) = steps n r.
Proof.
  unfold serial_crc. induction n; intros; [reflexivity|]. cbn [repeat fold_left].
  rewrite IHn. now rewrite steps_S.
Qed.

Lemma serial_app : forall xs ys r,
  serial_crc w poly r (xs ++ ys) = serial_crc w poly (serial_crc w poly r xs) ys.
Proof. intros. unfold serial_crc. apply fold_left_app. Qed.

Lemma serial_inr : forall xs r, inr r -> inr (serial_crc w poly r xs).
Proof.
  unfold serial_crc. induction xs; cbn; intros; auto. apply IHxs, shift_in_inr.
Qed.

(** Value of a bit string, most significant first. *)
Fixpoint num (bs : list bool) : Z :=
  match bs with
  | [] => 0
  | b :: bs' => (if b then 2 ^ zlen bs' else 0) + num bs'
  end.

Lemma num_range : forall bs, 0 <= num bs < 2 ^ zlen bs.
Proof.
  induction bs; [cbn; lia|]. cbn [num]. unfold zlen in *. cbn [length].
  rewrite Nat2Z.inj_succ, Z.pow_succ_r by lia. destruct a; lia.
Qed.

Lemma num_0 : forall bs, num bs = 0 -> bs = repeat false (length bs).
Proof.
  induction bs; intros H; [reflexivity|]. cbn [num length repeat] in *.
  pose proof (num_range bs). assert (0 < 2 ^ zlen bs) by (apply Z.pow_pos_nonneg; [lia|apply zlen_nonneg]).
  destruct a; [lia|]. f_equal. apply IHbs. lia.
Qed.

Lemma step0_small : forall r, 0 <= r < 2 ^ (w - 1) -> step0 r = 2 * r.
Proof.
  intros r Hr. unfold step0, shift_in. cbv zeta.
  assert (E : 2 ^ w = 2 * 2 ^ (w - 1)).
  { replace w with (Z.succ (w - 1)) at 1 by lia. rewrite Z.pow_succ_r; lia. }
  replace (Z.testbit r (w - 1)) with false.
  - cbn [xorb]. apply Z.mod_small. lia.
  - symmetry. destruct (Z.eq_dec r 0) as [->|]; [apply Z.bits_0|].
    apply Z.bits_above_log2; [lia|]. apply Z.log2_lt_pow2; lia.
Qed.

Lemma steps_small : forall n r, 0 <= r -> r * 2 ^ Z.of_nat n < 2 ^ w ->
  steps n r = r * 2 ^ Z.of_nat n.
Proof.
  induction n; intros r H0 Hr; [cbn; lia|].
  rewrite Nat2Z.inj_succ, Z.pow_succ_r in * by lia.
  assert (E : 2 ^ w = 2 * 2 ^ (w - 1)).
  { replace w with (Z.succ (w - 1)) at 1 by lia. rewrite Z.pow_succ_r; lia. }
  assert (0 < 2 ^ Z.of_nat n) by (apply Z.pow_pos_nonneg; lia).
  rewrite steps_S, step0_small by nia. rewrite IHn by nia. lia.
Qed.

(** Up to [w] bits: xor them into the top of the register first. *)
Lemma serial_load : forall bs r, zlen bs <= w ->
  serial_crc w poly r bs = steps (length bs) (Z.lxor r (num bs * 2 ^ (w - zlen bs))).
Proof.
  unfold serial_crc.
  induction bs as [|b bs IH]; intros r Hl.
  - cbn. now rewrite Z.lxor_0_r.
  - cbn [fold_left]. rewrite shift_in_true.
    assert (Hz : zlen (b :: bs) = zlen bs + 1) by (unfold zlen; cbn [length]; lia).
    assert (Hz0 := zlen_nonneg _ bs).
    rewrite IH by lia. cbn [length num]. rewrite steps_S. f_equal.
    assert (HE : num bs * 2 ^ (w - zlen bs) = step0 (num bs * 2 ^ (w - zlen (b :: bs)))).
    { pose proof (num_range bs).
      assert (0 < 2 ^ (w - zlen (b :: bs))) by (apply Z.pow_pos_nonneg; lia).
      rewrite step0_small.
      - replace (w - zlen bs) with (Z.succ (w - zlen (b :: bs))) by lia.
        rewrite Z.pow_succ_r by lia. lia.
      - split; [nia|]. replace (w - 1) with (zlen bs + (w - zlen (b :: bs))) by lia.
        rewrite Z.pow_add_r by lia. nia. }
    rewrite HE, <- step0_lin. f_equal. rewrite Z.lxor_assoc. f_equal.
    destruct b.
    + rewrite Z.mul_add_distr_r. rewrite <- Z.pow_add_r by lia.
      replace (zlen bs + (w - zlen (true :: bs))) with (w - 1) by lia.
      rewrite <- Z.add_nocarry_lxor; [lia|].
      apply Z.bits_inj'. intros m Hm. rewrite Z.land_spec, Z.bits_0.
      destruct (Z.eq_dec m (w - 1)) as [->|].
      * assert (E : Z.testbit (num bs * 2 ^ (w - zlen (true :: bs))) (w - 1) = false).
        { rewrite Z.mul_pow2_bits by lia.
          pose proof (num_range bs).
          destruct (Z.eq_dec (num bs) 0) as [->|]; [apply Z.bits_0|].
          apply Z.bits_above_log2; [lia|]. apply Z.log2_lt_pow2; [lia|].
          replace (w - 1 - (w - zlen (true :: bs))) with (zlen bs) by lia. lia. }
        rewrite E. apply andb_false_r.
      * rewrite Z.pow2_bits_false by lia. reflexivity.
    + now rewrite Z.lxor_0_l, Z.add_0_l.
Qed.

(** *** Injectivity *)

Hypothesis Hodd : Z.testbit poly 0 = true.

Lemma step0_ker : forall r, inr r -> step0 r = 0 -> r = 0.
Proof.
  intros r Hr H. unfold step0, shift_in in H. cbv zeta in H. rewrite xorb_false_r in H.
  destruct (Z.testbit r (w - 1)) eqn:Et.
  - exfalso. assert (HB : Z.testbit (Z.lxor ((2 * r) mod 2 ^ w) poly) 0 = true).
    { rewrite Z.lxor_spec, shifted_bits, Hodd by lia.
      destruct (Z.ltb_spec 0 0); [lia|]. now rewrite andb_false_r. }
    rewrite H in HB. now rewrite Z.bits_0 in HB.
  - apply Z.bits_inj'. intros m Hm. rewrite Z.bits_0.
    destruct (Z.lt_ge_cases m (w - 1)).
    + assert (HB : Z.testbit ((2 * r) mod 2 ^ w) (m + 1) = Z.testbit r m).
      { rewrite shifted_bits by lia. replace (m + 1 - 1) with m by lia.
        destruct (Z.ltb_spec (m + 1) w); [|lia]. destruct (Z.ltb_spec 0 (m + 1)); [|lia]. reflexivity. }
      rewrite H, Z.bits_0 in HB. auto.
    + destruct (Z.eq_dec m (w - 1)) as [->|]; [exact Et|]. apply inr_bits; [assumption|lia].
Qed.

Lemma steps_ker : forall n r, inr r -> steps n r = 0 -> r = 0.
Proof.
  induction n; intros r Hr H; [exact H|].
  rewrite steps_S in H. apply step0_ker; auto. apply IHn; auto. apply step0_inr.
Qed.

Lemma lxor_0_eq : forall a b, Z.lxor a b = 0 -> a = b.
Proof. intros. now apply Z.lxor_eq_0_iff. Qed.

Lemma steps_inj : forall n a b, inr a -> inr b -> steps n a = steps n b -> a = b.
Proof.
  intros n a b Ha Hb H. apply lxor_0_eq. apply (steps_ker n).
  - now apply inr_lxor.
  - rewrite steps_lin, H. apply Z.lxor_nilpotent.
Qed.

(** *** Differences *)

Definition diff (xs ys : list bool) : list bool :=
  map (fun p => xorb (fst p) (snd p)) (combine xs ys).

Lemma serial_diff : forall xs ys r, length xs = length ys ->
  serial_crc w poly r xs = serial_crc w poly r ys -> serial_crc w poly 0 (diff xs ys) = 0.
Proof.
  intros xs ys r Hl H. rewrite <- (Z.lxor_nilpotent r) at 1. unfold diff. rewrite serial_lin by assumption.
  rewrite H. apply Z.lxor_nilpotent.
Qed.

Lemma diff_length : forall xs ys, length xs = length ys -> length (diff xs ys) = length xs.
Proof. intros. unfold diff. rewrite map_length, combine_length. lia. Qed.

Lemma diff_nth : forall xs ys i, length xs = length ys -> (i < length xs)%nat ->
  nth_error (diff xs ys) i = Some false <-> nth_error xs i = nth_error ys i.
Proof.
  unfold diff.
  induction xs as [|x xs IH]; intros [|y ys] i Hl Hi; cbn in *; try lia.
  destruct i; cbn.
  - destruct x, y; cbn; split; congruence.
  - apply IH; lia.
Qed.

Lemma all_false : forall (l : list bool),
  (forall i, (i < length l)%nat -> nth_error l i = Some false) -> l = repeat false (length l).
Proof.
  induction l; intros H; [reflexivity|]. cbn [length repeat].
  pose proof (H O ltac:(cbn; lia)) as H0; cbn in H0; injection H0 as ->.
  f_equal. apply IHl. intros i Hi. apply (H (S i)). cbn; lia.
Qed.

Lemma diff_all_false : forall xs ys, length xs = length ys ->
  diff xs ys = repeat false (length xs) -> xs = ys.
Proof.
  unfold diff.
  induction xs as [|x xs IH]; intros [|y ys] Hl H; cbn in *; try lia; auto.
  injection H as H1 H2. f_equal; [destruct x, y; cbn in *; congruence|]. apply IH; auto.
Qed.

Lemma serial_zero_start : forall n bs,
  serial_crc w poly 0 (repeat false n ++ bs) = serial_crc w poly 0 bs.
Proof. intros. now rewrite serial_app, serial_false, steps_0. Qed.

Lemma burst_detected : forall xs ys r s, length xs = length ys ->
  differ_within s (Z.to_nat w) xs ys ->
  serial_crc w poly r xs = serial_crc w poly r ys -> xs = ys.
Proof.
  intros xs ys r s Hl Hd H.
  apply serial_diff in H; [|assumption].
  set (D := diff xs ys) in *.
  assert (HDl : length D = length xs) by now apply diff_length.
  assert (Hout : forall i, (i < length D)%nat -> (i < s \/ s + Z.to_nat w <= i)%nat -> nth_error D i = Some false).
  { intros i Hi Ho. apply diff_nth; auto; [lia|].
    destruct (nth_error D i) as [[|]|] eqn:E.
    - exfalso. assert (nth_error xs i <> nth_error ys i).
      { intro He. apply diff_nth in He; auto; [|lia]. unfold D in E. congruence. }
      apply Hd in H0. lia.
    - now apply diff_nth in E; [|auto|lia].
    - apply nth_error_None in E. lia. }
  set (A := firstn s D). set (B := firstn (Z.to_nat w) (skipn s D)). set (C := skipn (Z.to_nat w) (skipn s D)).
  assert (EA : A = repeat false (length A)).
  { apply all_false. intros i Hi. unfold A in *. rewrite firstn_length in Hi.
    rewrite nth_error_firstn. destruct (Nat.ltb_spec i s); [|lia]. apply Hout; lia. }
  assert (EC : C = repeat false (length C)).
  { apply all_false. intros i Hi. unfold C in *. rewrite !skipn_length in Hi.
    rewrite !nth_error_skipn. apply Hout; lia. }
  assert (ED : D = A ++ B ++ C) by (unfold A, B, C; now rewrite !firstn_skipn).
  assert (HB : zlen B <= w).
  { unfold B, zlen. rewrite firstn_length. lia. }
  rewrite ED, EA, serial_zero_start, serial_app, EC, serial_false in H.
  apply steps_ker in H; [|apply serial_inr; pose proof pow_pos; unfold inr; lia].
  rewrite serial_load in H by assumption. rewrite Z.lxor_0_l in H.
  pose proof (num_range B). assert (Hz := zlen_nonneg _ B).
  assert (Hp : 0 < 2 ^ (w - zlen B)) by (apply Z.pow_pos_nonneg; lia).
  assert (H2 : 2 ^ w = 2 ^ zlen B * 2 ^ (w - zlen B)) by (rewrite <- Z.pow_add_r by lia; f_equal; lia).
  apply steps_ker in H; [|unfold inr; nia].
  assert (HN : num B = 0) by nia. apply num_0 in HN.
  apply diff_all_false; auto. fold D. rewrite ED, EA, HN, EC.
  rewrite <- !repeat_app. f_equal. rewrite <- HDl, ED, !app_length. reflexivity.
Qed.

(** *** Two-bit errors *)

Definition top : Z := 2 ^ (w - 1).

Lemma differ_at_diff : forall i j xs ys, (i < j)%nat -> differ_at i j xs ys ->
  exists a c, diff xs ys = repeat false a ++ [true] ++ repeat false (j - i - 1) ++ [true] ++ repeat false c.
Proof.
  intros i j xs ys Hij (Hl & Hi & Hj & Hd).
  set (D := diff xs ys). assert (HDl : length D = length xs) by now apply diff_length.
  assert (HF : forall k, (k < length D)%nat -> nth_error D k = Some (if (Nat.eqb k i || Nat.eqb k j)%bool then true else false)).
  { intros k Hk. destruct (nth_error D k) as [[|]|] eqn:E.
    - destruct (Nat.eqb_spec k i), (Nat.eqb_spec k j); cbn [orb]; auto.
      exfalso. assert (He : nth_error xs k = nth_error ys k).
      { destruct (option_map (fun _ => tt) (nth_error xs k)); 
        (assert (~ (nth_error xs k <> nth_error ys k)) by (rewrite Hd; lia));
        destruct (nth_error xs k) as [[|]|], (nth_error ys k) as [[|]|]; try reflexivity; exfalso; apply H; congruence. }
      apply diff_nth in He; auto; [|lia]. fold D in He. congruence.
    - apply diff_nth in E; auto; [|lia].
      destruct (Nat.eqb_spec k i), (Nat.eqb_spec k j); cbn [orb]; auto; exfalso;
        apply (proj2 (Hd k)); auto.
    - apply nth_error_None in E. lia. }
  exists i, (length D - j - 1)%nat.
  apply nth_error_ext. intros k.
  rewrite !nth_error_app, !repeat_length. cbn [length].
  destruct (Nat.ltb_spec k (length D)) as [Hk|Hk].
  - rewrite HF by assumption.
    destruct (Nat.ltb_spec k i).
    { rewrite nth_error_repeat by lia.
      destruct (Nat.eqb_spec k i); [lia|]. destruct (Nat.eqb_spec k j); [lia|]. reflexivity. }
    destruct (Nat.ltb_spec (k - i) 1).
    { replace (k - i)%nat with O by lia. cbn. destruct (Nat.eqb_spec k i); [reflexivity|lia]. }
    destruct (Nat.ltb_spec (k - i - 1) (j - i - 1)).
    { rewrite nth_error_repeat by lia.
      destruct (Nat.eqb_spec k i); [lia|]. destruct (Nat.eqb_spec k j); [lia|]. reflexivity. }
    destruct (Nat.ltb_spec (k - i - 1 - (j - i - 1)) 1).
    { replace (k - i - 1 - (j - i - 1))%nat with O by lia. cbn.
      destruct (Nat.eqb_spec k j); [now rewrite orb_true_r|lia]. }
    rewrite nth_error_repeat by lia.
    destruct (Nat.eqb_spec k i); [lia|]. destruct (Nat.eqb_spec k j); [lia|]. reflexivity.
  - rewrite (proj2 (nth_error_None D k)) by lia.
    destruct (Nat.ltb_spec k i); [lia|].
    destruct (Nat.ltb_spec (k - i) 1); [lia|].
    destruct (Nat.ltb_spec (k - i - 1) (j - i - 1)); [lia|].
    destruct (Nat.ltb_spec (k - i - 1 - (j - i - 1)) 1); [lia|].
    symmetry. apply nth_error_None. rewrite repeat_length. lia.
Qed.

Lemma two_bits : forall d a c, (0 < d)%nat ->
  serial_crc w poly 0 (repeat false a ++ [true] ++ repeat false (d - 1) ++ [true] ++ repeat false c) = 0
  <-> steps d top = top.
Proof.
  intros d a c Hd. rewrite serial_zero_start, !serial_app, !serial_false.
  assert (E1 : forall r, serial_crc w poly r [true] = step0 (Z.lxor r top))
    by (intros r; exact (shift_in_true r true)).
  rewrite !E1, Z.lxor_0_l.
  assert (E : steps (d - 1) (step0 top) = steps d top).
  { rewrite <- steps_S. f_equal. lia. }
  rewrite E. pose proof top_inr as Ht. fold top in Ht.
  split; intros H.
  - apply steps_ker in H; [|apply step0_inr].
    apply step0_ker in H; [|apply inr_lxor; [apply steps_inr|]; assumption].
    now apply lxor_0_eq.
  - rewrite H, Z.lxor_nilpotent, step0_0. apply steps_0.
Qed.

(** Multiplicative order: no proper divisor of [N] returns to [top]. *)

Lemma steps_mul : forall m r, steps m r = r -> forall k, steps (k * m) r = r.
Proof.
  intros m r H. induction k; [reflexivity|]. cbn [Nat.mul]. now rewrite steps_add, IHk.
Qed.

Lemma least : forall (P : nat -> Prop), (forall n, P n \/ ~ P n) -> forall n, P n ->
  exists m, P m /\ (m <= n)%nat /\ forall k, (k < m)%nat -> ~ P k.
Proof.
  intros P Hdec n. induction n as [n IH] using lt_wf_ind. intros Hn.
  assert (HQ : (exists k, (k < n)%nat /\ P k) \/ forall k, (k < n)%nat -> ~ P k).
  { clear IH Hn. induction n as [|n [(k & Hk & Pk)|Hno]].
    - right. intros; lia.
    - left. exists k. auto.
    - destruct (Hdec n) as [Hp|Hp]; [left; exists n; auto|].
      right. intros k Hk. destruct (Nat.eq_dec k n); [now subst|apply Hno; lia]. }
  destruct HQ as [(k & Hk & Pk)|Hno].
  - destruct (IH k Hk Pk) as (m & Pm & Hm & Hmin). exists m. repeat split; auto. lia.
  - exists n. auto.
Qed.

Lemma order : forall (N : Z) (primes : list Z),
  1 < N -> steps (Z.to_nat N) top = top ->
  Forall prime primes -> fold_right Z.mul 1 primes = N ->
  (forall p, In p primes -> steps (Z.to_nat (N / p)) top <> top) ->
  forall d, (0 < d)%nat -> Z.of_nat d < N -> steps d top <> top.
Proof.
  intros N primes HN Hret Hpr Hprod Hno d Hd Hlt Hs.
  pose proof top_inr as Ht. fold top in Ht.
  destruct (least (fun n => (0 < n)%nat /\ steps n top = top)) with (n := d) as (m & (Hm0 & Hm) & Hmd & Hmin).
  { intros n. destruct (Nat.eq_dec n 0); [right; lia|].
    destruct (Z.eq_dec (steps n top) top); [left; split; auto; lia|right; tauto]. }
  { auto. }
  (* m divides N *)
  assert (Hdiv : (Z.of_nat m | N)).
  { apply Z.mod_divide; [lia|].
    destruct (Z.eq_dec (N mod Z.of_nat m) 0) as [|Hr]; [assumption|]. exfalso.
    pose proof (Z.mod_pos_bound N (Z.of_nat m)). pose proof (Z.div_mod N (Z.of_nat m)).
    assert (HE : Z.to_nat N = (Z.to_nat (N mod Z.of_nat m) + Z.to_nat (N / Z.of_nat m) * m)%nat).
    { assert (0 <= N / Z.of_nat m) by (apply Z.div_pos; lia).
      apply Nat2Z.inj. rewrite Nat2Z.inj_add, Nat2Z.inj_mul, !Z2Nat.id by lia. lia. }
    rewrite HE, steps_add, (steps_mul m top Hm) in Hret.
    apply (Hmin (Z.to_nat (N mod Z.of_nat m))); [lia|]. split; [lia|assumption]. }
  destruct Hdiv as (q & Hq).
  assert (Hq1 : 1 < q) by nia.
  (* some prime of the list divides q *)
  assert (Hex : exists p, In p primes /\ (p | q)).
  { assert (HA : (exists p, In p primes /\ (p | q)) \/ rel_prime q (fold_right Z.mul 1 primes)).
    { clear Hprod Hno. induction Hpr as [|p ps Hp Hps IH].
      - right. apply rel_prime_sym, rel_prime_1.
      - destruct IH as [(p' & Hin & Hdv)|Hrp].
        + left. exists p'. split; [now right|assumption].
        + destruct (Zdivide_dec p q) as [Hdv|Hnd].
          * left. exists p. split; [now left|assumption].
          * right. cbn [fold_right]. apply rel_prime_mult; [|assumption].
            apply rel_prime_sym. now apply prime_rel_prime. }
    destruct HA as [|Hrp]; [assumption|]. exfalso. rewrite Hprod in Hrp.
    destruct Hrp as [_ _ Hg]. specialize (Hg q).
    assert (q | 1) by (apply Hg; [apply Z.divide_refl|exists (Z.of_nat m); lia]).
    apply Z.divide_1_r in H. lia. }
  destruct Hex as (p & Hin & (k & Hk)).
  assert (Hpp : 1 < p) by (rewrite Forall_forall in Hpr; specialize (Hpr p Hin); apply prime_ge_2 in Hpr; lia).
  apply (Hno p Hin).
  assert (HE : N / p = k * Z.of_nat m).
  { rewrite Hq, Hk. replace (k * p * Z.of_nat m) with (k * Z.of_nat m * p) by lia. apply Z.div_mul. lia. }
  rewrite HE. assert (0 <= k) by nia.
  replace (Z.to_nat (k * Z.of_nat m)) with (Z.to_nat k * m)%nat by nia.
  now apply steps_mul.
Qed.

(** Fast iteration: a linear map as the list of images of the powers of two. *)
Definition mat_apply (M : list Z) (x : Z) : Z :=
  fst (fold_left (fun acc c => (if Z.odd (snd acc) then Z.lxor (fst acc) c else fst acc, Z.div2 (snd acc))) M (0, x)).

Definition mat_ok (n : nat) (M : list Z) : Prop :=
  length M = Z.to_nat w /\ forall i, (i < Z.to_nat w)%nat -> nth_error M i = Some (steps n (2 ^ Z.of_nat i)).

Lemma mat_apply_ok : forall n M x, mat_ok n M -> inr x -> mat_apply M x = steps n x.
Proof.
  intros n M x (Hl & Hn) Hx. unfold mat_apply.
  assert (HG : forall L k acc y, (k + length L = Z.to_nat w)%nat ->
    (forall i, (i < length L)%nat -> nth_error L i = Some (steps n (2 ^ Z.of_nat (k + i)))) ->
    0 <= y < 2 ^ Z.of_nat (length L) ->
    fst (fold_left (fun acc c => (if Z.odd (snd acc) then Z.lxor (fst acc) c else fst acc, Z.div2 (snd acc))) L (acc, y))
    = Z.lxor acc (steps n (y * 2 ^ Z.of_nat k))).
  { induction L as [|c L IH]; intros k acc y Hk HL Hy.
    - cbn in *. replace y with 0 by lia. rewrite Z.mul_0_l, steps_0. now rewrite Z.lxor_0_r.
    - cbn [fold_left fst snd].
      pose proof (HL O ltac:(cbn; lia)) as H0. cbn in H0. injection H0 as ->.
      rewrite Nat.add_0_r.
      rewrite (IH (S k)).
      + rewrite Nat2Z.inj_succ, Z.pow_succ_r by lia.
        assert (E : steps n (y * 2 ^ Z.of_nat k) =
          Z.lxor (if Z.odd y then steps n (2 ^ Z.of_nat k) else 0) (steps n (Z.div2 y * (2 * 2 ^ Z.of_nat k)))).
        { pose proof (Z.div2_odd y) as Ho.
          assert (Hd2 : 0 <= Z.div2 y) by (apply Z.div2_nonneg; lia).
          destruct (Z.odd y); cbn [Z.b2z] in Ho.
          - rewrite <- steps_lin. f_equal. rewrite <- Z.add_nocarry_lxor.
            + rewrite Ho at 1. lia.
            + apply Z.bits_inj'. intros m Hm. rewrite Z.land_spec, Z.bits_0.
              destruct (Z.eq_dec m (Z.of_nat k)) as [->|].
              * replace (Z.div2 y * (2 * 2 ^ Z.of_nat k)) with (Z.div2 y * 2 ^ Z.succ (Z.of_nat k))
                  by (rewrite Z.pow_succ_r; lia).
                rewrite Z.mul_pow2_bits_low by lia. apply andb_false_r.
              * rewrite Z.pow2_bits_false by lia. reflexivity.
          - rewrite Z.lxor_0_l. f_equal. rewrite Ho at 1. lia. }
        rewrite E. destruct (Z.odd y); rewrite ?Z.lxor_0_l, <- ?Z.lxor_assoc; reflexivity.
      + cbn [length] in Hk. lia.
      + intros i Hi. specialize (HL (S i) ltac:(cbn; lia)). cbn in HL. rewrite HL. do 4 f_equal. lia.
      + cbn [length] in Hy. rewrite Nat2Z.inj_succ, Z.pow_succ_r in Hy by lia.
        pose proof (Z.div2_odd y) as Ho. destruct (Z.odd y); cbn [Z.b2z] in Ho; lia. }
  rewrite (HG M O 0 x).
  - rewrite Z.lxor_0_l, Z.mul_1_r. reflexivity.
  - lia.
  - intros i Hi. apply Hn. lia.
  - rewrite Hl, Z2Nat.id by lia. exact Hx.
Qed.

Lemma mat_sq_ok : forall n M, mat_ok n M -> mat_ok (n + n) (map (mat_apply M) M).
Proof.
  intros n M H. pose proof H as (Hl & Hn). split; [now rewrite map_length|].
  intros i Hi. erewrite map_nth_error by (apply Hn; assumption).
  assert (Hin : inr (steps n (2 ^ Z.of_nat i))).
  { apply steps_inr. unfold inr. split; [apply Z.pow_nonneg; lia|apply Z.pow_lt_mono_r; lia]. }
  rewrite (mat_apply_ok n) by assumption. now rewrite steps_add.
Qed.

(** [steps (Pos.to_nat p) x], given the matrix of one step. *)
Fixpoint fast (p : positive) (M : list Z) (x : Z) : Z :=
  match p with
  | xH => mat_apply M x
  | xO p' => fast p' (map (mat_apply M) M) x
  | xI p' => fast p' (map (mat_apply M) M) (mat_apply M x)
  end.

Lemma fast_ok : forall p n M x, mat_ok n M -> inr x -> fast p M x = steps (Pos.to_nat p * n) x.
Proof.
  induction p; intros n M x HM Hx; cbn [fast].
  - rewrite (IHp (n + n)%nat); [|now apply mat_sq_ok|rewrite (mat_apply_ok n) by assumption; now apply steps_inr].
    rewrite (mat_apply_ok n) by assumption. rewrite <- steps_add. f_equal. lia.
  - rewrite (IHp (n + n)%nat); [|now apply mat_sq_ok|assumption]. f_equal. lia.
  - rewrite (mat_apply_ok n) by assumption. f_equal. lia.
Qed.

Definition one_step_matrix : list Z := map (fun i => step0 (2 ^ Z.of_nat i)) (seq 0 (Z.to_nat w)).

Lemma one_step_ok : mat_ok 1 one_step_matrix.
Proof.
  unfold one_step_matrix. split; [now rewrite map_length, seq_length|].
  intros i Hi. erewrite map_nth_error; [reflexivity|].
  rewrite nth_error_nth' with (d := O) by (now rewrite seq_length). now rewrite seq_nth.
Qed.

Lemma fast_steps : forall p x, inr x -> fast p one_step_matrix x = steps (Pos.to_nat p) x.
Proof. intros. rewrite (fast_ok p 1) by (assumption || apply one_step_ok). f_equal. lia. Qed.

End Register.

(** *** Primality by computation *)

Fixpoint coprime_from (fuel : nat) (n p : Z) : bool :=
  match fuel with
  | O => true
  | S fuel' => (Z.gcd n p =? 1) && coprime_from fuel' (n + 1) p
  end.

Definition prime_test (p : Z) : bool := (1 <? p) && coprime_from (Z.to_nat (p - 1)) 1 p.

Lemma coprime_from_ok : forall fuel n p, coprime_from fuel n p = true ->
  forall k, n <= k < n + Z.of_nat fuel -> Z.gcd k p = 1.
Proof.
  induction fuel; intros n p H k Hk; [lia|]. cbn [coprime_from] in H.
  apply andb_prop in H. destruct H as (H1 & H2).
  destruct (Z.eq_dec k n) as [->|]; [now apply Z.eqb_eq|]. apply (IHfuel (n + 1)); auto. lia.
Qed.

Lemma prime_test_ok : forall p, prime_test p = true -> prime p.
Proof.
  intros p H. unfold prime_test in H. apply andb_prop in H. destruct H as (H1 & H2).
  apply Z.ltb_lt in H1. constructor; [assumption|].
  intros n Hn. apply Zgcd_1_rel_prime. apply (coprime_from_ok _ _ _ H2). lia.
Qed.

(** *** The table implementations *)

Lemma zget_table : forall (t : list Z) (f : Z -> Z) i, length t = 256%nat ->
  forallb (fun k => nth k t 0 =? f (Z.of_nat k)) (seq 0 256) = true ->
  0 <= i < 256 -> zget t i = Done (f i).
Proof.
  intros t f i Hl H Hi. rewrite (zget_ok _ t i 0) by (unfold zlen; lia).
  rewrite forallb_forall in H. specialize (H (Z.to_nat i)).
  rewrite Z2Nat.id in H by lia. f_equal. apply Z.eqb_eq, H, in_seq. lia.
Qed.

Lemma num_byte_bits : forall b, is_byte b -> num (byte_bits b) = b.
Proof.
  intros b Hb. unfold is_byte in Hb.
  assert (HC : forallb (fun k => num (byte_bits (Z.of_nat k)) =? Z.of_nat k) (seq 0 256) = true)
    by (vm_compute; reflexivity).
  rewrite forallb_forall in HC. specialize (HC (Z.to_nat b)). rewrite Z2Nat.id in HC by lia.
  apply Z.eqb_eq, HC, in_seq. lia.
Qed.

(** A byte through the register, for any width of at least 8. *)
Lemma serial_byte : forall w poly r b, 8 <= w -> 0 <= poly < 2 ^ w -> inr w r -> is_byte b ->
  let hi := Z.lxor (Z.shiftr r (w - 8)) b in
  is_byte hi /\
  serial_crc w poly r (byte_bits b) =
    Z.lxor ((Z.shiftl r 8) mod 2 ^ w) (steps w poly 8 (hi * 2 ^ (w - 8))).
Proof.
  intros w poly r b Hw Hp Hr Hb hi.
  assert (Hpow : 2 ^ w = 256 * 2 ^ (w - 8)).
  { replace w with (8 + (w - 8)) at 1 by lia. rewrite Z.pow_add_r by lia. reflexivity. }
  assert (Hpp : 0 < 2 ^ (w - 8)) by (apply Z.pow_pos_nonneg; lia).
  unfold is_byte in *. unfold inr in Hr.
  assert (Hs : 0 <= Z.shiftr r (w - 8) < 256).
  { rewrite Z.shiftr_div_pow2 by lia. split; [apply Z.div_pos; lia|apply Z.div_lt_upper_bound; lia]. }
  assert (Hhi : 0 <= hi < 256).
  { apply (inr_lxor 8); [lia|exact Hs|exact Hb]. }
  split; [exact Hhi|].
  rewrite serial_load by (try assumption; change (zlen (byte_bits b)) with 8; lia).
  change (length (byte_bits b)) with 8%nat. change (zlen (byte_bits b)) with 8.
  rewrite num_byte_bits by exact Hb.
  assert (E : Z.lxor r (b * 2 ^ (w - 8)) = Z.lxor (r mod 2 ^ (w - 8)) (hi * 2 ^ (w - 8))).
  { apply Z.bits_inj'. intros m Hm. rewrite !Z.lxor_spec. unfold hi.
    destruct (Z.lt_ge_cases m (w - 8)).
    - rewrite !Z.mul_pow2_bits_low, Z.mod_pow2_bits_low by lia. reflexivity.
    - rewrite !Z.mul_pow2_bits, Z.mod_pow2_bits_high, Z.lxor_spec, Z.shiftr_spec by lia.
      replace (m - (w - 8) + (w - 8)) with m by lia. now rewrite xorb_false_l. }
  rewrite E, steps_lin by assumption. f_equal.
  pose proof (Z.mod_pos_bound r (2 ^ (w - 8))).
  rewrite steps_small; [|lia..|change (2 ^ Z.of_nat 8) with 256; lia].
  - rewrite Z.shiftl_mul_pow2 by lia. change (2 ^ Z.of_nat 8) with 256. change (2 ^ 8) with 256.
    rewrite Hpow. rewrite (Z.mul_comm r 256), Z.mul_mod_distr_l by lia. lia.
Qed.

Lemma p32 : 0 <= CRC32_POLY < 2 ^ 32. Proof. split; [discriminate|reflexivity]. Qed.
Lemma p16 : 0 <= CRC16_POLY < 2 ^ 16. Proof. split; [discriminate|reflexivity]. Qed.

Lemma crc32_byte : forall r b, inr 32 r -> is_byte b ->
  exists t, zget crc32_table (Z.land (Z.lxor (Z.shiftr r 24) b) 255) = Done t /\
    Z.lxor (wrap 32 (Z.shiftl r 8)) t = serial_crc 32 CRC32_POLY r (byte_bits b).
Proof.
  intros r b Hr Hb.
  destruct (serial_byte 32 CRC32_POLY r b ltac:(lia) p32 Hr Hb) as (Hhi & E).
  change (32 - 8) with 24 in *. unfold is_byte in Hhi.
  change 255 with (Z.ones 8). rewrite Z.land_ones, Z.mod_small by (change (2 ^ 8) with 256; lia).
  rewrite (zget_table crc32_table (fun i => steps 32 CRC32_POLY 8 (i * 2 ^ 24))).
  - eexists. split; [reflexivity|]. rewrite E. reflexivity.
  - reflexivity.
  - vm_compute. reflexivity.
  - exact Hhi.
Qed.

Lemma crc16_byte : forall r b, inr 16 r -> is_byte b ->
  exists t, zget crc16_ccitt_table (wrap 16 (Z.lxor (Z.shiftr r 8) (wrap 16 b))) = Done t /\
    wrap 16 (Z.lxor (wrap 16 (Z.shiftl r 8)) t) = serial_crc 16 CRC16_POLY r (byte_bits b).
Proof.
  intros r b Hr Hb.
  destruct (serial_byte 16 CRC16_POLY r b ltac:(lia) p16 Hr Hb) as (Hhi & E).
  change (16 - 8) with 8 in *. unfold is_byte in *.
  rewrite (wrap16_small b) by lia. rewrite wrap16_small by lia.
  rewrite (zget_table crc16_ccitt_table (fun i => steps 16 CRC16_POLY 8 (i * 2 ^ 8))).
  - eexists. split; [reflexivity|]. rewrite E.
    apply wrap_small. rewrite <- E. apply serial_inr; [lia|exact p16|exact Hr].
  - reflexivity.
  - vm_compute. reflexivity.
  - exact Hhi.
Qed.

Lemma zget_mid : forall (pre post : list Z) b, zget (pre ++ b :: post) (zlen pre) = Done b.
Proof.
  intros. unfold zget, zlen. destruct (Z.ltb_spec (Z.of_nat (length pre)) 0); [lia|].
  rewrite Nat2Z.id, nth_error_app2, Nat.sub_diag by lia. reflexivity.
Qed.

Lemma crc32_loop_serial : forall m pre post r, inr 32 r -> message m ->
  crc32_loop (length m) (pre ++ m ++ post) (zlen pre) r = Done (serial_crc 32 CRC32_POLY r (message_bits m)).
Proof.
  induction m as [|b m IH]; intros pre post r Hr Hm; [reflexivity|].
  inversion Hm as [|? ? Hb Hm']; subst.
  cbn [length crc32_loop app]. rewrite zget_mid. cbn [obind].
  destruct (crc32_byte r b Hr Hb) as (t & -> & E). cbn [obind]. rewrite E.
  change (message_bits (b :: m)) with (byte_bits b ++ message_bits m). rewrite serial_app.
  replace (pre ++ b :: m ++ post) with ((pre ++ [b]) ++ m ++ post) by (rewrite <- app_assoc; reflexivity).
  replace (zlen pre + 1) with (zlen (pre ++ [b])) by (unfold zlen; rewrite app_length; cbn [length]; lia).
  apply IH; [|exact Hm']. apply serial_inr; [lia|exact p32|exact Hr].
Qed.

Lemma crc16_loop_serial : forall m pre post r, inr 16 r -> message m ->
  crc16_loop (length m) (pre ++ m ++ post) (zlen pre) r = Done (serial_crc 16 CRC16_POLY r (message_bits m)).
Proof.
  induction m as [|b m IH]; intros pre post r Hr Hm; [reflexivity|].
  inversion Hm as [|? ? Hb Hm']; subst.
  cbn [length crc16_loop app]. rewrite zget_mid. cbn [obind]. cbv zeta.
  destruct (crc16_byte r b Hr Hb) as (t & -> & E). cbn [obind]. rewrite E.
  change (message_bits (b :: m)) with (byte_bits b ++ message_bits m). rewrite serial_app.
  replace (pre ++ b :: m ++ post) with ((pre ++ [b]) ++ m ++ post) by (rewrite <- app_assoc; reflexivity).
  replace (zlen pre + 1) with (zlen (pre ++ [b])) by (unfold zlen; rewrite app_length; cbn [length]; lia).
  apply IH; [|exact Hm']. apply serial_inr; [lia|exact p16|exact Hr].
Qed.

Lemma crc32_serial_l : forall m post init, message m -> 0 <= init < 2 ^ 32 ->
  crc32 (m ++ post) (zlen m) init = Done (serial_crc 32 CRC32_POLY init (message_bits m)).
Proof.
  intros m post init Hm Hi. unfold crc32, zlen. rewrite Nat2Z.id.
  apply (crc32_loop_serial m [] post init); assumption.
Qed.

Lemma crc16_serial_l : forall m post init, message m -> 0 <= init < 2 ^ 16 ->
  crc16_ccitt (m ++ post) (zlen m) init = Done (serial_crc 16 CRC16_POLY init (message_bits m)).
Proof.
  intros m post init Hm Hi. unfold crc16_ccitt, zlen. rewrite Nat2Z.id.
  apply (crc16_loop_serial m [] post init); assumption.
Qed.

(** *** Message bits determine the message *)

Lemma message_bits_length : forall m, length (message_bits m) = (8 * length m)%nat.
Proof. induction m; [reflexivity|]. change (message_bits (a :: m)) with (byte_bits a ++ message_bits m).
  rewrite app_length, IHm. change (length (byte_bits a)) with 8%nat. cbn [length]. lia. Qed.

Lemma message_bits_inj : forall m1 m2, message m1 -> message m2 -> length m1 = length m2 ->
  message_bits m1 = message_bits m2 -> m1 = m2.
Proof.
  induction m1 as [|a m1 IH]; intros [|b m2] H1 H2 Hl E; cbn [length] in Hl; try lia; auto.
  change (byte_bits a ++ message_bits m1 = byte_bits b ++ message_bits m2) in E.
  apply app_eq_app in E. destruct E as (l & E).
  assert (Hab : byte_bits a = byte_bits b /\ message_bits m1 = message_bits m2).
  { destruct E as [(E1 & E2)|(E1 & E2)].
    - assert (length l = O).
      { apply (f_equal (@length bool)) in E1. rewrite app_length in E1.
        change (length (byte_bits a)) with 8%nat in E1. change (length (byte_bits b)) with 8%nat in E1. lia. }
      destruct l; [|discriminate]. rewrite app_nil_r in E1. auto.
    - assert (length l = O).
      { apply (f_equal (@length bool)) in E1. rewrite app_length in E1.
        change (length (byte_bits a)) with 8%nat in E1. change (length (byte_bits b)) with 8%nat in E1. lia. }
      destruct l; [|discriminate]. rewrite app_nil_r in E1. auto. }
  destruct Hab as (Hab & Hm).
  inversion H1; inversion H2; subst.
  f_equal; [|now apply IH; auto].
  rewrite <- (num_byte_bits a), <- (num_byte_bits b) by assumption. now rewrite Hab.
Qed.

Lemma crc32_burst_l : forall m1 m2 init s c1 c2,
  message m1 -> message m2 -> length m1 = length m2 -> 0 <= init < 2 ^ 32 -> m1 <> m2 ->
  differ_within s 32 (message_bits m1) (message_bits m2) ->
  crc32 m1 (zlen m1) init = Done c1 -> crc32 m2 (zlen m2) init = Done c2 -> c1 <> c2.
Proof.
  intros m1 m2 init s c1 c2 H1 H2 Hl Hi Hne Hd E1 E2 Heq.
  rewrite <- (app_nil_r m1) in E1 at 1. rewrite <- (app_nil_r m2) in E2 at 1.
  rewrite crc32_serial_l in E1, E2 by assumption. injection E1 as E1. injection E2 as E2.
  apply Hne. apply message_bits_inj; auto.
  apply (burst_detected 32 CRC32_POLY ltac:(lia) p32 eq_refl _ _ init s).
  - rewrite !message_bits_length. lia.
  - exact Hd.
  - congruence.
Qed.

Lemma crc16_burst_l : forall m1 m2 init s c1 c2,
  message m1 -> message m2 -> length m1 = length m2 -> 0 <= init < 2 ^ 16 -> m1 <> m2 ->
  differ_within s 16 (message_bits m1) (message_bits m2) ->
  crc16_ccitt m1 (zlen m1) init = Done c1 -> crc16_ccitt m2 (zlen m2) init = Done c2 -> c1 <> c2.
Proof.
  intros m1 m2 init s c1 c2 H1 H2 Hl Hi Hne Hd E1 E2 Heq.
  rewrite <- (app_nil_r m1) in E1 at 1. rewrite <- (app_nil_r m2) in E2 at 1.
  rewrite crc16_serial_l in E1, E2 by assumption. injection E1 as E1. injection E2 as E2.
  apply Hne. apply message_bits_inj; auto.
  apply (burst_detected 16 CRC16_POLY ltac:(lia) p16 eq_refl _ _ init s).
  - rewrite !message_bits_length. lia.
  - exact Hd.
  - congruence.
Qed.

(** *** Parity (CRC-16) *)

Fixpoint par (n : nat) (x : Z) : bool :=
  match n with O => false | S n' => xorb (Z.testbit x (Z.of_nat n')) (par n' x) end.

Lemma par_ext : forall n x y, (forall i, 0 <= i < Z.of_nat n -> Z.testbit x i = Z.testbit y i) -> par n x = par n y.
Proof.
  induction n; intros x y H; [reflexivity|]. cbn [par]. f_equal; [apply H; lia|]. apply IHn. intros; apply H; lia.
Qed.

Lemma par_lxor : forall n x y, par n (Z.lxor x y) = xorb (par n x) (par n y).
Proof.
  induction n; intros; [reflexivity|]. cbn [par]. rewrite IHn, Z.lxor_spec.
  destruct (Z.testbit x (Z.of_nat n)), (Z.testbit y (Z.of_nat n)), (par n x), (par n y); reflexivity.
Qed.

Lemma par_double : forall n x, par (S n) (2 * x) = par n x.
Proof.
  induction n; intros x.
  - cbn [par]. change (Z.of_nat 0) with 0. now rewrite Z.testbit_even_0.
  - change (par (S (S n)) (2 * x)) with (xorb (Z.testbit (2 * x) (Z.of_nat (S n))) (par (S n) (2 * x))).
    rewrite IHn. cbn [par]. f_equal. rewrite Nat2Z.inj_succ. apply Z.double_bits_succ.
Qed.

Lemma par_step : forall r b, par 16 (shift_in 16 CRC16_POLY r b) = xorb (par 16 r) b.
Proof.
  intros r b. unfold shift_in. cbv zeta.
  assert (E : par 16 ((2 * r) mod 2 ^ 16) = par 15 r).
  { rewrite (par_ext 16 _ (2 * r)); [apply par_double|]. intros i Hi. apply Z.mod_pow2_bits_low. lia. }
  assert (E2 : par 16 r = xorb (Z.testbit r 15) (par 15 r)) by reflexivity.
  change (16 - 1) with 15. rewrite E2.
  destruct (Z.testbit r 15), b; cbn [xorb]; rewrite ?par_lxor, E; try (change (par 16 CRC16_POLY) with true);
    destruct (par 15 r); reflexivity.
Qed.

Lemma par_serial : forall bs r, par 16 (serial_crc 16 CRC16_POLY r bs) = xorb (par 16 r) (fold_right xorb false bs).
Proof.
  unfold serial_crc. induction bs; intros r; cbn [fold_left fold_right].
  - now rewrite xorb_false_r.
  - rewrite IHbs, par_step. apply xorb_assoc.
Qed.

Lemma distance_parity : forall xs ys, length xs = length ys ->
  Nat.odd (distance xs ys) = xorb (fold_right xorb false xs) (fold_right xorb false ys).
Proof.
  induction xs as [|x xs IH]; intros [|y ys] H; cbn [length] in H; try lia; [reflexivity|].
  cbn [distance fold_right]. rewrite Nat.odd_add, IH by lia.
  destruct x, y, (fold_right xorb false xs), (fold_right xorb false ys); reflexivity.
Qed.

Lemma crc16_odd_l : forall m1 m2 init c1 c2,
  message m1 -> message m2 -> length m1 = length m2 -> 0 <= init < 2 ^ 16 ->
  Nat.odd (distance (message_bits m1) (message_bits m2)) = true ->
  crc16_ccitt m1 (zlen m1) init = Done c1 -> crc16_ccitt m2 (zlen m2) init = Done c2 -> c1 <> c2.
Proof.
  intros m1 m2 init c1 c2 H1 H2 Hl Hi Ho E1 E2 Heq.
  rewrite <- (app_nil_r m1) in E1 at 1. rewrite <- (app_nil_r m2) in E2 at 1.
  rewrite crc16_serial_l in E1, E2 by assumption. injection E1 as E1. injection E2 as E2.
  rewrite distance_parity in Ho by (rewrite !message_bits_length; lia).
  assert (HP : par 16 c1 = par 16 c2) by now rewrite Heq.
  rewrite <- E1, <- E2, !par_serial in HP.
  destruct (par 16 init), (fold_right xorb false (message_bits m1)), (fold_right xorb false (message_bits m2));
    cbn in *; discriminate.
Qed.

(** *** Double-bit errors *)

Lemma steps_fast : forall w poly p, 8 <= w -> 0 <= poly < 2 ^ w -> Z.testbit poly 0 = true ->
  steps w poly (Z.to_nat (Zpos p)) (top w) = fast p (one_step_matrix w poly) (top w).
Proof.
  intros. rewrite Z2Nat.inj_pos. symmetry. apply fast_steps; try assumption. now apply top_inr.
Qed.

Lemma return32 : steps 32 CRC32_POLY (Z.to_nat 4294967295) (top 32) = top 32.
Proof. rewrite steps_fast by (exact p32 || reflexivity || lia). vm_compute. reflexivity. Qed.

Lemma no_return32_3 : steps 32 CRC32_POLY (Z.to_nat 1431655765) (top 32) <> top 32.
Proof. rewrite steps_fast by (exact p32 || reflexivity || lia). vm_compute. discriminate. Qed.

Lemma no_return32_5 : steps 32 CRC32_POLY (Z.to_nat 858993459) (top 32) <> top 32.
Proof. rewrite steps_fast by (exact p32 || reflexivity || lia). vm_compute. discriminate. Qed.

Lemma no_return32_17 : steps 32 CRC32_POLY (Z.to_nat 252645135) (top 32) <> top 32.
Proof. rewrite steps_fast by (exact p32 || reflexivity || lia). vm_compute. discriminate. Qed.

Lemma no_return32_257 : steps 32 CRC32_POLY (Z.to_nat 16711935) (top 32) <> top 32.
Proof. rewrite steps_fast by (exact p32 || reflexivity || lia). vm_compute. discriminate. Qed.

Lemma no_return32_65537 : steps 32 CRC32_POLY (Z.to_nat 65535) (top 32) <> top 32.
Proof. rewrite steps_fast by (exact p32 || reflexivity || lia). vm_compute. discriminate. Qed.

Lemma order32 : forall d, (0 < d)%nat -> Z.of_nat d < 4294967295 -> steps 32 CRC32_POLY d (top 32) <> top 32.
Proof.
  intros d H0 H.
  refine (order 32 CRC32_POLY _ p32 eq_refl 4294967295 [3; 5; 17; 257; 65537] _ return32 _ _ _ d H0 H).
  - lia.
  - lia.
  - repeat (constructor; [apply prime_test_ok; vm_compute; reflexivity|]). constructor.
  - reflexivity.
  - intros p Hp.
    destruct Hp as [<-|Hp]; [exact no_return32_3|].
    destruct Hp as [<-|Hp]; [exact no_return32_5|].
    destruct Hp as [<-|Hp]; [exact no_return32_17|].
    destruct Hp as [<-|Hp]; [exact no_return32_257|].
    destruct Hp as [<-|Hp]; [exact no_return32_65537|].
    contradiction.
Qed.

Lemma return16 : steps 16 CRC16_POLY (Z.to_nat 32767) (top 16) = top 16.
Proof. rewrite steps_fast by (exact p16 || reflexivity || lia). vm_compute. reflexivity. Qed.

Lemma no_return16_7 : steps 16 CRC16_POLY (Z.to_nat 4681) (top 16) <> top 16.
Proof. rewrite steps_fast by (exact p16 || reflexivity || lia). vm_compute. discriminate. Qed.

Lemma no_return16_31 : steps 16 CRC16_POLY (Z.to_nat 1057) (top 16) <> top 16.
Proof. rewrite steps_fast by (exact p16 || reflexivity || lia). vm_compute. discriminate. Qed.

Lemma no_return16_151 : steps 16 CRC16_POLY (Z.to_nat 217) (top 16) <> top 16.
Proof. rewrite steps_fast by (exact p16 || reflexivity || lia). vm_compute. discriminate. Qed.

Lemma order16 : forall d, (0 < d)%nat -> Z.of_nat d < 32767 -> steps 16 CRC16_POLY d (top 16) <> top 16.
Proof.
  intros d H0 H.
  refine (order 16 CRC16_POLY _ p16 eq_refl 32767 [7; 31; 151] _ return16 _ _ _ d H0 H).
  - lia.
  - lia.
  - repeat (constructor; [apply prime_test_ok; vm_compute; reflexivity|]). constructor.
  - reflexivity.
  - intros p Hp.
    destruct Hp as [<-|Hp]; [exact no_return16_7|].
    destruct Hp as [<-|Hp]; [exact no_return16_31|].
    destruct Hp as [<-|Hp]; [exact no_return16_151|].
    contradiction.
Qed.

Lemma crc32_double_l : forall m1 m2 init i j c1 c2,
  message m1 -> message m2 -> 0 <= init < 2 ^ 32 -> (i < j)%nat -> Z.of_nat (j - i) < 2 ^ 32 - 1 ->
  differ_at i j (message_bits m1) (message_bits m2) ->
  crc32 m1 (zlen m1) init = Done c1 -> crc32 m2 (zlen m2) init = Done c2 -> c1 <> c2.
Proof.
  intros m1 m2 init i j c1 c2 H1 H2 Hi Hij Hlt Hd E1 E2 Heq.
  rewrite <- (app_nil_r m1) in E1 at 1. rewrite <- (app_nil_r m2) in E2 at 1.
  rewrite crc32_serial_l in E1, E2 by assumption. injection E1 as E1. injection E2 as E2.
  destruct (differ_at_diff 32 CRC32_POLY ltac:(lia) eq_refl i j _ _ Hij Hd) as (a & c & E).
  assert (Hser : serial_crc 32 CRC32_POLY 0 (diff (message_bits m1) (message_bits m2)) = 0).
  { apply (serial_diff 32 CRC32_POLY ltac:(lia) _ _ init); [apply Hd|congruence]. }
  rewrite E in Hser.
  apply (two_bits 32 CRC32_POLY ltac:(lia) p32 eq_refl (j - i) a c) in Hser; [|lia].
  revert Hser. apply order32; lia.
Qed.

Lemma crc16_double_l : forall m1 m2 init i j c1 c2,
  message m1 -> message m2 -> 0 <= init < 2 ^ 16 -> (i < j)%nat -> Z.of_nat (j - i) < 32767 ->
  differ_at i j (message_bits m1) (message_bits m2) ->
  crc16_ccitt m1 (zlen m1) init = Done c1 -> crc16_ccitt m2 (zlen m2) init = Done c2 -> c1 <> c2.
Proof.
  intros m1 m2 init i j c1 c2 H1 H2 Hi Hij Hlt Hd E1 E2 Heq.
  rewrite <- (app_nil_r m1) in E1 at 1. rewrite <- (app_nil_r m2) in E2 at 1.
  rewrite crc16_serial_l in E1, E2 by assumption. injection E1 as E1. injection E2 as E2.
  destruct (differ_at_diff 16 CRC16_POLY ltac:(lia) eq_refl i j _ _ Hij Hd) as (a & c & E).
  assert (Hser : serial_crc 16 CRC16_POLY 0 (diff (message_bits m1) (message_bits m2)) = 0).
  { apply (serial_diff 16 CRC16_POLY ltac:(lia) _ _ init); [apply Hd|congruence]. }
  rewrite E in Hser.
  apply (two_bits 16 CRC16_POLY ltac:(lia) p16 eq_refl (j - i) a c) in Hser; [|lia].
  revert Hser. apply order16; lia.
Qed.

(** At exactly the period, the error is invisible. *)
Lemma crc16_double_sharp_l : forall m1 m2 init i c1 c2,
  message m1 -> message m2 -> 0 <= init < 2 ^ 16 ->
  differ_at i (i + Z.to_nat 32767) (message_bits m1) (message_bits m2) ->
  crc16_ccitt m1 (zlen m1) init = Done c1 -> crc16_ccitt m2 (zlen m2) init = Done c2 -> c1 = c2.
Proof.
  intros m1 m2 init i c1 c2 H1 H2 Hi Hd E1 E2.
  rewrite <- (app_nil_r m1) in E1 at 1. rewrite <- (app_nil_r m2) in E2 at 1.
  rewrite crc16_serial_l in E1, E2 by assumption. injection E1 as E1. injection E2 as E2.
  assert (HN : exists N, Z.to_nat 32767 = S N) by (exists (Z.to_nat 32766); lia).
  pose proof return16 as HR.
  destruct HN as (N & HN). rewrite HN in Hd, HR.
  destruct (differ_at_diff 16 CRC16_POLY ltac:(lia) eq_refl i (i + S N)%nat _ _ ltac:(lia) Hd) as (a & c & E).
  assert (HZ : serial_crc 16 CRC16_POLY 0 (diff (message_bits m1) (message_bits m2)) = 0).
  { rewrite E. apply (two_bits 16 CRC16_POLY ltac:(lia) p16 eq_refl); [lia|].
    replace (i + S N - i)%nat with (S N) by lia. exact HR. }
  assert (HL : Z.lxor c1 c2 = 0).
  { rewrite <- E1, <- E2.
    rewrite <- (serial_lin 16 CRC16_POLY ltac:(lia) (message_bits m1) (message_bits m2) init init) by apply Hd.
    rewrite Z.lxor_nilpotent. exact HZ. }
  now apply Z.lxor_eq_0_iff.
Qed.

Lemma crc32_double_sharp_l : forall m1 m2 init i c1 c2,
  message m1 -> message m2 -> 0 <= init < 2 ^ 32 ->
  differ_at i (i + Z.to_nat 4294967295) (message_bits m1) (message_bits m2) ->
  crc32 m1 (zlen m1) init = Done c1 -> crc32 m2 (zlen m2) init = Done c2 -> c1 = c2.
Proof.
  intros m1 m2 init i c1 c2 H1 H2 Hi Hd E1 E2.
  rewrite <- (app_nil_r m1) in E1 at 1. rewrite <- (app_nil_r m2) in E2 at 1.
  rewrite crc32_serial_l in E1, E2 by assumption. injection E1 as E1. injection E2 as E2.
  assert (HN : exists N, Z.to_nat 4294967295 = S N) by (exists (Z.to_nat 4294967294); lia).
  pose proof return32 as HR.
  destruct HN as (N & HN). rewrite HN in Hd, HR.
  destruct (differ_at_diff 32 CRC32_POLY ltac:(lia) eq_refl i (i + S N)%nat _ _ ltac:(lia) Hd) as (a & c & E).
  assert (HZ : serial_crc 32 CRC32_POLY 0 (diff (message_bits m1) (message_bits m2)) = 0).
  { rewrite E. apply (two_bits 32 CRC32_POLY ltac:(lia) p32 eq_refl); [lia|].
    replace (i + S N - i)%nat with (S N) by lia. exact HR. }
  assert (HL : Z.lxor c1 c2 = 0).
  { rewrite <- E1, <- E2.
    rewrite <- (serial_lin 32 CRC32_POLY ltac:(lia) (message_bits m1) (message_bits m2) init init) by apply Hd.
    rewrite Z.lxor_nilpotent. exact HZ. }
  now apply Z.lxor_eq_0_iff.
Qed.

(** *** Polynomial division *)

Lemma cl_mul_double : forall q p, 0 <= q -> cl_mul (2 * q) p = 2 * cl_mul q p.
Proof. intros [|q|q] p H; try lia; reflexivity. Qed.

Lemma cl_mul_double1 : forall q p, 0 <= q -> cl_mul (2 * q + 1) p = Z.lxor p (2 * cl_mul q p).
Proof. intros [|q|q] p H; try lia; try reflexivity. cbn. now rewrite Z.lxor_0_r. Qed.

Lemma double_lxor : forall a b, 2 * Z.lxor a b = Z.lxor (2 * a) (2 * b).
Proof.
  intros. rewrite !(Z.mul_comm 2). change 2 with (2 ^ 1). rewrite <- !Z.shiftl_mul_pow2 by lia.
  apply Z.shiftl_lxor.
Qed.

Lemma lxor_add_bit : forall a (b : bool), 2 * a + (if b then 1 else 0) = Z.lxor (2 * a) (if b then 1 else 0).
Proof.
  intros a b. destruct b; [|rewrite Z.lxor_0_r; lia].
  apply Z.add_nocarry_lxor. apply Z.bits_inj'. intros m Hm. rewrite Z.land_spec, Z.bits_0.
  destruct (Z.eq_dec m 0) as [->|]; [rewrite Z.testbit_even_0; reflexivity|].
  replace (Z.testbit 1 m) with false; [apply andb_false_r|].
  symmetry. apply (Z.pow2_bits_false 0). lia.
Qed.

Lemma serial_remainder : forall w poly init bits, 8 <= w -> 0 <= poly < 2 ^ w -> 0 <= init < 2 ^ w ->
  is_remainder w (Z.lxor (bits_poly bits * 2 ^ w) (init * 2 ^ zlen bits)) (2 ^ w + poly)
               (serial_crc w poly init bits).
Proof.
  intros w poly init bits Hw Hp Hi. unfold is_remainder.
  split; [now apply serial_inr|].
  induction bits as [|b bits IH] using rev_ind.
  - exists 0. split; [lia|]. cbn [bits_poly fold_left serial_crc]. unfold zlen; cbn [length].
    change (2 ^ Z.of_nat 0) with 1. cbn [cl_mul].
    unfold bits_poly, serial_crc; cbn [fold_left]. rewrite Z.mul_0_l, Z.mul_1_r. reflexivity.
  - destruct IH as (q & Hq & IH). rewrite serial_app. set (r := serial_crc w poly init bits) in *.
    assert (Hr : inr w r) by (now apply serial_inr).
    change (serial_crc w poly r [b]) with (shift_in w poly r b).
    assert (HM : bits_poly (bits ++ [b]) = 2 * bits_poly bits + (if b then 1 else 0)).
    { unfold bits_poly. now rewrite fold_left_app. }
    assert (HZ : zlen (bits ++ [b]) = zlen bits + 1) by (unfold zlen; rewrite app_length; cbn [length]; lia).
    rewrite HM, HZ, lxor_add_bit.
    assert (Hpw : 0 < 2 ^ w) by (apply Z.pow_pos_nonneg; lia).
    (* the left side doubles, plus the new bit at x^w *)
    assert (HL : Z.lxor (Z.lxor (2 * bits_poly bits) (if b then 1 else 0) * 2 ^ w) (init * 2 ^ (zlen bits + 1))
                 = Z.lxor (2 * Z.lxor (bits_poly bits * 2 ^ w) (init * 2 ^ zlen bits)) (if b then 2 ^ w else 0)).
    { rewrite <- !Z.shiftl_mul_pow2 by (try lia; pose proof (zlen_nonneg _ bits); lia).
      rewrite double_lxor, Z.shiftl_lxor.
      rewrite !Z.shiftl_mul_pow2 by (try lia; pose proof (zlen_nonneg _ bits); lia).
      replace (2 * bits_poly bits * 2 ^ w) with (2 * (bits_poly bits * 2 ^ w)) by lia.
      replace (init * 2 ^ (zlen bits + 1)) with (2 * (init * 2 ^ zlen bits))
        by (rewrite Z.pow_add_r by (pose proof (zlen_nonneg _ bits); lia); lia).
      replace ((if b then 1 else 0) * 2 ^ w) with (if b then 2 ^ w else 0) by (destruct b; lia).
      apply Z.bits_inj'. intros m Hm. rewrite !Z.lxor_spec.
      destruct (Z.testbit (2 * (bits_poly bits * 2 ^ w)) m), (Z.testbit (if b then 2 ^ w else 0) m),
        (Z.testbit (2 * (init * 2 ^ zlen bits)) m); reflexivity. }
    rewrite HL, IH, double_lxor.
    (* the doubled register: low part and the bit shifted out *)
    assert (HR : 2 * r = Z.lxor ((2 * r) mod 2 ^ w) (if Z.testbit r (w - 1) then 2 ^ w else 0)).
    { apply Z.bits_inj'. intros m Hm. rewrite Z.lxor_spec, shifted_bits by lia.
      destruct (Z.eq_dec m 0) as [->|].
      - rewrite Z.testbit_even_0. cbn [Z.ltb Z.compare]. rewrite andb_false_r. cbn [andb xorb].
        destruct (Z.testbit r (w - 1)); [rewrite Z.pow2_bits_false by lia; reflexivity|now rewrite Z.bits_0].
      - replace (Z.testbit (2 * r) m) with (Z.testbit r (m - 1))
          by (replace m with (Z.succ (m - 1)) at 2 by lia; now rewrite Z.double_bits_succ).
        destruct (Z.ltb_spec 0 m); [|lia]. rewrite andb_true_r.
        destruct (Z.ltb_spec m w); cbn [andb].
        + replace (Z.testbit (if Z.testbit r (w - 1) then 2 ^ w else 0) m) with false; [now rewrite xorb_false_r|].
          destruct (Z.testbit r (w - 1)); [now rewrite Z.pow2_bits_false by lia|now rewrite Z.bits_0].
        + cbn [xorb]. destruct (Z.eq_dec m w) as [->|].
          * destruct (Z.testbit r (w - 1)) eqn:E; [now rewrite Z.pow2_bits_true by lia|now rewrite Z.bits_0].
          * rewrite (inr_bits w) by (try assumption; lia).
            destruct (Z.testbit r (w - 1)); [now rewrite Z.pow2_bits_false by lia|now rewrite Z.bits_0]. }
    assert (HP : 2 ^ w + poly = Z.lxor (2 ^ w) poly).
    { apply Z.add_nocarry_lxor. apply Z.bits_inj'. intros m Hm. rewrite Z.land_spec, Z.bits_0.
      destruct (Z.eq_dec m w) as [->|].
      - replace (Z.testbit poly w) with false; [apply andb_false_r|]. symmetry. apply (inr_bits w); try exact Hp; lia.
      - rewrite Z.pow2_bits_false by lia. reflexivity. }
    rewrite HR. unfold shift_in. cbv zeta.
    destruct (Z.testbit r (w - 1)), b; cbn [xorb].
    + exists (2 * q). split; [lia|]. rewrite cl_mul_double by assumption.
      rewrite !Z.lxor_assoc, Z.lxor_nilpotent, Z.lxor_0_r. reflexivity.
    + exists (2 * q + 1). split; [lia|]. rewrite cl_mul_double1 by assumption. rewrite HP.
      apply Z.bits_inj'. intros m Hm. rewrite !Z.lxor_spec.
      generalize (Z.testbit (2 * cl_mul q (Z.lxor (2 ^ w) poly)) m); intros c1.
      generalize (Z.testbit ((2 * r) mod 2 ^ w) m); intros c2. rewrite Z.bits_0.
      destruct c1, c2, (Z.testbit (2 ^ w) m), (Z.testbit poly m); reflexivity.
    + exists (2 * q + 1). split; [lia|]. rewrite cl_mul_double1 by assumption. rewrite HP.
      apply Z.bits_inj'. intros m Hm. rewrite !Z.lxor_spec.
      generalize (Z.testbit (2 * cl_mul q (Z.lxor (2 ^ w) poly)) m); intros c1.
      generalize (Z.testbit ((2 * r) mod 2 ^ w) m); intros c2. rewrite Z.bits_0.
      destruct c1, c2, (Z.testbit (2 ^ w) m), (Z.testbit poly m); reflexivity.
    + exists (2 * q). split; [lia|]. rewrite cl_mul_double by assumption.
      now rewrite !Z.lxor_0_r.
Qed.

Lemma crc32_remainder_l : forall m post init c, message m -> 0 <= init < 2 ^ 32 ->
  crc32 (m ++ post) (zlen m) init = Done c ->
  is_remainder 32 (Z.lxor (bits_poly (message_bits m) * 2 ^ 32) (init * 2 ^ (8 * zlen m))) (2 ^ 32 + CRC32_POLY) c.
Proof.
  intros m post init c Hm Hi H. rewrite crc32_serial_l in H by assumption. injection H as <-.
  replace (8 * zlen m) with (zlen (message_bits m)) by (unfold zlen; rewrite message_bits_length; lia).
  apply serial_remainder; [lia|exact p32|exact Hi].
Qed.

Lemma crc16_remainder_l : forall m post init c, message m -> 0 <= init < 2 ^ 16 ->
  crc16_ccitt (m ++ post) (zlen m) init = Done c ->
  is_remainder 16 (Z.lxor (bits_poly (message_bits m) * 2 ^ 16) (init * 2 ^ (8 * zlen m))) (2 ^ 16 + CRC16_POLY) c.
Proof.
  intros m post init c Hm Hi H. rewrite crc16_serial_l in H by assumption. injection H as <-.
  replace (8 * zlen m) with (zlen (message_bits m)) by (unfold zlen; rewrite message_bits_length; lia).
  apply serial_remainder; [lia|exact p16|exact Hi].
Qed.

(** *** Segments *)

Lemma message_bits_app : forall a b, message_bits (a ++ b) = message_bits a ++ message_bits b.
Proof. intros. apply flat_map_app. Qed.

Lemma crc32_segments_l : forall m1 m2 init, message m1 -> message m2 -> 0 <= init < 2 ^ 32 ->
  crc32 (m1 ++ m2) (zlen (m1 ++ m2)) init = do c <- crc32 m1 (zlen m1) init; crc32 m2 (zlen m2) c.
Proof.
  intros m1 m2 init H1 H2 Hi.
  rewrite <- (app_nil_r (m1 ++ m2)) at 1. rewrite crc32_serial_l by (try assumption; now apply Forall_app).
  rewrite <- (app_nil_r m1) at 2. rewrite crc32_serial_l by assumption. cbn [obind].
  rewrite <- (app_nil_r m2) at 2. rewrite crc32_serial_l.
  - now rewrite message_bits_app, serial_app.
  - assumption.
  - apply serial_inr; [lia|exact p32|exact Hi].
Qed.

Lemma crc16_segments_l : forall m1 m2 init, message m1 -> message m2 -> 0 <= init < 2 ^ 16 ->
  crc16_ccitt (m1 ++ m2) (zlen (m1 ++ m2)) init = do c <- crc16_ccitt m1 (zlen m1) init; crc16_ccitt m2 (zlen m2) c.
Proof.
  intros m1 m2 init H1 H2 Hi.
  rewrite <- (app_nil_r (m1 ++ m2)) at 1. rewrite crc16_serial_l by (try assumption; now apply Forall_app).
  rewrite <- (app_nil_r m1) at 2. rewrite crc16_serial_l by assumption. cbn [obind].
  rewrite <- (app_nil_r m2) at 2. rewrite crc16_serial_l.
  - now rewrite message_bits_app, serial_app.
  - assumption.
  - apply serial_inr; [lia|exact p16|exact Hi].
Qed.
