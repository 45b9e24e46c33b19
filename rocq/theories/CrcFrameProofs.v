(** Proofs about check values at the end of a message. *)
From Verif Require Import Base BaseLemmas SerializerSpec SerializerSystem SerializerProofs CrcModel CrcSpec CrcFrameSpec CrcProofs.

(** *** The register runs backwards *)
Section Back.
Variables (w poly : Z).
Hypothesis Hw : 8 <= w.
Hypothesis Hpoly : 0 <= poly < 2 ^ w.
Hypothesis Hodd : Z.testbit poly 0 = true.

Lemma half : 2 ^ w = 2 * 2 ^ (w - 1).
Proof. replace w with (Z.succ (w - 1)) at 1 by lia. rewrite Z.pow_succ_r; lia. Qed.

Lemma even_step : forall r, inr w r -> Z.testbit r 0 = false -> exists r0, inr w r0 /\ step0 w poly r0 = r /\ r0 < 2 ^ (w - 1).
Proof.
  intros r Hr Hb. unfold inr in *. pose proof half as H2. rewrite Z.bit0_odd in Hb.
  pose proof (Z.div2_odd r) as D. rewrite Hb in D. cbn [Z.b2z] in D. set (h := Z.div2 r) in *. clearbody h.
  exists h. split; [lia|]. split; [|lia]. rewrite step0_small by lia. lia.
Qed.

Lemma step0_top : step0 w poly (2 ^ (w - 1)) = poly.
Proof.
  unfold step0, shift_in. cbv zeta. rewrite Z.pow2_bits_true by lia. cbn [xorb]. rewrite <- half, Z.mod_same by (pose proof half; lia). apply Z.lxor_0_l.
Qed.

Lemma step_back : forall r, inr w r -> exists r0, inr w r0 /\ step0 w poly r0 = r.
Proof.
  intros r Hr. destruct (Z.testbit r 0) eqn:Hb.
  - destruct (even_step (Z.lxor r poly)) as (r0 & H0 & E & _).
    + apply inr_lxor; [lia|assumption|exact Hpoly].
    + rewrite Z.lxor_spec, Hb, Hodd. reflexivity.
    + exists (Z.lxor r0 (2 ^ (w - 1))). split; [apply inr_lxor; [lia|assumption|apply top_inr; lia]|].
      rewrite (step0_lin w poly Hw), E, step0_top. rewrite Z.lxor_assoc, Z.lxor_nilpotent, Z.lxor_0_r. reflexivity.
  - destruct (even_step r Hr Hb) as (r0 & H0 & E & _). eauto.
Qed.

Lemma steps_back : forall n r, inr w r -> exists r0, inr w r0 /\ steps w poly n r0 = r.
Proof.
  induction n as [|n IH]; intros r Hr; [exists r; split; [assumption|reflexivity]|].
  destruct (IH r Hr) as (r1 & H1 & E1). destruct (step_back r1 H1) as (r0 & H0 & E0). exists r0. split; [assumption|]. rewrite steps_S, E0. exact E1.
Qed.

End Back.

(** *** A number at the end of the message *)
Lemma num_app : forall a b, num (a ++ b) = num a * 2 ^ zlen b + num b.
Proof.
  induction a as [|x a IH]; intros b; [cbn; lia|]. cbn [app num]. rewrite IH. unfold zlen. rewrite app_length, Nat2Z.inj_add, Z.pow_add_r by lia. destruct x; lia.
Qed.

Lemma number_app : forall a b, number (a ++ b) = number a + 256 ^ zlen a * number b.
Proof.
  induction a as [|x a IH]; intros b; [cbn [app number]; change (256 ^ zlen (@nil Z)) with 1; lia|].
  cbn [app number]. rewrite IH. unfold zlen. cbn [length]. rewrite Nat2Z.inj_succ, Z.pow_succ_r by lia. lia.
Qed.

Lemma zlen_bits : forall x, zlen (message_bits x) = 8 * zlen x.
Proof. intros x. unfold zlen. rewrite message_bits_length. lia. Qed.

Lemma num_message : forall x, message x -> num (message_bits x) = number (layout BE x).
Proof.
  cbn [layout]. induction 1 as [|b x Hb Hx IH]; [reflexivity|]. cbn [message_bits flat_map rev]. fold (message_bits x).
  rewrite num_app, num_byte_bits by exact Hb. rewrite IH, number_app, zlen_bits. cbn [number].
  replace (256 ^ zlen (rev x)) with (2 ^ (8 * zlen x)); [lia|]. rewrite Z.pow_mul_r by (pose proof (zlen_nonneg _ x); lia). unfold zlen. rewrite rev_length. reflexivity.
Qed.

Lemma message_rev : forall x, message x -> Forall SerializerSpec.is_byte (rev x).
Proof. intros x H. apply Forall_rev. exact H. Qed.

Section Suffix.
Variables (n : nat) (poly : Z).
Let w := 8 * Z.of_nat n.
Hypothesis Hn : (1 <= n)%nat.
Hypothesis Hpoly : 0 <= poly < 2 ^ w.
Hypothesis Hodd : Z.testbit poly 0 = true.

Lemma Hw8 : 8 <= w. Proof. unfold w. lia. Qed.
Lemma pow_256 : 256 ^ Z.of_nat n = 2 ^ w. Proof. unfold w. rewrite Z.pow_mul_r by lia. reflexivity. Qed.

Lemma value_range : forall x, message x -> length x = n -> inr w (number (layout BE x)).
Proof. intros x Hx Hl. unfold inr. rewrite <- pow_256. pose proof (number_range (rev x) (message_rev x Hx)) as R. rewrite rev_length, Hl in R. exact R. Qed.

Lemma serial_suffix : forall x r, message x -> length x = n ->
  serial_crc w poly r (message_bits x) = steps w poly (8 * n) (Z.lxor r (number (layout BE x))).
Proof.
  intros x r Hx Hl. pose proof Hw8. assert (Lx : zlen (message_bits x) = w) by (rewrite zlen_bits; unfold zlen, w; lia).
  rewrite (serial_load w poly) by lia. rewrite message_bits_length, Hl, num_message by exact Hx. rewrite Lx, Z.sub_diag, Z.mul_1_r. reflexivity.
Qed.

Lemma steps_0_iff : forall k r, inr w r -> steps w poly k r = 0 <-> r = 0.
Proof. intros k r Hr. pose proof Hw8. split; [apply (steps_ker w poly); auto; lia|intros ->; apply (steps_0 w poly); lia]. Qed.

(** The register is 0 after the suffix exactly when the suffix is the register's value before it. *)
Lemma suffix_zero : forall x r, message x -> length x = n -> inr w r ->
  serial_crc w poly r (message_bits x) = 0 <-> number (layout BE x) = r.
Proof.
  intros x r Hx Hl Hr. pose proof Hw8. rewrite serial_suffix by assumption. rewrite steps_0_iff.
  - split; intros E; [symmetry; apply (lxor_0_eq _ _ E)|rewrite E; apply Z.lxor_nilpotent].
  - apply inr_lxor; [lia|assumption|now apply value_range].
Qed.

Lemma suffix_unique : forall r t, inr w r -> inr w t ->
  exists x, (message x /\ length x = n /\ serial_crc w poly r (message_bits x) = t) /\
    forall y, message y /\ length y = n /\ serial_crc w poly r (message_bits y) = t -> x = y.
Proof.
  intros r t Hr Ht. pose proof Hw8 as H8. destruct (steps_back w poly H8 Hpoly Hodd (8 * n) t Ht) as (r0 & H0 & E).
  set (v := Z.lxor r r0). assert (Hv : inr w v) by (apply inr_lxor; [lia|assumption..]).
  assert (Nv : number (layout BE (rev (digits n v))) = v).
  { cbn [layout]. rewrite rev_involutive, number_digits, pow_256. apply Z.mod_small. exact Hv. }
  assert (Mv : message (rev (digits n v))) by (apply Forall_rev; exact (digits_bytes n v)).
  assert (Lv : length (rev (digits n v)) = n) by (rewrite rev_length; apply digits_length).
  assert (Sv : serial_crc w poly r (message_bits (rev (digits n v))) = t).
  { rewrite serial_suffix by assumption. rewrite Nv. unfold v. rewrite <- Z.lxor_assoc, Z.lxor_nilpotent, Z.lxor_0_l. exact E. }
  exists (rev (digits n v)). split; [auto|].
  intros y (My & Ly & Ey). rewrite <- (rev_involutive y). f_equal.
  rewrite <- (digits_number (rev y)) by (apply message_rev; exact My). rewrite rev_length, Ly. f_equal.
  change (number (rev y)) with (number (layout BE y)).
  assert (X : Z.lxor r v = Z.lxor r (number (layout BE y))).
  { apply (steps_inj w poly H8 Hpoly Hodd (8 * n)).
    - apply inr_lxor; [lia|assumption..].
    - apply inr_lxor; [lia|assumption|now apply value_range].
    - rewrite <- (serial_suffix y) by assumption. rewrite Ey. rewrite <- Nv at 1. rewrite <- serial_suffix by assumption. exact Sv. }
  apply (f_equal (Z.lxor r)) in X. rewrite <- !Z.lxor_assoc, Z.lxor_nilpotent, !Z.lxor_0_l in X. exact X.
Qed.

End Suffix.

(** *** The two functions *)
Lemma crc32_of : forall m init, message m -> 0 <= init < 2 ^ 32 -> crc32 m (zlen m) init = Done (serial_crc 32 CRC32_POLY init (message_bits m)).
Proof. intros m init Hm Hi. rewrite <- (app_nil_r m) at 1. apply crc32_serial_l; assumption. Qed.
Lemma crc16_of : forall m init, message m -> 0 <= init < 2 ^ 16 -> crc16_ccitt m (zlen m) init = Done (serial_crc 16 CRC16_POLY init (message_bits m)).
Proof. intros m init Hm Hi. rewrite <- (app_nil_r m) at 1. apply crc16_serial_l; assumption. Qed.
Lemma serial32_inr : forall m init, 0 <= init < 2 ^ 32 -> inr 32 (serial_crc 32 CRC32_POLY init (message_bits m)).
Proof. intros. apply serial_inr; [lia|exact p32|assumption]. Qed.
Lemma serial16_inr : forall m init, 0 <= init < 2 ^ 16 -> inr 16 (serial_crc 16 CRC16_POLY init (message_bits m)).
Proof. intros. apply serial_inr; [lia|exact p16|assumption]. Qed.

Lemma crc32_check_l : forall m x init c, message m -> message x -> length x = 4%nat -> 0 <= init < 2 ^ 32 ->
  crc32 m (zlen m) init = Done c ->
  (crc32 (m ++ x) (zlen (m ++ x)) init = Done 0 <-> number (layout BE x) = c).
Proof.
  intros m x init c Hm Hx Hl Hi E. rewrite crc32_of in E by assumption. injection E as <-.
  rewrite crc32_of by (try assumption; now apply Forall_app). rewrite message_bits_app, serial_app.
  rewrite <- (suffix_zero 4 CRC32_POLY ltac:(lia) p32 eq_refl x _ Hx Hl (serial32_inr m init Hi)). change (8 * Z.of_nat 4) with 32. split; [intros H; now injection H|congruence].
Qed.
Lemma crc16_check_l : forall m x init c, message m -> message x -> length x = 2%nat -> 0 <= init < 2 ^ 16 ->
  crc16_ccitt m (zlen m) init = Done c ->
  (crc16_ccitt (m ++ x) (zlen (m ++ x)) init = Done 0 <-> number (layout BE x) = c).
Proof.
  intros m x init c Hm Hx Hl Hi E. rewrite crc16_of in E by assumption. injection E as <-.
  rewrite crc16_of by (try assumption; now apply Forall_app). rewrite message_bits_app, serial_app.
  rewrite <- (suffix_zero 2 CRC16_POLY ltac:(lia) p16 eq_refl x _ Hx Hl (serial16_inr m init Hi)). change (8 * Z.of_nat 2) with 16. split; [intros H; now injection H|congruence].
Qed.

Lemma crc32_frame_l : forall m mid init, message m -> zlen mid = 4 -> 0 <= init < 2 ^ 32 ->
  exists c frame, crc32 (m ++ mid) (zlen m) init = Done c /\ serialize W32 BE (m ++ mid) (zlen m) c = Done (frame, 4) /\
    zlen frame = zlen m + 4 /\ firstn (length m) frame = m /\ message frame /\
    crc32 frame (zlen frame) init = Done 0.
Proof.
  intros m mid init Hm Hl Hi. set (c := serial_crc 32 CRC32_POLY init (message_bits m)). pose proof (serial32_inr m init Hi) as Hc. fold c in Hc.
  exists c, (m ++ layout BE (digits 4 c)). split; [apply crc32_serial_l; assumption|].
  pose proof (serialize_layout_l W32 BE m mid [] c Hl Hc) as E. rewrite !app_nil_r in E.
  assert (Md : message (layout BE (digits 4 c))) by (cbn [layout]; apply Forall_rev; exact (digits_bytes 4 c)).
  assert (Ld : length (layout BE (digits 4 c)) = 4%nat) by (cbn [layout]; rewrite rev_length; apply digits_length).
  split; [exact E|]. split; [unfold zlen; rewrite app_length, Ld; lia|]. split; [rewrite firstn_app, Nat.sub_diag, firstn_all; cbn [firstn]; now rewrite app_nil_r|].
  split; [now apply Forall_app|]. apply (crc32_check_l m _ init c); auto.
  - apply crc32_of; assumption.
  - cbn [layout]. rewrite rev_involutive, number_digits. apply Z.mod_small. exact Hc.
Qed.
Lemma crc16_frame_l : forall m mid init, message m -> zlen mid = 2 -> 0 <= init < 2 ^ 16 ->
  exists c frame, crc16_ccitt (m ++ mid) (zlen m) init = Done c /\ serialize W16 BE (m ++ mid) (zlen m) c = Done (frame, 2) /\
    zlen frame = zlen m + 2 /\ firstn (length m) frame = m /\ message frame /\
    crc16_ccitt frame (zlen frame) init = Done 0.
Proof.
  intros m mid init Hm Hl Hi. set (c := serial_crc 16 CRC16_POLY init (message_bits m)). pose proof (serial16_inr m init Hi) as Hc. fold c in Hc.
  exists c, (m ++ layout BE (digits 2 c)). split; [apply crc16_serial_l; assumption|].
  pose proof (serialize_layout_l W16 BE m mid [] c Hl Hc) as E. rewrite !app_nil_r in E.
  assert (Md : message (layout BE (digits 2 c))) by (cbn [layout]; apply Forall_rev; exact (digits_bytes 2 c)).
  assert (Ld : length (layout BE (digits 2 c)) = 2%nat) by (cbn [layout]; rewrite rev_length; apply digits_length).
  split; [exact E|]. split; [unfold zlen; rewrite app_length, Ld; lia|]. split; [rewrite firstn_app, Nat.sub_diag, firstn_all; cbn [firstn]; now rewrite app_nil_r|].
  split; [now apply Forall_app|]. apply (crc16_check_l m _ init c); auto.
  - apply crc16_of; assumption.
  - cbn [layout]. rewrite rev_involutive, number_digits. apply Z.mod_small. exact Hc.
Qed.

Lemma crc32_frame_burst_l : forall f g init s, message f -> message g -> length f = length g -> 0 <= init < 2 ^ 32 ->
  crc32 f (zlen f) init = Done 0 -> g <> f -> differ_within s 32 (message_bits f) (message_bits g) ->
  exists c, crc32 g (zlen g) init = Done c /\ c <> 0.
Proof.
  intros f g init s Hf Hg Hl Hi E N D. eexists. split; [apply crc32_of; assumption|].
  intros X. apply (crc32_burst_l f g init s 0 0 Hf Hg Hl Hi); auto. rewrite crc32_of by assumption. now rewrite X.
Qed.
Lemma crc16_frame_burst_l : forall f g init s, message f -> message g -> length f = length g -> 0 <= init < 2 ^ 16 ->
  crc16_ccitt f (zlen f) init = Done 0 -> g <> f -> differ_within s 16 (message_bits f) (message_bits g) ->
  exists c, crc16_ccitt g (zlen g) init = Done c /\ c <> 0.
Proof.
  intros f g init s Hf Hg Hl Hi E N D. eexists. split; [apply crc16_of; assumption|].
  intros X. apply (crc16_burst_l f g init s 0 0 Hf Hg Hl Hi); auto. rewrite crc16_of by assumption. now rewrite X.
Qed.

Lemma crc32_suffix_l : forall m init t, message m -> 0 <= init < 2 ^ 32 -> 0 <= t < 2 ^ 32 ->
  exists! x, message x /\ length x = 4%nat /\ crc32 (m ++ x) (zlen (m ++ x)) init = Done t.
Proof.
  intros m init t Hm Hi Ht. destruct (suffix_unique 4 CRC32_POLY ltac:(lia) p32 eq_refl _ t (serial32_inr m init Hi) Ht) as (x & (Mx & Lx & Ex) & U).
  assert (S : forall y, message y -> crc32 (m ++ y) (zlen (m ++ y)) init = Done (serial_crc 32 CRC32_POLY (serial_crc 32 CRC32_POLY init (message_bits m)) (message_bits y))).
  { intros y My. rewrite crc32_of by (try assumption; now apply Forall_app). now rewrite message_bits_app, serial_app. }
  exists x. split; [repeat split; auto; rewrite S by assumption; f_equal; exact Ex|].
  intros y (My & Ly & Ey). apply U. repeat split; auto. rewrite S in Ey by assumption. now injection Ey.
Qed.
Lemma crc16_suffix_l : forall m init t, message m -> 0 <= init < 2 ^ 16 -> 0 <= t < 2 ^ 16 ->
  exists! x, message x /\ length x = 2%nat /\ crc16_ccitt (m ++ x) (zlen (m ++ x)) init = Done t.
Proof.
  intros m init t Hm Hi Ht. destruct (suffix_unique 2 CRC16_POLY ltac:(lia) p16 eq_refl _ t (serial16_inr m init Hi) Ht) as (x & (Mx & Lx & Ex) & U).
  assert (S : forall y, message y -> crc16_ccitt (m ++ y) (zlen (m ++ y)) init = Done (serial_crc 16 CRC16_POLY (serial_crc 16 CRC16_POLY init (message_bits m)) (message_bits y))).
  { intros y My. rewrite crc16_of by (try assumption; now apply Forall_app). now rewrite message_bits_app, serial_app. }
  exists x. split; [repeat split; auto; rewrite S by assumption; f_equal; exact Ex|].
  intros y (My & Ly & Ey). apply U. repeat split; auto. rewrite S in Ey by assumption. now injection Ey.
Qed.

(** *** Linearity *)
Definition xors (a b : list bool) : list bool := map (fun p => xorb (fst p) (snd p)) (combine a b).

Lemma xors_app : forall a b c d, length a = length c -> xors (a ++ b) (c ++ d) = xors a c ++ xors b d.
Proof.
  induction a as [|x a IH]; intros b [|y c] d H; cbn [length] in H; try discriminate; [reflexivity|]. unfold xors in *. cbn. f_equal. apply IH. lia.
Qed.

Lemma xor_bits : forall m1 m2, length m1 = length m2 -> message_bits (xor_blocks m1 m2) = xors (message_bits m1) (message_bits m2).
Proof.
  induction m1 as [|a m1 IH]; intros [|b m2] H; cbn [length] in H; try discriminate; [reflexivity|].
  cbn [xor_blocks message_bits flat_map]. fold (message_bits (xor_blocks m1 m2)) (message_bits m1) (message_bits m2). rewrite xors_app by reflexivity.
  rewrite IH by lia. f_equal. unfold byte_bits, xors. cbn [map combine fst snd]. rewrite !Z.lxor_spec. reflexivity.
Qed.

Lemma xor_message : forall m1 m2, message m1 -> message m2 -> message (xor_blocks m1 m2).
Proof.
  induction m1 as [|a m1 IH]; intros [|b m2] H1 H2; cbn [xor_blocks]; try constructor; inversion H1; inversion H2; subst.
  - unfold is_byte in *. apply (inr_lxor 8); [lia|assumption..].
  - apply IH; assumption.
Qed.

Lemma xor_length : forall m1 m2, length m1 = length m2 -> length (xor_blocks m1 m2) = length m1.
Proof. induction m1 as [|a m1 IH]; intros [|b m2] H; cbn in *; try discriminate; auto. Qed.

Lemma crc32_linear_l : forall m1 m2 i1 i2 c1 c2, message m1 -> message m2 -> length m1 = length m2 -> 0 <= i1 < 2 ^ 32 -> 0 <= i2 < 2 ^ 32 ->
  crc32 m1 (zlen m1) i1 = Done c1 -> crc32 m2 (zlen m2) i2 = Done c2 ->
  crc32 (xor_blocks m1 m2) (zlen m1) (Z.lxor i1 i2) = Done (Z.lxor c1 c2).
Proof.
  intros m1 m2 i1 i2 c1 c2 H1 H2 Hl I1 I2 E1 E2. rewrite crc32_of in E1, E2 by assumption. injection E1 as <-. injection E2 as <-.
  replace (zlen m1) with (zlen (xor_blocks m1 m2)) by (unfold zlen; rewrite xor_length by assumption; reflexivity).
  rewrite crc32_of by first [apply xor_message; assumption|apply (inr_lxor 32); [lia|assumption|assumption]]. f_equal. rewrite xor_bits by assumption.
  apply (serial_lin 32 CRC32_POLY); [lia|]. rewrite !message_bits_length. lia.
Qed.
Lemma crc16_linear_l : forall m1 m2 i1 i2 c1 c2, message m1 -> message m2 -> length m1 = length m2 -> 0 <= i1 < 2 ^ 16 -> 0 <= i2 < 2 ^ 16 ->
  crc16_ccitt m1 (zlen m1) i1 = Done c1 -> crc16_ccitt m2 (zlen m2) i2 = Done c2 ->
  crc16_ccitt (xor_blocks m1 m2) (zlen m1) (Z.lxor i1 i2) = Done (Z.lxor c1 c2).
Proof.
  intros m1 m2 i1 i2 c1 c2 H1 H2 Hl I1 I2 E1 E2. rewrite crc16_of in E1, E2 by assumption. injection E1 as <-. injection E2 as <-.
  replace (zlen m1) with (zlen (xor_blocks m1 m2)) by (unfold zlen; rewrite xor_length by assumption; reflexivity).
  rewrite crc16_of by first [apply xor_message; assumption|apply (inr_lxor 16); [lia|assumption|assumption]]. f_equal. rewrite xor_bits by assumption.
  apply (serial_lin 16 CRC16_POLY); [lia|]. rewrite !message_bits_length. lia.
Qed.

(** Different initial values never meet. *)
Lemma xors_self : forall b, xors b b = repeat false (length b).
Proof. induction b as [|x b IH]; [reflexivity|]. unfold xors in *. cbn. rewrite IH, xorb_nilpotent. reflexivity. Qed.

Lemma serial_init_inj : forall w poly bits a b, 8 <= w -> 0 <= poly < 2 ^ w -> Z.testbit poly 0 = true -> inr w a -> inr w b ->
  serial_crc w poly a bits = serial_crc w poly b bits -> a = b.
Proof.
  intros w poly bits a b Hw Hp Ho Ha Hb E. pose proof (serial_lin w poly Hw bits bits a b eq_refl) as L. fold (xors bits bits) in L. rewrite E, Z.lxor_nilpotent, xors_self, serial_false in L.
  apply lxor_0_eq. apply (steps_ker w poly Hw Hp Ho (length bits)); [apply inr_lxor; [lia|assumption..]|exact L].
Qed.

Lemma crc_init_l : forall m i1 i2, message m ->
  (0 <= i1 < 2 ^ 32 -> 0 <= i2 < 2 ^ 32 -> crc32 m (zlen m) i1 = crc32 m (zlen m) i2 -> i1 = i2) /\
  (0 <= i1 < 2 ^ 16 -> 0 <= i2 < 2 ^ 16 -> crc16_ccitt m (zlen m) i1 = crc16_ccitt m (zlen m) i2 -> i1 = i2).
Proof.
  intros m i1 i2 Hm. split; intros I1 I2 E.
  - rewrite !crc32_of in E by assumption. injection E as E. revert E. apply serial_init_inj; [lia|exact p32|reflexivity|assumption..].
  - rewrite !crc16_of in E by assumption. injection E as E. revert E. apply serial_init_inj; [lia|exact p16|reflexivity|assumption..].
Qed.
