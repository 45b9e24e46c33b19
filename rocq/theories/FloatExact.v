(** Floating point operations are exact whenever their result is a number of the format. *)
From Verif Require Import Base Float FloatProofs FloatSpec.
From Coq Require Import Floats.SpecFloat ZifyBool.

Lemma same_iff : forall a i b j c, c <= i -> c <= j -> (same_number a i b j <-> a * 2 ^ (i - c) = b * 2 ^ (j - c)).
Proof.
  intros a i b j c Hi Hj. unfold same_number. set (d := Z.min i j). assert (Hd : c <= d <= i /\ d <= j) by lia. clearbody d.
  replace (i - c) with (i - d + (d - c)) by lia. replace (j - c) with (j - d + (d - c)) by lia. rewrite !Z.pow_add_r by lia.
  assert (P : 0 < 2 ^ (d - c)) by (apply Z.pow_pos_nonneg; lia). rewrite !Z.mul_assoc. split; [congruence|]. intros H.
  apply Z.mul_reg_r in H; [exact H|lia].
Qed.

Lemma same_refl : forall a i, same_number a i a i.
Proof. reflexivity. Qed.

Lemma same_sym : forall a i b j, same_number a i b j -> same_number b j a i.
Proof. intros a i b j. rewrite (same_iff a i b j (Z.min i j)), (same_iff b j a i (Z.min i j)) by lia. congruence. Qed.

Lemma same_trans : forall a i b j c k, same_number a i b j -> same_number b j c k -> same_number a i c k.
Proof.
  intros a i b j c k. set (d := Z.min i (Z.min j k)).
  rewrite (same_iff a i b j d), (same_iff b j c k d), (same_iff a i c k d) by lia. congruence.
Qed.

Lemma same_add : forall a i b j c d e, same_number a i c e -> same_number b j d e -> forall f, f <= i -> f <= j ->
  same_number (a * 2 ^ (i - f) + b * 2 ^ (j - f)) f (c + d) e.
Proof.
  intros a i b j c d e H1 H2 f Hi Hj. set (g := Z.min f e). rewrite (same_iff _ i _ e g) in H1 by lia. rewrite (same_iff _ j _ e g) in H2 by lia.
  rewrite (same_iff _ f _ e g) by lia. rewrite !Z.mul_add_distr_r, <- !Z.mul_assoc, <- !Z.pow_add_r by lia.
  replace (i - f + (f - g)) with (i - g) by lia. replace (j - f + (f - g)) with (j - g) by lia. congruence.
Qed.

Lemma same_mul : forall a i b j c k d l, same_number a i c k -> same_number b j d l -> same_number (a * b) (i + j) (c * d) (k + l).
Proof.
  intros a i b j c k d l H1 H2. set (f := Z.min i k). set (g := Z.min j l). rewrite (same_iff _ i _ k f) in H1 by lia. rewrite (same_iff _ j _ l g) in H2 by lia.
  rewrite (same_iff _ (i + j) _ (k + l) (f + g)) by lia.
  replace (i + j - (f + g)) with (i - f + (j - g)) by lia. replace (k + l - (f + g)) with (k - f + (l - g)) by lia.
  rewrite !Z.pow_add_r by lia. transitivity (a * 2 ^ (i - f) * (b * 2 ^ (j - g))); [ring|]. rewrite H1, H2. ring.
Qed.

Lemma same_zero : forall a i k, same_number a i 0 k <-> a = 0.
Proof.
  intros a i k. unfold same_number. rewrite Z.mul_0_l. assert (0 < 2 ^ (i - Z.min i k)) by (apply Z.pow_pos_nonneg; lia). nia.
Qed.

Lemma same_opp : forall a i b j, same_number a i b j -> same_number (- a) i (- b) j.
Proof. intros a i b j. unfold same_number. rewrite !Z.mul_opp_l. congruence. Qed.

(** Shifting out zeroes. *)
Lemma iter_shr_exact : forall n q, 0 <= q ->
  iter_pos shr_1 n {| shr_m := q * 2 ^ Zpos n; shr_r := false; shr_s := false |} = {| shr_m := q; shr_r := false; shr_s := false |}.
Proof.
  assert (S1 : forall q, 0 <= q -> shr_1 {| shr_m := q * 2; shr_r := false; shr_s := false |} = {| shr_m := q; shr_r := false; shr_s := false |}).
  { intros q Hq. destruct q as [|p|p]; [reflexivity| |lia]. rewrite Z.mul_comm. reflexivity. }
  assert (P : forall q n, 0 <= q -> 0 <= q * 2 ^ n) by (intros q n Hq; pose proof (Z.pow_nonneg 2 n); nia).
  induction n as [n IH|n IH|]; intros q Hq; cbn [iter_pos].
  - replace (q * 2 ^ Zpos n~1) with (q * 2 ^ Zpos n * 2 ^ Zpos n * 2).
    2: { rewrite (Pos2Z.inj_xI n). replace (2 * Zpos n + 1) with (Zpos n + Zpos n + 1) by lia. rewrite !Z.pow_add_r by lia. change (2 ^ 1) with 2. ring. }
    rewrite S1, IH, IH by auto. reflexivity.
  - replace (q * 2 ^ Zpos n~0) with (q * 2 ^ Zpos n * 2 ^ Zpos n).
    2: { rewrite (Pos2Z.inj_xO n). replace (2 * Zpos n) with (Zpos n + Zpos n) by lia. rewrite !Z.pow_add_r by lia. ring. }
    rewrite IH, IH by auto. reflexivity.
  - change (2 ^ 1) with 2. now apply S1.
Qed.

Section Format.
Variables prec emax : Z.
Hypothesis Hprec : 1 < prec.

Notation fexp := (SpecFloat.fexp prec emax).

Lemma fexp_eq : forall x, fexp x = Z.max (x - prec) (3 - emax - prec).
Proof. reflexivity. Qed.

(** The number of digits does not depend on the exponent. *)
Lemma same_digits : forall m e z k, same_number (Zpos m) e (Zpos z) k ->
  Zpos (digits2_pos m) + e = Zpos (digits2_pos z) + k.
Proof.
  intros m e z k H. unfold same_number in H. destruct (Z.le_gt_cases e k) as [He|He].
  - rewrite Z.min_l, Z.sub_diag, Z.mul_1_r in H by lia. destruct (k - e) as [|d|d] eqn:Ed; [| |lia].
    + assert (m = z) by lia. subst. lia.
    + assert (m = shift_pos d z) by (apply Pos2Z.inj; rewrite shift_pos_mul; exact H). subst m. rewrite digits_shift. lia.
  - rewrite Z.min_r, Z.sub_diag, Z.mul_1_r in H by lia. destruct (e - k) as [|d|d] eqn:Ed; [lia| |lia].
    assert (z = shift_pos d m) by (apply Pos2Z.inj; rewrite shift_pos_mul; symmetry; exact H). subst z. rewrite digits_shift. lia.
Qed.

Lemma round_aux_exact : forall s m e z k, same_number (Zpos m) e (Zpos z) k -> in_format prec emax (Zpos z) k -> e <= fexp (Zpos (digits2_pos m) + e) ->
  worth (binary_round_aux prec emax s (Zpos m) e loc_Exact) (if s then Zneg z else Zpos z) k.
Proof using Hprec.
  intros s m e z k H [Hz Hk] He. pose proof (same_digits _ _ _ _ H) as Hd. pose proof (digits_le z prec ltac:(lia) ltac:(lia)) as Hdz.
  set (e' := fexp (Zpos (digits2_pos m) + e)) in *. assert (Hk' : e' <= k) by (unfold e'; rewrite fexp_eq; lia).
  set (q := Zpos z * 2 ^ (k - e')). assert (Hq : 0 < q) by (unfold q; assert (0 < 2 ^ (k - e')) by (apply Z.pow_pos_nonneg; lia); lia).
  assert (Hm : Zpos m = q * 2 ^ (e' - e)).
  { rewrite (same_iff _ e _ k e) in H by lia. rewrite Z.sub_diag, Z.mul_1_r in H. rewrite H. unfold q. rewrite <- Z.mul_assoc, <- Z.pow_add_r by lia.
    f_equal. f_equal. lia. }
  assert (R1 : shr_fexp prec emax (Zpos m) e loc_Exact = ({| shr_m := q; shr_r := false; shr_s := false |}, e')).
  { unfold shr_fexp. cbn [Zdigits2 shr_record_of_loc]. fold e'. rewrite Hm. clearbody q. unfold shr. destruct (e' - e) as [|n|n] eqn:En; [| |lia].
    - change (2 ^ 0) with 1. rewrite Z.mul_1_r. f_equal. lia.
    - rewrite iter_shr_exact by lia. f_equal. lia. }
  unfold binary_round_aux. rewrite R1. cbn [shr_m loc_of_shr_record round_nearest_even].
  destruct q as [|p|p] eqn:Eq; try lia.
  assert (Hs : same_number (Zpos p) e' (Zpos z) k).
  { rewrite (same_iff _ e' _ k e') by lia. rewrite Z.sub_diag, Z.mul_1_r. rewrite <- Eq. reflexivity. }
  pose proof (same_digits _ _ _ _ Hs) as Hdp.
  assert (R2 : shr_fexp prec emax (Zpos p) e' loc_Exact = ({| shr_m := Zpos p; shr_r := false; shr_s := false |}, e')).
  { unfold shr_fexp. cbn [Zdigits2 shr_record_of_loc]. rewrite Hdp, <- Hd. fold e'. rewrite Z.sub_diag. reflexivity. }
  rewrite R2. cbn [shr_m]. replace (e' <=? emax - prec) with true by lia. cbn [worth]. destruct s; [|exact Hs].
  change (Zneg p) with (- Zpos p). change (Zneg z) with (- Zpos z). now apply same_opp.
Qed.

Lemma round_exact : forall s m e z k, same_number (Zpos m) e (Zpos z) k -> in_format prec emax (Zpos z) k ->
  worth (binary_round prec emax s m e) (if s then Zneg z else Zpos z) k.
Proof using Hprec.
  intros s m e z k H Hf. unfold binary_round, shl_align.
  destruct (fexp (Zpos (digits2_pos m) + e) - e) as [|d|d] eqn:E; try (apply round_aux_exact; [exact H|exact Hf|lia]).
  apply round_aux_exact; [|exact Hf|].
  - apply same_trans with (b := Zpos m) (j := e); [|exact H]. set (f := fexp (Zpos (digits2_pos m) + e)) in *.
    rewrite (same_iff _ f _ e f) by lia. rewrite Z.sub_diag, Z.mul_1_r, shift_pos_mul. f_equal. f_equal. lia.
  - rewrite digits_shift. replace (Zpos (digits2_pos m) + Zpos d + fexp (Zpos (digits2_pos m) + e)) with (Zpos (digits2_pos m) + e) by lia. lia.
Qed.

Lemma normalize_exact : forall m e s z k, same_number m e z k -> in_format prec emax z k -> worth (binary_normalize prec emax m e s) z k.
Proof using Hprec.
  intros m e s z k H Hf. destruct (Z.eq_dec z 0) as [->|Hz].
  - apply same_zero in H. subst m. reflexivity.
  - assert (Hsgn : Z.sgn m = Z.sgn z).
    { unfold same_number in H. apply (f_equal Z.sgn) in H. rewrite !Z.sgn_mul in H.
      rewrite !(Z.sgn_pos (2 ^ _)) in H by (apply Z.pow_pos_nonneg; lia). lia. }
    destruct m as [|m|m], z as [|z|z]; try discriminate; try contradiction; cbn [binary_normalize].
    + exact (round_exact false m e z k H Hf).
    + apply (round_exact true m e z k); [|destruct Hf; split; assumption].
      apply same_opp in H. exact H.
Qed.

Lemma worth_num : forall x z k, worth x z k -> exists a i, worth x a i /\ same_number a i z k /\
  (match x with S754_finite s m e => a = (if s then Zneg m else Zpos m) /\ i = e | _ => a = 0 end).
Proof.
  intros [s|s| |s m e] z k H; try contradiction.
  - exists 0, k. cbn [worth] in *. subst. repeat split.
  - exists (if s then Zneg m else Zpos m), e. repeat split. exact H.
Qed.

(** A float stands for one number. *)
Lemma worth_same : forall x a i b j, worth x a i -> (worth x b j <-> same_number a i b j).
Proof.
  intros [s|s| |s m e] a i b j H; try contradiction; cbn [worth] in *.
  - subst. split; [intros ->; unfold same_number; lia|]. intros H. apply same_sym, same_zero in H. exact H.
  - split; intros H'; [apply (same_trans _ _ _ _ _ _ (same_sym _ _ _ _ H) H')|apply (same_trans _ _ _ _ _ _ H H')].
Qed.

Lemma align_l : forall m e f, f <= e -> Zpos (fst (shl_align m e f)) = Zpos m * 2 ^ (e - f).
Proof.
  intros m e f H. unfold shl_align. destruct (f - e) as [|d|d] eqn:E; cbn [fst]; [| lia |].
  - replace (e - f) with 0 by lia. change (2 ^ 0) with 1. lia.
  - rewrite shift_pos_mul. f_equal. f_equal. lia.
Qed.

Lemma add_exact : forall x y a b k z l, worth x a k -> worth y b k -> same_number (a + b) k z l -> in_format prec emax z l ->
  worth (SFadd prec emax x y) z l.
Proof using Hprec.
  intros x y a b k z l Hx Hy Hs Hf.
  destruct x as [sx|sx| |sx mx ex]; try contradiction; destruct y as [sy|sy| |sy my ey]; try contradiction; cbn [SFadd worth] in *.
  - subst. apply same_sym, same_zero in Hs. destruct (Bool.eqb sx sy); exact Hs.
  - subst a. cbn [worth]. exact (same_trans _ _ _ _ _ _ Hy Hs).
  - subst b. cbn [worth]. rewrite Z.add_0_r in Hs. exact (same_trans _ _ _ _ _ _ Hx Hs).
  - apply normalize_exact; [|exact Hf]. eapply same_trans; [|exact Hs].
    set (f := Z.min ex ey).
    assert (E : forall (s : bool) m e, f <= e -> cond_Zopp s (Zpos (fst (shl_align m e f))) = (if s then Zneg m else Zpos m) * 2 ^ (e - f)).
    { intros s m e He. unfold cond_Zopp. rewrite align_l by exact He. destruct s; [|reflexivity]. change (Zneg m) with (- Zpos m). lia. }
    rewrite !E by lia. apply same_add; [assumption|assumption|lia|lia].
Qed.

Lemma worth_opp : forall x a k, worth x a k -> worth (SFopp x) (- a) k.
Proof.
  intros [s|s| |s m e] a k H; try contradiction; cbn [SFopp worth] in *; [lia|].
  apply same_opp in H. destruct s; exact H.
Qed.

Lemma sub_exact : forall x y a b k z l, worth x a k -> worth y b k -> same_number (a - b) k z l -> in_format prec emax z l ->
  worth (SFsub prec emax x y) z l.
Proof using Hprec.
  intros x y a b k z l Hx Hy Hs Hf.
  assert (E : SFsub prec emax x y = SFadd prec emax x (SFopp y)).
  { destruct x as [sx|sx| |sx mx ex]; try contradiction; destruct y as [sy|sy| |sy my ey]; try contradiction; try reflexivity.
    cbn [SFsub SFadd SFopp]. f_equal. unfold cond_Zopp. destruct sy; cbn [negb]; lia. }
  rewrite E. apply (add_exact x (SFopp y) a (- b) k); auto using worth_opp.
Qed.

Lemma mul_exact : forall x y a i b j z l, number prec emax x -> number prec emax y -> 3 - emax - prec <= 0 -> worth x a i -> worth y b j ->
  same_number (a * b) (i + j) z l -> in_format prec emax z l -> worth (SFmul prec emax x y) z l.
Proof using Hprec.
  intros x y a i b j z l Nx Ny Hmin Hx Hy Hs Hf.
  destruct x as [sx|sx| |sx mx ex]; try contradiction; destruct y as [sy|sy| |sy my ey]; try contradiction; cbn [SFmul worth] in *;
    try (subst; rewrite ?Z.mul_0_l, ?Z.mul_0_r in Hs; apply same_sym, same_zero in Hs; exact Hs).
  pose proof (same_trans _ _ _ _ _ _ (same_mul _ _ _ _ _ _ _ _ Hx Hy) Hs) as H.
  assert (Hz : Z.sgn z = if xorb sx sy then -1 else 1).
  { unfold same_number in H. apply (f_equal Z.sgn) in H. rewrite !Z.sgn_mul in H.
    rewrite !(Z.sgn_pos (2 ^ _)) in H by (apply Z.pow_pos_nonneg; lia). destruct sx, sy; cbn in *; lia. }
  assert (Ez : exists p, z = if xorb sx sy then Zneg p else Zpos p).
  { destruct z as [|p|p]; destruct (xorb sx sy); try discriminate; eauto. }
  destruct Ez as (p & ->).
  assert (Hp : same_number (Zpos (mx * my)) (ex + ey) (Zpos p) l).
  { destruct sx, sy; cbn [xorb] in H; try exact H; apply same_opp in H; exact H. }
  assert (Hfp : in_format prec emax (Zpos p) l) by (destruct Hf as [F1 F2]; split; [destruct (xorb sx sy); lia|exact F2]).
  apply round_aux_exact; [exact Hp|exact Hfp|].
  assert (Gx : good prec emax (S754_finite sx mx ex)) by (split; [exact Nx|discriminate]).
  assert (Gy : good prec emax (S754_finite sy my ey)) by (split; [exact Ny|discriminate]).
  apply finite_good in Gx; [|exact Hprec]. apply finite_good in Gy; [|exact Hprec]. destruct Gx as (X1 & X2 & X3), Gy as (Y1 & Y2 & Y3).
  unfold SpecFloat.emin in *. rewrite fexp_eq. assert (P0 : 0 < 2 ^ (prec - 1)) by (apply Z.pow_pos_nonneg; lia).
  assert (3 - emax - prec < ex \/ 3 - emax - prec < ey \/ (ex = 3 - emax - prec /\ ey = 3 - emax - prec)) as [K|[K|[-> ->]]] by lia; [| |lia].
  - specialize (X3 K). pose proof (digits_ge (mx * my) (prec - 1) ltac:(lia) ltac:(nia)). lia.
  - specialize (Y3 K). pose proof (digits_ge (mx * my) (prec - 1) ltac:(lia) ltac:(nia)). lia.
Qed.

(** Comparison. *)
Lemma bigger : forall m1 e1 m2 e2 c, c <= e1 -> Zpos m1 < 2 ^ prec -> 2 ^ (prec - 1) <= Zpos m2 -> e1 < e2 -> Zpos m1 * 2 ^ (e1 - c) < Zpos m2 * 2 ^ (e2 - c).
Proof using Hprec.
  intros m1 e1 m2 e2 c Hc A B L. apply Z.lt_le_trans with (2 ^ prec * 2 ^ (e1 - c)).
  { apply Z.mul_lt_mono_pos_r; [apply Z.pow_pos_nonneg; lia|exact A]. }
  apply Z.le_trans with (2 ^ (prec - 1) * 2 ^ (e2 - c)).
  { rewrite <- !Z.pow_add_r by lia. apply Z.pow_le_mono_r; lia. }
  apply Z.mul_le_mono_nonneg_r; [apply Z.pow_nonneg; lia|exact B].
Qed.

Lemma leb_exact : forall x y a b k, number prec emax x -> number prec emax y -> worth x a k -> worth y b k -> SFleb x y = (a <=? b).
Proof using Hprec.
  intros x y a b k Nx Ny Hx Hy. unfold SFleb.
  assert (P : forall s m e z, same_number (if s : bool then Zneg m else Zpos m) e z k -> Z.sgn z = if s then -1 else 1).
  { intros s m e z H. unfold same_number in H. apply (f_equal Z.sgn) in H. rewrite !Z.sgn_mul in H.
    rewrite !(Z.sgn_pos (2 ^ _)) in H by (apply Z.pow_pos_nonneg; lia). destruct s; cbn in *; lia. }
  assert (C : forall s1 m1 e1 z1 s2 m2 e2 z2, number prec emax (S754_finite s1 m1 e1) -> number prec emax (S754_finite s2 m2 e2) ->
     same_number (Zpos m1) e1 z1 k -> same_number (Zpos m2) e2 z2 k ->
     (match Z.compare e1 e2 with Lt => Lt | Gt => Gt | Eq => Pos.compare_cont Eq m1 m2 end) = (z1 ?= z2)).
  { intros s1 m1 e1 z1 s2 m2 e2 z2 N1 N2 H1 H2. set (c := Z.min (Z.min e1 e2) k). rewrite (same_iff _ e1 _ k c) in H1 by lia. rewrite (same_iff _ e2 _ k c) in H2 by lia.
    assert (Hc : (z1 ?= z2) = (Zpos m1 * 2 ^ (e1 - c) ?= Zpos m2 * 2 ^ (e2 - c))).
    { rewrite H1, H2. apply Zmult_compare_compat_r. assert (0 < 2 ^ (k - c)) by (apply Z.pow_pos_nonneg; lia). lia. }
    rewrite Hc. clear H1 H2 Hc z1 z2.
    assert (G1 : good prec emax (S754_finite s1 m1 e1)) by (split; [exact N1|discriminate]).
    assert (G2 : good prec emax (S754_finite s2 m2 e2)) by (split; [exact N2|discriminate]).
    apply finite_good in G1; [|exact Hprec]. apply finite_good in G2; [|exact Hprec]. destruct G1 as (X1 & X2 & X3), G2 as (Y1 & Y2 & Y3).
    assert (D := fun m1 e1 m2 e2 => bigger m1 e1 m2 e2 c).
    destruct (Z.compare_spec e1 e2) as [->|L|L].
    - change (Pos.compare_cont Eq m1 m2) with (Zpos m1 ?= Zpos m2). symmetry. rewrite <- (Zmult_compare_compat_r _ _ (2 ^ (e2 - c))); [reflexivity|].
      assert (0 < 2 ^ (e2 - c)) by (apply Z.pow_pos_nonneg; lia). lia.
    - symmetry. apply Z.compare_lt_iff. apply D; try lia.
    - symmetry. apply Z.compare_gt_iff. apply D; try lia. }
  destruct x as [sx|sx| |sx mx ex]; try contradiction; destruct y as [sy|sy| |sy my ey]; try contradiction; cbn [SFcompare worth] in *.
  - subst. symmetry. apply Z.leb_refl.
  - apply P in Hy. destruct sy; lia.
  - apply P in Hx. destruct sx; lia.
  - pose proof (P _ _ _ _ Hx). pose proof (P _ _ _ _ Hy). destruct sx, sy; try lia.
    + assert (E := C true mx ex (- a) true my ey (- b) Nx Ny (same_opp _ _ _ _ Hx) (same_opp _ _ _ _ Hy)).
      rewrite Z.compare_opp in E.
      transitivity (match CompOpp (b ?= a) with Gt => false | _ => true end).
      * rewrite <- E. destruct (ex ?= ey); reflexivity.
      * rewrite <- Z.compare_antisym. unfold Z.leb. destruct (a ?= b); reflexivity.
    + rewrite (C false mx ex a false my ey b Nx Ny Hx Hy). unfold Z.leb. destruct (a ?= b); reflexivity.
Qed.

(** Cutting to an integer. *)
Lemma trunc_exact : forall x z k, worth x z k -> trunc x = Some (if 0 <=? k then z * 2 ^ k else Z.quot z (2 ^ (- k))).
Proof.
  intros [s|s| |s m e] z k H; try contradiction; cbn [trunc worth] in *.
  - subst. destruct (0 <=? k); f_equal.
  - f_equal.
    assert (Hsg : Z.sgn z = if s then -1 else 1).
    { unfold same_number in H. apply (f_equal Z.sgn) in H. rewrite !Z.sgn_mul in H.
      rewrite !(Z.sgn_pos (2 ^ _)) in H by (apply Z.pow_pos_nonneg; lia). destruct s; cbn in *; lia. }
    assert (Hp : same_number (Zpos m) e (Z.abs z) k).
    { destruct s; [apply same_opp in H; replace (Z.abs z) with (- z) by lia; exact H|replace (Z.abs z) with z by lia; exact H]. }
    assert (A : (if 0 <=? e then Zpos m * 2 ^ e else Zpos m / 2 ^ (- e)) = if 0 <=? k then Z.abs z * 2 ^ k else Z.abs z / 2 ^ (- k)).
    { set (c := Z.min 0 (Z.min e k)). rewrite (same_iff _ _ _ _ c) in Hp by lia.
      assert (Q : forall a i, c <= i -> (if 0 <=? i then a * 2 ^ i else a / 2 ^ (- i)) = a * 2 ^ (i - c) / 2 ^ (- c)).
      { clear. intros a i Hi. assert (Hc : c <= 0) by lia. clearbody c. destruct (Z.leb_spec 0 i).
        - replace (i - c) with (i + - c) by lia. rewrite Z.pow_add_r by lia. rewrite Z.mul_assoc, Z.div_mul; [reflexivity|]. apply Z.pow_nonzero; lia.
        - replace (- c) with (- i + (i - c)) by lia. rewrite Z.pow_add_r by lia. rewrite Z.div_mul_cancel_r; [reflexivity|apply Z.pow_nonzero; lia|apply Z.pow_nonzero; lia]. }
      rewrite !Q by lia. now rewrite Hp. }
    rewrite A. destruct (Z.leb_spec 0 k).
    + destruct s; nia.
    + assert (0 < 2 ^ (- k)) by (apply Z.pow_pos_nonneg; lia). destruct s.
      * replace z with (- Z.abs z) at 2 by lia. rewrite Z.quot_opp_l by lia. rewrite Z.quot_div_nonneg by lia. reflexivity.
      * replace z with (Z.abs z) at 2 by lia. rewrite Z.quot_div_nonneg by lia. reflexivity.
Qed.

End Format.
