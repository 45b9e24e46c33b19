(** Order of sums, differences and products of all floating point values, infinite ones included. *)
From Verif Require Import Base Float FloatProofs FloatSpec FloatExact FloatRound FloatStep.
From Coq Require Import Floats.SpecFloat ZifyBool.

(** Not above, unless one is not a number. *)
Definition below (x y : spec_float) : Prop := x <> S754_nan -> y <> S754_nan -> SFleb x y = true.

Lemma below_refl : forall x, below x x.
Proof. intros x H _. now apply leb_refl_. Qed.

Lemma below_leb : forall x y, SFleb x y = true -> below x y.
Proof. intros x y H _ _. exact H. Qed.

Lemma sub_opp : forall prec emax x y, SFsub prec emax x y = SFadd prec emax x (SFopp y).
Proof.
  intros prec emax x y.
  destruct x as [sx|sx| |sx mx ex], y as [sy|sy| |sy my ey]; try reflexivity; destruct sx, sy; reflexivity.
Qed.

Section Format.
Variables prec emax : Z.
Hypothesis Hprec : 1 < prec.
Hypothesis Hemax : prec < emax.
Hypothesis Hmin : 3 - emax - prec <= 0.

Notation num := (number prec emax).
Notation norm := (binary_normalize prec emax).

Lemma opp_num : forall x, num x -> num (SFopp x).
Proof. intros [] H; exact H. Qed.

Lemma add_num : forall x y, num x -> num y -> num (SFadd prec emax x y).
Proof using Hprec Hemax.
  intros x y Nx Ny.
  destruct x as [sx|sx| |sx mx ex] eqn:Ex, y as [sy|sy| |sy my ey] eqn:Ey; cbn [SFadd]; try reflexivity; try assumption;
    try (destruct (Bool.eqb _ _); reflexivity). apply norm_num. exact Hprec.
Qed.

Lemma sub_num : forall x y, num x -> num y -> num (SFsub prec emax x y).
Proof using Hprec Hemax. intros x y Nx Ny. rewrite sub_opp. auto using add_num, opp_num. Qed.

Lemma mul_num : forall x y, num x -> num y -> num (SFmul prec emax x y).
Proof using Hprec Hemax Hmin.
  intros x y Nx Ny.
  destruct x as [sx|sx| |sx mx ex] eqn:Ex, y as [sy|sy| |sy my ey] eqn:Ey; try reflexivity. subst.
  destruct (like_mul prec emax Hprec Hemax _ _ _ _ _ _ Hmin Nx Ny (worth_self (S754_finite sx mx ex) Logic.I) (worth_self (S754_finite sy my ey) Logic.I)) as [H _]. exact H.
Qed.

Lemma opp_below : forall x y, num x -> num y -> below x y -> below (SFopp y) (SFopp x).
Proof using Hprec Hemax.
  intros x y Nx Ny H A B. specialize (H ltac:(destruct x; try discriminate; now elim B) ltac:(destruct y; try discriminate; now elim A)).
  assert (K : (is_finite x /\ is_finite y) \/ ~ is_finite x \/ ~ is_finite y) by (destruct x, y; cbn; tauto).
  destruct K as [[Fx Fy]|K].
  - set (c := Z.min (exponent x) (exponent y)).
    pose proof (worth_at x c Fx ltac:(lia)) as Wx. pose proof (worth_at y c Fy ltac:(lia)) as Wy.
    rewrite (leb_exact prec emax Hprec _ _ _ _ _ Nx Ny Wx Wy) in H.
    assert (O : forall z a k, worth z a k -> worth (SFopp z) (- a) k).
    { intros [s|s| |s m e] a k W; try contradiction; cbn [worth SFopp] in *; [lia|]. unfold same_number in *.
      destruct s; cbn [negb]; [change (Zneg m) with (- Zpos m) in W|change (Zneg m) with (- Zpos m)]; lia. }
    rewrite (leb_exact prec emax Hprec _ _ _ _ _ (opp_num y Ny) (opp_num x Nx) (O _ _ _ Wy) (O _ _ _ Wx)). lia.
  - destruct x as [sx|[]| |[] mx ex], y as [sy|[]| |[] my ey]; cbn in K; try tauto; try discriminate H; try reflexivity; now elim A || now elim B.
Qed.

Lemma add_below : forall x1 y1 x2 y2, num x1 -> num x2 -> num y1 -> num y2 -> below x1 x2 -> below y1 y2 ->
  below (SFadd prec emax x1 y1) (SFadd prec emax x2 y2).
Proof using Hprec Hemax.
  intros x1 y1 x2 y2 N1 N2 M1 M2 Hx Hy A B.
  assert (X1 : x1 <> S754_nan) by (intros ->; now apply A). assert (X2 : x2 <> S754_nan) by (intros ->; now apply B).
  assert (Y1 : y1 <> S754_nan) by (intros ->; destruct x1; now apply A). assert (Y2 : y2 <> S754_nan) by (intros ->; destruct x2; now apply B).
  specialize (Hx X1 X2). specialize (Hy Y1 Y2).
  assert (K : (is_finite x1 /\ is_finite x2) \/ ~ is_finite x1 \/ ~ is_finite x2) by (destruct x1, x2; cbn; tauto).
  destruct K as [[F1 F2]|K]; [now apply add_mono|].
  assert (Top : forall z, z <> S754_nan -> SFleb z (S754_infinity false) = true) by (intros [s|[]| |[] m e] Hz; try reflexivity; congruence).
  assert (Bot : forall z, z <> S754_nan -> SFleb (S754_infinity true) z = true) by (intros [s|[]| |[] m e] Hz; try reflexivity; congruence).
  assert (P : forall z, SFadd prec emax (S754_infinity false) z <> S754_nan -> SFadd prec emax (S754_infinity false) z = S754_infinity false)
    by (intros [s|[]| |s m e] Hz; cbn in *; congruence).
  assert (Q : forall z, SFadd prec emax (S754_infinity true) z <> S754_nan -> SFadd prec emax (S754_infinity true) z = S754_infinity true)
    by (intros [s|[]| |s m e] Hz; cbn in *; congruence).
  assert (C : x1 = S754_infinity true \/ x2 = S754_infinity false).
  { destruct x1 as [s1|[]| |[] m1 e1], x2 as [s2|[]| |[] m2 e2]; cbn in K; try tauto; try discriminate Hx; congruence. }
  destruct C as [->| ->].
  - rewrite Q by exact A. now apply Bot.
  - rewrite P by exact B. now apply Top.
Qed.

Lemma sub_below : forall x1 y1 x2 y2, num x1 -> num x2 -> num y1 -> num y2 -> below x1 x2 -> below y2 y1 ->
  below (SFsub prec emax x1 y1) (SFsub prec emax x2 y2).
Proof using Hprec Hemax. intros. rewrite !sub_opp. apply add_below; auto using opp_num, opp_below. Qed.

Lemma mul_below : forall k x y, num k -> num x -> num y -> SFleb (S754_zero false) k = true -> below x y ->
  below (SFmul prec emax k x) (SFmul prec emax k y).
Proof using Hprec Hemax Hmin.
  intros k x y Nk Nx Ny Hk H A B.
  assert (X : x <> S754_nan) by (intros ->; destruct k; now apply A). assert (Y : y <> S754_nan) by (intros ->; destruct k; now apply B).
  specialize (H X Y).
  assert (K : (is_finite k /\ is_finite x /\ is_finite y) \/ k = S754_infinity false \/ (is_finite k /\ (~ is_finite x \/ ~ is_finite y))).
  { destruct k as [s|[]| |[] m e]; try discriminate Hk; destruct x, y; cbn; tauto. }
  destruct K as [(Fk & Fx & Fy)|[->|(Fk & K)]].
  - apply (mul_mono prec emax Hprec Hemax k x y _ _ _ _ _ _ Hmin Nk Nx Ny (worth_self k Fk) (worth_self x Fx) (worth_self y Fy)).
    + apply (leb_le prec emax Hprec Hemax (S754_zero false) k eq_refl Nk Logic.I Fk) in Hk. apply le_sgn in Hk. cbn [mantissa] in Hk. cbn in Hk. lia.
    + now apply (leb_le prec emax Hprec Hemax x y Nx Ny Fx Fy).
  - destruct x as [sx|[]| |[] mx ex], y as [sy|[]| |[] my ey]; cbn in *; try reflexivity; try discriminate H; congruence.
  - destruct k as [s|s| |[] m e]; try contradiction; try discriminate Hk.
    + destruct x as [sx|sx| |sx mx ex], y as [sy|sy| |sy my ey]; cbn in K; try tauto; cbn in *; congruence.
    + set (k := S754_finite false m e) in *.
      assert (Top : forall z, z <> S754_nan -> SFleb z (S754_infinity false) = true) by (intros [sz|[]| |[] mz ez] Hz; try reflexivity; congruence).
      assert (Bot : forall z, z <> S754_nan -> SFleb (S754_infinity true) z = true) by (intros [sz|[]| |[] mz ez] Hz; try reflexivity; congruence).
      assert (C : x = S754_infinity true \/ y = S754_infinity false).
      { destruct x as [s1|[]| |[] m1 e1], y as [s2|[]| |[] m2 e2]; cbn in K; try tauto; try discriminate H; congruence. }
      destruct C as [->| ->]; [now apply Bot|now apply Top].
Qed.

(** With gradual underflow the difference of two numbers is 0 only if they are equal. *)
Lemma sub_nonzero : forall x y s, num x -> num y -> SFeqb x y = false -> SFsub prec emax x y <> S754_zero s.
Proof using Hprec Hemax Hmin.
  intros x y s Nx Ny H E.
  assert (K : (is_finite x /\ is_finite y) \/ ~ is_finite x \/ ~ is_finite y) by (destruct x, y; cbn; tauto).
  destruct K as [[Fx Fy]|K]; [|destruct x as [|[]| |], y as [|[]| |]; cbn in K; try tauto; discriminate E].
  set (c := 3 - emax - prec).
  assert (G : forall z, num z -> is_finite z -> c <= exponent z).
  { intros [sz|sz| |sz mz ez] Nz Fz; try contradiction; cbn [exponent]; [unfold c; lia|].
    destruct (num_format prec emax Hprec sz mz ez Nz) as [[_ Q] _]. unfold c. lia. }
  pose proof (worth_at x c Fx (G x Nx Fx)) as Wx. pose proof (worth_at y c Fy (G y Ny Fy)) as Wy.
  set (a := mantissa x * 2 ^ (exponent x - c)) in *. set (b := mantissa y * 2 ^ (exponent y - c)) in *. clearbody a b.
  assert (Nab : a <> b).
  { intros ->. assert (L1 := leb_exact prec emax Hprec x y b b c Nx Ny Wx Wy). assert (L2 := leb_exact prec emax Hprec y x b b c Ny Nx Wy Wx).
    rewrite Z.leb_refl in L1, L2. unfold SFeqb, SFleb in *.
    assert (Sw : SFcompare y x = option_map CompOpp (SFcompare x y)).
    { clear. destruct x as [sx|sx| |sx mx ex], y as [sy|sy| |sy my ey]; try destruct sx; try destruct sy; try reflexivity; cbn [SFcompare option_map]; f_equal;
      rewrite (Z.compare_antisym ex ey); destruct (ex ?= ey); cbn [CompOpp]; try reflexivity; change (Pos.compare_cont Eq ?a ?b) with (Pos.compare a b);
      rewrite (Pos.compare_antisym mx my); reflexivity. }
    rewrite Sw in L2. destruct (SFcompare x y) as [[]|]; discriminate. }
  assert (Wo : worth (SFopp y) (- b) c).
  { clear - Wy. destruct y as [t|t| |t m e]; try contradiction; cbn [worth SFopp] in *; [lia|]. unfold same_number in *.
    destruct t; cbn [negb]; [change (Zneg m) with (- Zpos m) in Wy|change (Zneg m) with (- Zpos m)]; lia. }
  pose proof (like_add prec emax Hprec Hemax x (SFopp y) a (- b) c Nx (opp_num y Ny) Wx Wo) as L. rewrite <- sub_opp, E in L.
  assert (U : forall u, Z.abs u = 1 -> worth (norm u c false) u c).
  { intros u Hu. apply normalize_exact; [exact Hprec|apply same_refl|]. split; [rewrite Hu; apply Z.pow_gt_1; lia|unfold c; lia]. }
  pose proof (fun u => proj1 (norm_num prec emax Hprec u c false)) as Nu.
  assert (Wz : worth (S754_zero s) 0 c) by reflexivity.
  assert (Nz : num (S754_zero s)) by reflexivity.
  destruct (Z.lt_trichotomy a b) as [T|[T|T]]; [|contradiction|].
  - assert (Q : SFleb (S754_zero s) (norm (-1) c false) = true).
    { apply (like_mono prec emax Hprec Hemax _ _ c _ (-1) c L (like_norm prec emax Hprec Hemax (-1) c false (-1) c (same_refl _ _))).
      unfold le_number. rewrite Z.min_id, Z.sub_diag. change (2 ^ 0) with 1. lia. }
    rewrite (leb_exact prec emax Hprec _ _ _ _ _ Nz (Nu (-1)) Wz (U (-1) eq_refl)) in Q. discriminate Q.
  - assert (Q : SFleb (norm 1 c false) (S754_zero s) = true).
    { apply (like_mono prec emax Hprec Hemax _ 1 c _ _ c (like_norm prec emax Hprec Hemax 1 c false 1 c (same_refl _ _)) L).
      unfold le_number. rewrite Z.min_id, Z.sub_diag. change (2 ^ 0) with 1. lia. }
    rewrite (leb_exact prec emax Hprec _ _ _ _ _ (Nu 1) Nz (U 1 eq_refl) Wz) in Q. discriminate Q.
Qed.

End Format.
