(** Sums in floating point: order, progress, absorption. *)
From Verif Require Import Base Float FloatProofs FloatSpec FloatExact FloatRound.
From Coq Require Import Floats.SpecFloat ZifyBool.

Section Format.
Variables prec emax : Z.
Hypothesis Hprec : 1 < prec.
Hypothesis Hemax : prec < emax.

Notation num := (number prec emax).
Notation norm := (binary_normalize prec emax).

Lemma norm_num : forall a i s, num (norm a i s) /\ norm a i s <> S754_nan.
Proof using Hprec. intros a i s. exact (proj1 (normalize_good prec emax Hprec a i s)). Qed.

Lemma leb_refl_ : forall x, x <> S754_nan -> SFleb x x = true.
Proof.
  intros [[]|[]| |[] m e] N; try congruence; try reflexivity; unfold SFleb, SFcompare;
    rewrite Z.compare_refl; fold (m ?= m)%positive; rewrite Pos.compare_refl; reflexivity.
Qed.

Lemma leb_trans : forall x y z, num x -> num y -> num z -> SFleb x y = true -> SFleb y z = true -> SFleb x z = true.
Proof using Hprec Hemax.
  intros x y z Nx Ny Nz H1 H2.
  assert (K : (is_finite x /\ is_finite y /\ is_finite z) \/ x = S754_infinity true \/ z = S754_infinity false \/
    y = S754_infinity true \/ y = S754_infinity false \/ x = S754_infinity false \/ z = S754_infinity true).
  { destruct x as [sx|[]| |sx mx ex], y as [sy|[]| |sy my ey], z as [sz|[]| |sz mz ez]; cbn [is_finite]; try discriminate; tauto. }
  destruct K as [(Fx & Fy & Fz)|[->|[->|[->|[->|[->| ->]]]]]].
  - rewrite (leb_le prec emax Hprec Hemax) in * by assumption. exact (le_trans _ _ _ _ _ _ H1 H2).
  - destruct z as [sz|[]| |[] mz ez]; try reflexivity. destruct y as [sy|[]| |[] my ey]; discriminate H2.
  - destruct x as [sx|[]| |[] mx ex]; try reflexivity. discriminate H1.
  - destruct x as [sx|[]| |[] mx ex]; try discriminate H1. exact H2.
  - destruct z as [sz|[]| |[] mz ez]; try discriminate H2. exact H1.
  - destruct y as [sy|[]| |[] my ey]; try discriminate H1. exact H2.
  - destruct y as [sy|[]| |[] my ey]; try discriminate H2. exact H1.
Qed.

(** [x] compares like the rounded a * 2^i. *)
Definition like (x : spec_float) (a i : Z) : Prop :=
  num x /\ x <> S754_nan /\ SFleb x (norm a i false) = true /\ SFleb (norm a i false) x = true.

Lemma like_mono : forall x a i y b j, like x a i -> like y b j -> le_number a i b j -> SFleb x y = true.
Proof using Hprec Hemax.
  intros x a i y b j (Nx & _ & X1 & _) (Ny & _ & _ & Y2) H. pose proof (norm_num a i false) as [Na _]. pose proof (norm_num b j false) as [Nb _].
  apply (leb_trans x (norm a i false) y Nx Na Ny X1). apply (leb_trans _ (norm b j false) _ Na Nb Ny); [|exact Y2].
  now apply normalize_mono.
Qed.

Lemma like_norm : forall c k s a i, same_number c k a i -> like (norm c k s) a i.
Proof using Hprec Hemax.
  intros c k s a i H. pose proof (norm_num c k s) as [N1 N2]. split; [exact N1|]. split; [exact N2|].
  split; apply normalize_mono; try assumption; apply le_same; [exact H|now apply same_sym].
Qed.

Lemma num_format : forall s m e, num (S754_finite s m e) -> in_format prec emax (if s then Zneg m else Zpos m) e /\
  SpecFloat.fexp prec emax (Zpos (digits2_pos m) + e) = e /\ (3 - emax - prec < e -> 2 ^ (prec - 1) <= Zpos m).
Proof using Hprec.
  intros s m e N.
  destruct (finite_good prec emax Hprec s m e) as (X1 & X2 & X3); [split; [exact N|discriminate]|].
  unfold SpecFloat.emin in *. split; [unfold in_format; destruct s; cbn [Z.abs]; lia|]. split; [|exact X3].
  unfold number in N. cbn [valid_binary] in N. unfold bounded, canonical_mantissa in N. apply andb_prop in N as [N _]. now apply Zeq_bool_eq.
Qed.

Lemma like_self : forall x a i, num x -> worth x a i -> like x a i.
Proof using Hprec Hemax.
  intros x a i N W.
  assert (Wn : worth (norm a i false) (mantissa x) (exponent x)).
  { destruct x as [s|s| |s m e]; try contradiction; cbn [worth mantissa exponent] in *.
    - subst. reflexivity.
    - apply normalize_exact; [exact Hprec|now apply same_sym|]. exact (proj1 (num_format s m e N)). }
  assert (Fx : is_finite x) by (destruct x; try contradiction; exact I).
  pose proof (worth_self x Fx) as Wx. pose proof (norm_num a i false) as [Na _].
  assert (G : forall u v, num u -> num v -> worth u (mantissa x) (exponent x) -> worth v (mantissa x) (exponent x) -> SFleb u v = true).
  { intros u v Nu Nv Wu Wv. rewrite (leb_exact prec emax Hprec u v _ _ _ Nu Nv Wu Wv). lia. }
  split; [exact N|]. split; [destruct x; try contradiction; discriminate|]. split; apply G; assumption.
Qed.

Lemma like_add : forall x y a b c, num x -> num y -> worth x a c -> worth y b c -> like (SFadd prec emax x y) (a + b) c.
Proof using Hprec Hemax.
  intros x y a b c Nx Ny Hx Hy.
  destruct x as [sx|sx| |sx mx ex]; try contradiction; destruct y as [sy|sy| |sy my ey]; try contradiction; cbn [SFadd].
  - cbn [worth] in *. subst. destruct (Bool.eqb sx sy); apply like_self; reflexivity.
  - assert (a = 0) by exact Hx. subst. apply like_self; assumption.
  - assert (b = 0) by exact Hy. subst. rewrite Z.add_0_r. apply like_self; assumption.
  - apply like_norm. cbn [worth] in *. set (f := Z.min ex ey).
    assert (E : forall (s : bool) m e, f <= e -> cond_Zopp s (Zpos (fst (shl_align m e f))) = (if s then Zneg m else Zpos m) * 2 ^ (e - f)).
    { intros s m e He. unfold cond_Zopp. rewrite align_l by exact He. destruct s; [|reflexivity]. change (Zneg m) with (- Zpos m). lia. }
    rewrite !E by lia. apply same_add; [assumption|assumption|lia|lia].
Qed.

Lemma like_mul : forall x y a i b j, 3 - emax - prec <= 0 -> num x -> num y -> worth x a i -> worth y b j -> like (SFmul prec emax x y) (a * b) (i + j).
Proof using Hprec Hemax.
  intros x y a i b j Hmin Nx Ny Wx Wy.
  destruct (mul_normalize prec emax Hprec Hemax x y a i b j Hmin Nx Ny Wx Wy) as (c & k & s & -> & S). now apply like_norm.
Qed.

(** Sums are monotone in both summands; the second may be infinite. *)
Lemma add_mono : forall v1 p1 v2 p2, num v1 -> num v2 -> num p1 -> num p2 -> is_finite v1 -> is_finite v2 ->
  SFleb v1 v2 = true -> SFleb p1 p2 = true -> SFleb (SFadd prec emax v1 p1) (SFadd prec emax v2 p2) = true.
Proof using Hprec Hemax.
  intros v1 p1 v2 p2 N1 N2 M1 M2 F1 F2 Hv Hp.
  assert (L : forall v b, is_finite v -> SFadd prec emax v (S754_infinity b) = S754_infinity b) by (intros [] b F; try contradiction; reflexivity).
  assert (NN : forall v p, num v -> num p -> is_finite v -> is_finite p -> SFadd prec emax v p <> S754_nan).
  { intros v p Nv Np Fv Fp. set (c := Z.min (exponent v) (exponent p)).
    apply (like_add v p _ _ c Nv Np (worth_at v c Fv ltac:(lia)) (worth_at p c Fp ltac:(lia))). }
  assert (K : (is_finite p1 /\ is_finite p2) \/ p1 = S754_infinity true \/ p2 = S754_infinity false).
  { destruct p1 as [s1|[]| |[] m1 e1], p2 as [s2|[]| |[] m2 e2]; cbn [is_finite]; try discriminate; tauto. }
  destruct K as [(G1 & G2)|[->| ->]].
  - set (c := Z.min (Z.min (exponent v1) (exponent p1)) (Z.min (exponent v2) (exponent p2))).
    pose proof (worth_at v1 c F1 ltac:(lia)) as W1. pose proof (worth_at v2 c F2 ltac:(lia)) as W2.
    pose proof (worth_at p1 c G1 ltac:(lia)) as W3. pose proof (worth_at p2 c G2 ltac:(lia)) as W4.
    rewrite (leb_exact prec emax Hprec _ _ _ _ _ N1 N2 W1 W2) in Hv. rewrite (leb_exact prec emax Hprec _ _ _ _ _ M1 M2 W3 W4) in Hp.
    apply (like_mono _ _ c _ _ c (like_add _ _ _ _ _ N1 M1 W1 W3) (like_add _ _ _ _ _ N2 M2 W2 W4)).
    rewrite (le_iff _ _ _ _ c) by lia. rewrite Z.sub_diag. change (2 ^ 0) with 1. lia.
  - rewrite L by exact F1. assert (X : SFadd prec emax v2 p2 <> S754_nan).
    { destruct p2 as [s2|s2| |s2 m2 e2] eqn:E; try discriminate Hp; try (apply NN; [assumption|assumption|assumption|exact I]).
      rewrite L by exact F2. discriminate. }
    destruct (SFadd prec emax v2 p2) as [|[]| |[]]; try reflexivity. congruence.
  - rewrite L by exact F2. assert (X : SFadd prec emax v1 p1 <> S754_nan).
    { destruct p1 as [s2|s2| |s2 m2 e2] eqn:E; try (apply NN; [assumption|assumption|assumption|exact I]).
      - rewrite L by exact F1. discriminate.
      - discriminate Hp. }
    destruct (SFadd prec emax v1 p1) as [|[]| |[]]; try reflexivity. congruence.
Qed.

(** Adding something that is not negative does not make less. *)
Lemma add_up : forall v p, num v -> num p -> is_finite v -> SFleb (S754_zero false) p = true -> SFleb v (SFadd prec emax v p) = true.
Proof using Hprec Hemax.
  intros v p Nv Np Fv Hp.
  assert (Z0 : num (S754_zero false)) by reflexivity.
  assert (Nn : v <> S754_nan) by (destruct v; try contradiction; discriminate).
  pose proof (add_mono v (S754_zero false) v p Nv Nv Z0 Np Fv Fv (leb_refl_ v Nn) Hp) as H.
  destruct v as [[]|s| |s m e]; try contradiction; exact H.
Qed.

Lemma add_down : forall v p, num v -> num p -> is_finite v -> SFleb p (S754_zero false) = true -> SFleb (SFadd prec emax v p) v = true.
Proof using Hprec Hemax.
  intros v p Nv Np Fv Hp.
  assert (Z0 : num (S754_zero false)) by reflexivity.
  assert (Nn : v <> S754_nan) by (destruct v; try contradiction; discriminate).
  pose proof (add_mono v p v (S754_zero false) Nv Nv Np Z0 Fv Fv (leb_refl_ v Nn) Hp) as H.
  destruct v as [[]|s| |s m e]; try contradiction; exact H.
Qed.

(** A multiple of a non-negative number. *)
Lemma product_mono : forall s d1 d2, 3 - emax - prec <= 0 -> 32 < emax -> num s -> is_finite s -> SFleb (S754_zero false) s = true ->
  Z.abs d1 < 2 ^ 32 -> Z.abs d2 < 2 ^ 32 -> d1 <= d2 ->
  SFleb (SFmul prec emax s (norm d1 0 false)) (SFmul prec emax s (norm d2 0 false)) = true.
Proof using Hprec Hemax.
  intros s d1 d2 Hmin H32 Ns Fs Ps B1 B2 Hd.
  assert (F : forall d, Z.abs d < 2 ^ 32 -> is_finite (norm d 0 false)).
  { intros d B. apply (proj2 (normalize_good prec emax Hprec d 0 false) 32); try lia. unfold SpecFloat.emin. lia. }
  pose proof (norm_num d1 0 false) as [N1 _]. pose proof (norm_num d2 0 false) as [N2 _].
  pose proof (worth_self s Fs) as Ws. pose proof (worth_self _ (F d1 B1)) as W1. pose proof (worth_self _ (F d2 B2)) as W2.
  apply (mul_mono prec emax Hprec Hemax s _ _ _ _ _ _ _ _ Hmin Ns N1 N2 Ws W1 W2).
  - apply (leb_le prec emax Hprec Hemax (S754_zero false) s eq_refl Ns I Fs) in Ps. cbn [mantissa exponent] in Ps.
    apply le_sgn in Ps. cbn in Ps. lia.
  - apply (leb_le prec emax Hprec Hemax _ _ N1 N2 (F d1 B1) (F d2 B2)). apply normalize_mono; try assumption.
    rewrite (le_iff _ _ _ _ 0) by lia. change (2 ^ (0 - 0)) with 1. lia.
Qed.

Lemma product_zero : forall s, is_finite s -> SFleb (S754_zero false) (SFmul prec emax s (norm 0 0 false)) = true /\
  SFleb (SFmul prec emax s (norm 0 0 false)) (S754_zero false) = true.
Proof using. intros [b|b| |b m e] F; try contradiction; cbn; split; reflexivity. Qed.

Lemma product_num : forall s d, 3 - emax - prec <= 0 -> 32 < emax -> num s -> is_finite s -> Z.abs d < 2 ^ 32 ->
  num (SFmul prec emax s (norm d 0 false)).
Proof using Hprec Hemax.
  intros s d Hmin H32 Ns Fs B.
  assert (F : is_finite (norm d 0 false)).
  { apply (proj2 (normalize_good prec emax Hprec d 0 false) 32); try lia. unfold SpecFloat.emin. lia. }
  pose proof (norm_num d 0 false) as [N1 _].
  apply (like_mul s _ _ _ _ _ Hmin Ns N1 (worth_self s Fs) (worth_self _ F)).
Qed.

(** ** Progress *)

(** Exponent of the last place; of the smallest number for 0. *)
Definition place (v : spec_float) : Z := match v with S754_finite _ _ e => e | _ => 3 - emax - prec end.

Lemma next_above : forall v, num v -> is_finite v -> SFleb (norm (mantissa v * 2 ^ (exponent v - place v) + 1) (place v) false) v = false.
Proof using Hprec Hemax.
  intros v N F. destruct (SFleb _ v) eqn:E; [exfalso|reflexivity].
  destruct v as [s|s| |s m e]; try contradiction; cbn [mantissa exponent place] in *.
  - rewrite Z.mul_0_l, Z.add_0_l in E.
    assert (W : worth (norm 1 (3 - emax - prec) false) 1 (3 - emax - prec)).
    { apply normalize_exact; [exact Hprec|apply same_refl|]. unfold in_format. split; [|lia]. cbn. apply Z.pow_gt_1; lia. }
    assert (W0 : worth (S754_zero s) 0 (3 - emax - prec)) by reflexivity.
    rewrite (leb_exact prec emax Hprec _ _ _ _ _ (proj1 (norm_num _ _ _)) N W W0) in E. lia.
  - destruct (num_format s m e N) as ([HM HE] & _ & _). rewrite Z.sub_diag, Z.mul_1_r in E.
    set (z := if s then Zneg m else Zpos m) in *. assert (Wv : worth (S754_finite s m e) z e) by apply same_refl.
    assert (Nn := proj1 (norm_num (z + 1) e false)).
    destruct (Z.eq_dec (z + 1) (2 ^ prec)) as [Ez|Ez].
    + destruct (Z.eq_dec e (emax - prec)) as [He|He].
      * rewrite Ez in E. pose proof (Z.pow_pos_nonneg 2 prec ltac:(lia) ltac:(lia)) as P.
        destruct (2 ^ prec) as [|p|p] eqn:Ep; try lia. cbn [binary_normalize] in E.
        pose proof (round_result prec emax Hprec Hemax false p e) as R.
        assert (D : Zpos (digits2_pos p) = prec + 1).
        { pose proof (digits_ge p prec ltac:(lia) ltac:(lia)). pose proof (digits_le p (prec + 1) ltac:(lia)) as D2.
          rewrite Z.pow_add_r in D2 by lia. change (2 ^ 1) with 2 in D2. lia. }
        assert (U : unit prec emax p e = e + 1) by (unfold unit, SpecFloat.fexp, SpecFloat.emin; rewrite D; lia).
        rewrite U in R. assert (Q : in_units (Zpos p) e (e + 1) = 2 ^ (prec - 1)).
        { rewrite (in_units_iff _ _ _ e) by lia. rewrite Z.sub_diag. change (2 ^ 0) with 1. rewrite Z.mul_1_r.
          replace (Zpos p) with (2 ^ (prec - 1) * 2 ^ 1) by (rewrite <- Ep, <- Z.pow_add_r by lia; f_equal; lia).
          replace (e + 1 - e) with (0 + 1) by lia. rewrite rne_scale by lia. apply rne_0. }
        rewrite Q in R.
        assert (G : le_number 1 emax (2 ^ (prec - 1)) (e + 1)).
        { rewrite (le_iff _ _ _ _ (e + 1)) by lia. rewrite Z.sub_diag. change (2 ^ 0) with 1. rewrite Z.mul_1_l, Z.mul_1_r.
          apply Z.pow_le_mono_r; lia. }
        destruct (binary_round prec emax false p e) as [t|t| |t n f]; cbn [result] in R.
        -- destruct R as [_ R]. pose proof (Z.pow_pos_nonneg 2 (prec - 1) ltac:(lia) ltac:(lia)). lia.
        -- destruct R as [-> _]. destruct s; discriminate E.
        -- contradiction.
        -- tauto.
      * assert (S1 : same_number (z + 1) e (2 ^ (prec - 1)) (e + 1)).
        { rewrite (same_iff _ _ _ _ e) by lia. rewrite Ez, Z.sub_diag. replace (e + 1 - e) with 1 by lia.
          change (2 ^ 0) with 1. rewrite Z.mul_1_r, <- Z.pow_add_r by lia. f_equal. lia. }
        assert (W : worth (norm (z + 1) e false) (2 ^ (prec - 1)) (e + 1)).
        { apply normalize_exact; [exact Hprec|exact S1|]. split; [|lia]. rewrite Z.abs_eq by (apply Z.pow_nonneg; lia). apply Z.pow_lt_mono_r; lia. }
        assert (W' : worth (norm (z + 1) e false) (z + 1) e) by (apply (worth_same _ _ _ _ _ W); now apply same_sym).
        rewrite (leb_exact prec emax Hprec _ _ _ _ _ Nn N W' Wv) in E. lia.
    + assert (W : worth (norm (z + 1) e false) (z + 1) e).
      { apply normalize_exact; [exact Hprec|apply same_refl|]. split; [|exact HE]. lia. }
      rewrite (leb_exact prec emax Hprec _ _ _ _ _ Nn N W Wv) in E. lia.
Qed.

(** Adding a unit in the last place or more makes more. *)
Lemma add_progress : forall v p b j, num v -> num p -> is_finite v -> worth p b j -> le_number 1 (place v) b j ->
  SFleb (SFadd prec emax v p) v = false.
Proof using Hprec Hemax.
  intros v p b j Nv Np Fv Wp H. destruct (SFleb _ v) eqn:E; [exfalso|reflexivity].
  assert (Fp : is_finite p) by (destruct p; try contradiction; exact I).
  set (c := Z.min (Z.min (exponent v) (place v)) (Z.min (exponent p) j)).
  assert (He : place v <= exponent v \/ mantissa v = 0) by (destruct v; cbn; try contradiction; lia).
  pose proof (worth_at v c Fv ltac:(lia)) as Wv. pose proof (worth_at p c Fp ltac:(lia)) as Wp'.
  pose proof (like_add v p _ _ c Nv Np Wv Wp') as L.
  set (n := norm (mantissa v * 2 ^ (exponent v - place v) + 1) (place v) false).
  assert (Ln : like n (mantissa v * 2 ^ (exponent v - place v) + 1) (place v)) by (apply like_norm, same_refl).
  assert (Sb : b * 2 ^ (j - c) = mantissa p * 2 ^ (exponent p - c)).
  { pose proof (proj1 (worth_same p b j _ c Wp) Wp') as S. rewrite (same_iff _ _ _ _ c) in S by lia. rewrite Z.sub_diag in S. change (2 ^ 0) with 1 in S. lia. }
  assert (X : SFleb n (SFadd prec emax v p) = true).
  { apply (like_mono _ _ _ _ _ _ Ln L). rewrite (le_iff _ _ _ _ c) by lia. rewrite Z.sub_diag. change (2 ^ 0) with 1. rewrite Z.mul_1_r.
    rewrite (le_iff _ _ _ _ c) in H by lia.
    assert (V : mantissa v * 2 ^ (exponent v - place v) * 2 ^ (place v - c) = mantissa v * 2 ^ (exponent v - c)).
    { destruct He as [He|He]; [|rewrite He; reflexivity]. rewrite <- Z.mul_assoc, <- Z.pow_add_r by lia. do 2 f_equal. lia. }
    lia. }
  assert (Y : SFleb n v = true) by (apply (leb_trans _ (SFadd prec emax v p)); [apply Ln|apply L|exact Nv|exact X|assumption]).
  unfold n in Y. rewrite next_above in Y by assumption. discriminate.
Qed.

(** ** Absorption *)

Lemma unique : forall x y a i, num x -> num y -> worth x a i -> worth y a i -> a <> 0 -> x = y.
Proof using Hprec.
  intros x y a i Nx Ny Wx Wy Ha.
  destruct x as [s|s| |s m e]; try contradiction.
  destruct y as [t|t| |t n f]; try contradiction.
  destruct (num_format _ _ _ Nx) as (_ & E1 & _). destruct (num_format _ _ _ Ny) as (_ & E2 & _). cbn [worth] in *.
  pose proof (same_trans _ _ _ _ _ _ Wx (same_sym _ _ _ _ Wy)) as S.
  assert (St : s = t).
  { unfold same_number in S. assert (0 < 2 ^ (e - Z.min e f)) by (apply Z.pow_pos_nonneg; lia). assert (0 < 2 ^ (f - Z.min e f)) by (apply Z.pow_pos_nonneg; lia).
    destruct s, t; try reflexivity; exfalso; nia. }
  subst t. assert (S' : same_number (Zpos m) e (Zpos n) f) by (destruct s; [apply same_opp in S; exact S|exact S]).
  pose proof (same_digits _ _ _ _ S') as D. rewrite <- D in E2. assert (e = f) by congruence. clear E1 E2 D. subst f.
  rewrite (same_iff _ _ _ _ e) in S' by lia. rewrite Z.sub_diag in S'. change (2 ^ 0) with 1 in S'. f_equal. lia.
Qed.

Lemma rne_close : forall q r n, 1 <= n -> 2 * Z.abs r < 2 ^ n -> rne (q * 2 ^ n + r) n = q.
Proof using.
  intros q r n Hn Hr. assert (P : 0 < 2 ^ n) by (apply Z.pow_pos_nonneg; lia).
  pose proof (rne_near (q * 2 ^ n + r) n ltac:(lia)) as H. set (x := rne _ n) in *. clearbody x.
  assert (2 * Z.abs (x * 2 ^ n - q * 2 ^ n) < 2 * 2 ^ n) by lia.
  assert (Z.abs ((x - q) * 2 ^ n) < 1 * 2 ^ n) by (rewrite Z.mul_sub_distr_r; lia).
  rewrite Z.abs_mul, (Z.abs_eq (2 ^ n)) in * by lia. apply Z.mul_lt_mono_pos_r in H1; lia.
Qed.

(** Less than a quarter of the last place is lost. *)
Lemma absorb_pos : forall m e c r, num (S754_finite false m e) -> c < e - 2 -> 4 * Z.abs r < 2 ^ (e - c) ->
  norm (Zpos m * 2 ^ (e - c) + r) c false = S754_finite false m e.
Proof using Hprec Hemax.
  intros m e c r N Hc Hr. destruct (num_format _ _ _ N) as ([HM HE] & E1 & E2).
  set (k := e - c) in *. assert (P : 0 < 2 ^ k) by (apply Z.pow_pos_nonneg; lia).
  assert (Hk : 2 ^ k = 4 * 2 ^ (k - 2)) by (change 4 with (2 ^ 2); rewrite <- Z.pow_add_r by lia; f_equal; lia).
  assert (Hk1 : 2 ^ k = 2 * 2 ^ (k - 1)) by (change 2 with (2 ^ 1) at 2; rewrite <- Z.pow_add_r by lia; f_equal; lia).
  assert (Q : 0 < Zpos m * 2 ^ k + r) by nia.
  destruct (Zpos m * 2 ^ k + r) as [|S|S] eqn:ES; try lia. cbn [binary_normalize].
  pose proof (digits_bound m) as [B1 B2]. set (d := Zpos (digits2_pos m)) in *.
  assert (D : Zpos (digits2_pos S) + c = d + e \/ Zpos (digits2_pos S) + c = d + e - 1).
  { assert (U1 : Zpos (digits2_pos S) <= d + k).
    { apply digits_le; [lia|]. rewrite Z.pow_add_r by lia.
      pose proof (Z.mul_le_mono_nonneg_r (Zpos m + 1) (2 ^ d) (2 ^ k) ltac:(lia) ltac:(lia)). lia. }
    assert (U2 : d + k - 2 < Zpos (digits2_pos S)).
    { apply digits_ge; [lia|]. replace (d + k - 2) with ((d - 1) + (k - 1)) by lia. rewrite Z.pow_add_r by lia.
      pose proof (Z.mul_le_mono_nonneg_r (2 ^ (d - 1)) (Zpos m) (2 ^ (k - 1)) ltac:(lia) ltac:(lia)).
      pose proof (Z.mul_le_mono_nonneg_r 1 (Zpos m) (2 ^ (k - 1)) ltac:(lia) ltac:(lia)).
      assert (Zpos m * 2 ^ k = 2 * (Zpos m * 2 ^ (k - 1))) by (rewrite Hk1; ring). lia. }
    lia. }
  assert (U : unit prec emax S c = e \/ unit prec emax S c = e - 1).
  { unfold unit. destruct D as [-> | ->]; [left; exact E1|]. unfold SpecFloat.fexp, SpecFloat.emin in *. lia. }
  assert (W : worth (binary_round prec emax false S c) (Zpos m) e).
  { assert (X : same_number (in_units (Zpos S) c (unit prec emax S c)) (unit prec emax S c) (Zpos m) e).
    { destruct U as [-> | ->].
      - rewrite (in_units_iff _ _ _ c) by lia. rewrite Z.sub_diag. change (2 ^ 0) with 1. rewrite Z.mul_1_r, <- ES. fold k.
        rewrite rne_close by lia. apply same_refl.
      - rewrite (in_units_iff _ _ _ c) by lia. rewrite Z.sub_diag. change (2 ^ 0) with 1. rewrite Z.mul_1_r, <- ES.
        replace (e - 1 - c) with (k - 1) by lia. replace (Zpos m * 2 ^ k + r) with (2 * Zpos m * 2 ^ (k - 1) + r) by lia.
        rewrite rne_close by lia. rewrite (same_iff _ _ _ _ (e - 1)) by lia. replace (e - (e - 1)) with 1 by lia.
        rewrite Z.sub_diag. change (2 ^ 0) with 1. change (2 ^ 1) with 2. lia. }
    pose proof (round_result prec emax Hprec Hemax false S c) as R.
    destruct (binary_round prec emax false S c) as [t|t| |t n f]; cbn [result worth] in *.
    - destruct R as [_ R]. rewrite R in X. apply same_sym, same_zero in X. lia.
    - destruct R as [_ R]. pose proof (le_trans _ _ _ _ _ _ R (le_same _ _ _ _ X)) as Y. exfalso.
      rewrite (le_iff _ _ _ _ e) in Y by lia. rewrite Z.sub_diag in Y. change (2 ^ 0) with 1 in Y.
      assert (2 ^ prec <= 2 ^ (emax - e)) by (apply Z.pow_le_mono_r; lia). lia.
    - contradiction.
    - destruct R as (-> & R & _). exact (same_trans _ _ _ _ _ _ R X). }
  apply (unique _ _ (Zpos m) e); [exact (proj1 (norm_num (Zpos S) c false))|exact N|exact W|apply same_refl|lia].
Qed.

Lemma absorb : forall v p b j, num v -> num p -> match v with S754_finite _ _ _ => True | _ => False end ->
  worth p b j -> ~ le_number 1 (place v - 2) (Z.abs b) j -> SFadd prec emax v p = v.
Proof using Hprec Hemax.
  intros v p b j Nv Np Fv Wp H. destruct v as [s|s| |s m e]; try contradiction. cbn [place] in H.
  destruct p as [t|t| |t n f]; try contradiction; [reflexivity|]. cbn [worth SFadd] in *.
  set (x := if t then Zneg n else Zpos n) in *.
  assert (H' : ~ le_number 1 (e - 2) (Z.abs x) f).
  { intros K. apply H. apply (le_trans _ _ _ _ _ _ K), le_same. unfold same_number in *.
    rewrite <- (Z.abs_eq (2 ^ (f - Z.min f j))), <- (Z.abs_eq (2 ^ (j - Z.min f j))) by (apply Z.pow_nonneg; lia).
    rewrite <- !Z.abs_mul. now f_equal. }
  assert (Hf : f < e - 2).
  { destruct (Z.lt_ge_cases f (e - 2)) as [K|K]; [exact K|exfalso]. apply H'. rewrite (le_iff _ _ _ _ (e - 2)) by lia.
    rewrite Z.sub_diag. change (2 ^ 0) with 1. assert (0 < 2 ^ (f - (e - 2))) by (apply Z.pow_pos_nonneg; lia).
    assert (1 <= Z.abs x) by (unfold x; destruct t; cbn; lia). nia. }
  rewrite (le_iff _ _ _ _ f) in H' by lia. rewrite Z.sub_diag in H'. change (2 ^ 0) with 1 in H'.
  rewrite Z.min_r by lia. rewrite (align_l n f f) by lia. rewrite (align_l m e f) by lia. rewrite Z.sub_diag. change (2 ^ 0) with 1. rewrite Z.mul_1_r.
  assert (Hx : 4 * Z.abs x < 2 ^ (e - f)).
  { replace (e - f) with (2 + (e - 2 - f)) by lia. rewrite Z.pow_add_r by lia. change (2 ^ 2) with 4. lia. }
  assert (Np' : num (S754_finite false m e)) by exact Nv.
  destruct s; unfold cond_Zopp.
  - assert (E : forall a i, norm (- a) i false = SFopp (norm a i false) \/ a = 0).
    { intros [|a|a] i; [now right|left|left]; cbn [Z.opp binary_normalize]; rewrite (round_opp prec emax); [reflexivity|].
      now destruct (binary_round prec emax false a i) as [[]|[]| |[]]. }
    replace (- (Zpos m * 2 ^ (e - f)) + (if t then - Zpos n else Zpos n)) with (- (Zpos m * 2 ^ (e - f) + (- x)))
      by (unfold x; destruct t; change (Zneg n) with (- Zpos n); lia).
    destruct (E (Zpos m * 2 ^ (e - f) + (- x)) f) as [-> |K].
    + rewrite absorb_pos; [reflexivity|exact Np'|exact Hf|]. rewrite Z.abs_opp. exact Hx.
    + exfalso. assert (0 < 2 ^ (e - f)) by (apply Z.pow_pos_nonneg; lia). nia.
  - replace (if t then - Zpos n else Zpos n) with x by (unfold x; destruct t; reflexivity).
    apply absorb_pos; assumption.
Qed.

(** ** The other direction *)

Lemma norm_opp : forall a i, a <> 0 -> norm (- a) i false = SFopp (norm a i false).
Proof using.
  intros [|a|a] i Ha; [congruence| |]; cbn [Z.opp binary_normalize]; rewrite (round_opp prec emax); [reflexivity|].
  now destruct (binary_round prec emax false a i) as [[]|[]| |[]].
Qed.

Lemma num_opp : forall v, num v -> num (SFopp v).
Proof using. intros [] N; exact N. Qed.

Lemma next_below : forall v, num v -> is_finite v -> SFleb v (norm (mantissa v * 2 ^ (exponent v - place v) - 1) (place v) false) = false.
Proof using Hprec Hemax.
  intros v N F.
  assert (E : mantissa (SFopp v) = - mantissa v /\ exponent (SFopp v) = exponent v /\ place (SFopp v) = place v /\ is_finite (SFopp v)).
  { destruct v as [s|s| |s m e]; try contradiction; cbn; try tauto. destruct s; cbn; tauto. }
  destruct E as (E1 & E2 & E3 & F'). pose proof (next_above (SFopp v) (num_opp v N) F') as H. rewrite E1, E2, E3 in H.
  set (q := mantissa v * 2 ^ (exponent v - place v)) in *. replace (- mantissa v * 2 ^ (exponent v - place v) + 1) with (- (q - 1)) in H by (unfold q; ring).
  destruct (Z.eq_dec (q - 1) 0) as [Z0|Z0].
  - rewrite Z0 in *. cbn [Z.opp binary_normalize] in H. rewrite <- H. rewrite <- (leb_opp v). cbn [binary_normalize SFopp].
    destruct (SFopp v) as [|[]| |[]]; reflexivity.
  - rewrite norm_opp in H by exact Z0. now rewrite leb_opp in H.
Qed.

Lemma add_regress : forall v p b j, num v -> num p -> is_finite v -> worth p b j -> le_number 1 (place v) (- b) j ->
  SFleb v (SFadd prec emax v p) = false.
Proof using Hprec Hemax.
  intros v p b j Nv Np Fv Wp H. destruct (SFleb v _) eqn:E; [exfalso|reflexivity].
  assert (Fp : is_finite p) by (destruct p; try contradiction; exact I).
  set (c := Z.min (Z.min (exponent v) (place v)) (Z.min (exponent p) j)).
  assert (He : place v <= exponent v \/ mantissa v = 0) by (destruct v; cbn; try contradiction; lia).
  pose proof (worth_at v c Fv ltac:(lia)) as Wv. pose proof (worth_at p c Fp ltac:(lia)) as Wp'.
  pose proof (like_add v p _ _ c Nv Np Wv Wp') as L.
  set (n := norm (mantissa v * 2 ^ (exponent v - place v) - 1) (place v) false).
  assert (Ln : like n (mantissa v * 2 ^ (exponent v - place v) - 1) (place v)) by (apply like_norm, same_refl).
  assert (Sb : b * 2 ^ (j - c) = mantissa p * 2 ^ (exponent p - c)).
  { pose proof (proj1 (worth_same p b j _ c Wp) Wp') as S. rewrite (same_iff _ _ _ _ c) in S by lia. rewrite Z.sub_diag in S. change (2 ^ 0) with 1 in S. lia. }
  assert (X : SFleb (SFadd prec emax v p) n = true).
  { apply (like_mono _ _ _ _ _ _ L Ln). rewrite (le_iff _ _ _ _ c) by lia. rewrite Z.sub_diag. change (2 ^ 0) with 1. rewrite Z.mul_1_r.
    rewrite (le_iff _ _ _ _ c) in H by lia.
    assert (V : mantissa v * 2 ^ (exponent v - place v) * 2 ^ (place v - c) = mantissa v * 2 ^ (exponent v - c)).
    { destruct He as [He|He]; [|rewrite He; reflexivity]. rewrite <- Z.mul_assoc, <- Z.pow_add_r by lia. do 2 f_equal. lia. }
    lia. }
  assert (Y : SFleb v n = true) by (apply (leb_trans _ (SFadd prec emax v p)); [exact Nv|apply L|apply Ln|exact E|exact X]).
  unfold n in Y. rewrite next_below in Y by assumption. discriminate.
Qed.

(** ** Numbers between two limits *)

Lemma place_mono : forall v u, num v -> num u -> is_finite v -> is_finite u ->
  le_number (Z.abs (mantissa v)) (exponent v) (Z.abs (mantissa u)) (exponent u) -> place v <= place u.
Proof using Hprec Hemax.
  intros v u Nv Nu Fv Fu H. destruct v as [s|s| |s m e]; try contradiction; destruct u as [t|t| |t n f]; try contradiction; cbn [place mantissa exponent] in *.
  - lia.
  - destruct (num_format _ _ _ Nu) as ([_ X] & _). lia.
  - apply le_sgn in H. destruct s; cbn in H; lia.
  - destruct (num_format _ _ _ Nv) as (_ & E1 & _). destruct (num_format _ _ _ Nu) as (_ & E2 & _).
    assert (H' : le_number (Zpos m) e (Zpos n) f) by (destruct s, t; exact H).
    pose proof (proj2 (unit_mono prec emax Hprec _ _ _ _ H')) as U. unfold unit in U. lia.
Qed.

Lemma place_between : forall lo v hi P, num lo -> num v -> num hi -> is_finite lo -> is_finite v -> is_finite hi ->
  SFleb lo v = true -> SFleb v hi = true -> place lo <= P -> place hi <= P -> place v <= P.
Proof using Hprec Hemax.
  intros lo v hi P Nl Nv Nh Fl Fv Fh H1 H2 P1 P2. rewrite (leb_le prec emax Hprec Hemax) in H1, H2 by assumption.
  destruct (Z.le_ge_cases 0 (mantissa v)) as [S|S].
  - etransitivity; [apply (place_mono v hi); try assumption|exact P2].
    pose proof (le_sgn _ _ _ _ H2). rewrite !Z.abs_eq; [exact H2| |exact S]. lia.
  - etransitivity; [apply (place_mono v lo); try assumption|exact P1].
    pose proof (le_sgn _ _ _ _ H1). rewrite !Z.abs_neq; [now apply le_opp| |exact S]. lia.
Qed.

(** A number in units of the smallest one. *)
Definition ticks (v : spec_float) : Z := mantissa v * 2 ^ (exponent v - (3 - emax - prec)).

Lemma ticks_leb : forall x y, num x -> num y -> is_finite x -> is_finite y -> SFleb x y = (ticks x <=? ticks y).
Proof using Hprec Hemax.
  assert (W : forall x, num x -> is_finite x -> worth x (ticks x) (3 - emax - prec)).
  { intros x N F. destruct x as [s|s| |s m e]; try contradiction; [reflexivity|].
    apply worth_at; [exact I|]. destruct (num_format _ _ _ N) as ([_ X] & _). cbn [exponent]. lia. }
  intros x y Nx Ny Fx Fy. apply (leb_exact prec emax Hprec _ _ _ _ (3 - emax - prec) Nx Ny (W x Nx Fx) (W y Ny Fy)).
Qed.

End Format.
