(** Terms of the controller: order and error. *)
From Verif Require Import Base BaseLemmas Loop Float FloatProofs FloatSpec FloatExact FloatRound PidModel PidSpec PidSystem PidProofs.
From Coq Require Import Floats.SpecFloat Zquot.

Lemma product_finite : forall x y z, trunc (SFmul 24 128 x y) = Some z -> is_finite x /\ is_finite y.
Proof.
  intros x y z H. destruct x as [s|s| |s m e], y as [t|t| |t n f]; cbn [SFmul trunc] in H; try discriminate H; split; exact I.
Qed.

Lemma int_number : forall x, number 24 128 (binary_normalize 24 128 x 0 false).
Proof. intros x. exact (proj1 (proj1 (normalize_good 24 128 ltac:(lia) x 0 false))). Qed.

Lemma gain_mono : forall k x y a b, number 24 128 k -> SFleb (S754_zero false) k = true -> x <= y -> gain k x a -> gain k y b -> a <= b.
Proof.
  intros k x y a b Nk Pk H Ga Gb. unfold gain in *. apply trunc_part in Ga, Gb.
  destruct (product_finite _ _ _ Ga) as [Fk Fx]. destruct (product_finite _ _ _ Gb) as [_ Fy].
  assert (O : SFleb (binary_normalize 24 128 x 0 false) (binary_normalize 24 128 y 0 false) = true).
  { apply normalize_mono; [lia|lia|]. unfold le_number. cbn. lia. }
  pose proof (int_number x) as Nx. pose proof (int_number y) as Ny.
  set (fx := binary_normalize 24 128 x 0 false) in *. set (fy := binary_normalize 24 128 y 0 false) in *. clearbody fx fy.
  apply (leb_le 24 128 ltac:(lia) ltac:(lia) _ _ Nx Ny Fx Fy) in O.
  assert (C : 0 <= mantissa k).
  { apply (leb_le 24 128 ltac:(lia) ltac:(lia) (S754_zero false) k eq_refl Nk I Fk) in Pk. apply le_sgn in Pk. cbn in Pk. lia. }
  pose proof (mul_mono 24 128 ltac:(lia) ltac:(lia) k fx fy _ _ _ _ _ _ ltac:(lia) Nk Nx Ny (worth_self k Fk) (worth_self fx Fx) (worth_self fy Fy) C O) as M.
  assert (G : forall z, number 24 128 z -> is_finite z -> number 24 128 (SFmul 24 128 k z)).
  { intros z Nz Fz. refine (proj1 (mul_good 24 128 ltac:(lia) k z _ _ _ Fk Fz)); [unfold SpecFloat.emin; lia| |].
    - split; [exact Nk|destruct k; try contradiction; discriminate].
    - split; [exact Nz|destruct z; try contradiction; discriminate]. }
  exact (trunc_mono 24 128 ltac:(lia) ltac:(lia) _ _ a b (G _ Nx Fx) (G _ Ny Fy) M Ga Gb).
Qed.

(** Conversion of an integer to float: the result is an integer, with a relative error of at most 2^-24. *)
Lemma int_error : forall x, is_finite (binary_normalize 24 128 x 0 false) ->
  exists X, worth (binary_normalize 24 128 x 0 false) X 0 /\ 16777216 * Z.abs (X - x) <= Z.abs x.
Proof.
  assert (A : forall p, is_finite (binary_round 24 128 false p 0) -> exists X, worth (binary_round 24 128 false p 0) X 0 /\ 16777216 * Z.abs (X - Zpos p) <= Zpos p).
  { intros p F. destruct (Z.lt_ge_cases (Zpos p) (2 ^ 24)) as [L|L].
    - exists (Zpos p). split; [|lia]. apply (round_exact 24 128 ltac:(lia) false p 0 p 0); [apply same_refl|split; [exact L|lia]].
    - pose proof (result_units 24 128 ltac:(lia) ltac:(lia) false p 0 F) as W. pose proof (digits_ge p 24 ltac:(lia) L) as D.
      assert (U : unit 24 128 p 0 = Zpos (digits2_pos p) - 24) by (unfold unit; rewrite fexp_eq; lia).
      destruct (round_error 24 128 ltac:(lia) ltac:(lia) p 0 0 ltac:(lia) ltac:(lia)) as (E1 & E2 & _).
      destruct E2 as [E2|E2]; [lia|]. rewrite Z.sub_0_r in *. change (2 ^ (0 - 0)) with 1 in *. rewrite Z.mul_1_r in *.
      set (f := unit 24 128 p 0) in *. set (r := in_units (Zpos p) 0 f) in *. exists (r * 2 ^ f). split.
      + apply (proj2 (worth_same _ _ _ _ _ W)). rewrite (same_iff _ f _ 0 0) by lia. rewrite Z.sub_0_r. change (2 ^ (0 - 0)) with 1. lia.
      + change (2 ^ (24 - 1)) with 8388608 in E2. clear - E1 E2. lia. }
  intros [|p|p] F; cbn [binary_normalize] in *.
  - exists 0. split; [reflexivity|lia].
  - destruct (A p F) as (X & W & E). exists X. split; [exact W|lia].
  - rewrite round_opp in *. assert (F' : is_finite (binary_round 24 128 false p 0)) by (destruct (binary_round 24 128 false p 0); try contradiction; exact I).
    destruct (A p F') as (X & W & E). exists (- X). split; [now apply worth_opp|lia].
Qed.

Lemma trunc_opp : forall x z, trunc x = Some z -> trunc (SFopp x) = Some (- z).
Proof. intros [s|s| |s m e] z H; try discriminate H; cbn [SFopp trunc] in *; injection H as <-; f_equal. destruct s; cbn [negb]; [symmetry; apply Z.opp_involutive|reflexivity]. Qed.

(** A product, cut to an integer [r]: close to the exact product A / 2^q. *)
Lemma product_error : forall m e A q r, e <= unit 24 128 m e -> 0 <= q -> same_number (Zpos m) e A (- q) ->
  trunc (binary_round 24 128 false m e) = Some r -> 0 <= r /\ 16777216 * Z.abs (r * 2 ^ q - A) <= 16777216 * 2 ^ q + A.
Proof.
  intros m e A q r He Hq S T. assert (F : is_finite (binary_round 24 128 false m e)) by (destruct (binary_round 24 128 false m e); try discriminate T; exact I).
  pose proof (result_units 24 128 ltac:(lia) ltac:(lia) false m e F) as W. set (f := unit 24 128 m e) in *. set (n := in_units (Zpos m) e f) in *.
  destruct (unit_bound 24 128 ltac:(lia) m e) as (F1 & R1 & _). fold f n in F1, R1.
  set (c := Z.min (Z.min e (- q)) (-200)). assert (Hc : c <= e /\ c <= - q /\ c <= f /\ c < 0) by lia.
  destruct (round_error 24 128 ltac:(lia) ltac:(lia) m e c ltac:(lia) ltac:(fold f; lia)) as (E1 & E2 & E3). fold f n in E1, E2, E3.
  rewrite (same_iff _ _ _ _ c) in S by lia. rewrite S in *.
  assert (W' : worth (binary_round 24 128 false m e) (n * 2 ^ (f - c)) c).
  { apply (proj2 (worth_same _ _ _ _ _ W)). rewrite (same_iff _ f _ c c) by lia. rewrite Z.sub_diag. change (2 ^ 0) with 1. lia. }
  rewrite (trunc_exact _ _ _ W') in T. rewrite (proj2 (Z.leb_gt 0 c)) in T by lia. injection T as T.
  assert (U : 0 < 2 ^ (- c)) by (apply Z.pow_pos_nonneg; lia). assert (P : 0 < 2 ^ (f - c)) by (apply Z.pow_pos_nonneg; lia).
  assert (N : 0 <= n * 2 ^ (f - c)) by nia. rewrite Z.quot_div_nonneg in T by lia.
  pose proof (Z.div_mod (n * 2 ^ (f - c)) (2 ^ (- c)) ltac:(lia)) as D. pose proof (Z.mod_pos_bound (n * 2 ^ (f - c)) (2 ^ (- c)) U) as B. rewrite T in D.
  assert (R0 : 0 <= r) by (rewrite <- T; apply Z.div_pos; lia).
  assert (V : 0 < 2 ^ (- q - c)) by (apply Z.pow_pos_nonneg; lia).
  assert (Q : 2 ^ (- c) = 2 ^ q * 2 ^ (- q - c)) by (rewrite <- Z.pow_add_r by lia; f_equal; lia).
  split; [exact R0|].
  assert (Small : f = 3 - 128 - 24 -> 2 ^ 24 * 2 ^ (f - c) <= 2 ^ (- c)).
  { intros E. rewrite <- Z.pow_add_r by lia. apply Z.pow_le_mono_r; lia. }
  set (v := 2 ^ (- q - c)) in *. set (g := 2 ^ (f - c)) in *. set (z := n * g) in *. set (w := 2 ^ q) in *. set (u := 2 ^ (- c)) in *.
  change (2 ^ 24) with 16777216 in *. change (2 ^ (24 - 1)) with 8388608 in *.
  assert (G : 16777216 * Z.abs (r * u - A * v) <= 16777216 * u + A * v).
  { destruct (Z.eq_dec f (3 - 128 - 24)) as [E|E].
    - specialize (Small E). specialize (E3 E). assert (r = 0 \/ 1 <= r) as [-> | Hr] by lia.
      + assert (0 <= A * v) by lia. lia.
      + assert (u * r >= u) by nia. clear - E1 E3 Small D B H. lia.
    - destruct E2 as [E2|E2]; [lia|]. clear - E1 E2 D B. lia. }
  clear - G Q V Hq. replace (r * u - A * v) with ((r * w - A) * v) in G by (rewrite Q; ring). rewrite Z.abs_mul, (Z.abs_eq v) in G by lia.
  replace (16777216 * u + A * v) with ((16777216 * w + A) * v) in G by (rewrite Q; ring). rewrite Z.mul_assoc in G.
  apply Z.mul_le_mono_pos_r in G; [exact G|exact V].
Qed.

Lemma gain_error : forall k P q x r, scaled k P q -> gain k x r ->
  16777216 * Z.abs (r * 2 ^ q - P * x) <= 16777216 * 2 ^ q + 3 * Z.abs (P * x).
Proof.
  intros k P q x r (Nk & Wk & Hq) G. unfold gain in G. apply trunc_part in G. destruct (product_finite _ _ _ G) as [Fk Fx].
  destruct (int_error x Fx) as (X & WX & EX). pose proof (int_number x) as Nx. set (fx := binary_normalize 24 128 x 0 false) in *. clearbody fx.
  assert (V : 0 < 2 ^ q) by (apply Z.pow_pos_nonneg; lia).
  assert (M : 16777216 * Z.abs (r * 2 ^ q - P * X) <= 16777216 * 2 ^ q + Z.abs (P * X)).
  { destruct k as [s|s| |s m e]; try contradiction; destruct fx as [t|t| |t n f]; try contradiction; cbn [worth] in Wk, WX;
      try (cbn in G; injection G as <-; subst; rewrite ?Z.mul_0_l, ?Z.mul_0_r; lia).
    destruct (mul_round 24 128 ltac:(lia) ltac:(lia) s m e t n f ltac:(lia) Nk Nx) as [E L]. rewrite E in G.
    pose proof (same_mul _ _ _ _ _ _ _ _ Wk WX) as S. rewrite Z.add_0_r in S.
    destruct (xorb s t) eqn:Es.
    - rewrite round_opp in G. assert (T : trunc (binary_round 24 128 false (m * n) (e + f)) = Some (- r)).
      { apply trunc_opp in G. revert G. generalize (binary_round 24 128 false (m * n) (e + f)). intros y G. destruct y; try exact G; cbn [SFopp] in G; rewrite ?negb_involutive in G; exact G. }
      destruct (product_error (m * n) (e + f) (- (P * X)) q (- r) L ltac:(lia)) as [R Eb]; [|exact T|].
      + apply same_opp in S. destruct s, t; try discriminate Es; exact S.
      + lia.
    - destruct (product_error (m * n) (e + f) (P * X) q r L ltac:(lia)) as [R Eb]; [|exact G|lia].
      destruct s, t; try discriminate Es; exact S. }
  assert (B1 : 16777216 * Z.abs (P * X - P * x) <= Z.abs (P * x)).
  { rewrite <- Z.mul_sub_distr_l, !Z.abs_mul. nia. }
  generalize dependent (P * X). generalize dependent (P * x). generalize dependent (r * 2 ^ q). intros. lia.
Qed.

(** * The output *)

Lemma times_range : forall k x r, times k x = Done r -> INT_MIN <= r <= INT_MAX.
Proof.
  intros k x r H. unfold times, to_int in H. destruct (trunc _) as [z|]; [|discriminate H].
  destruct ((INT_MIN <=? z) && (z <=? INT_MAX)) eqn:E; [|discriminate H]. injection H as <-. lia.
Qed.

Lemma gain_zero : forall k, is_finite k -> gain k 0 0.
Proof. intros [s|s| |s m e] F; try contradiction; reflexivity. Qed.

Lemma terms_l : forall N D, (0 < N)%nat -> (0 < D)%nat -> forall B h p r,
  0 <= B -> 4 * B <= INT_MAX -> Z.of_nat N * (2 * B) <= INT_MAX -> Forall thresholds_fit h -> Forall (within B) h -> is_finite (gain_d h) ->
  prun N D h = Done p -> pid_compute N D p = Done r ->
  exists rp ri rd, r = rp + ri + rd /\ gain (gain_p h) (error h) rp /\ gain (gain_i h) (sum (firstn N (contributions N h))) ri /\
    gain (gain_d h) (difference D h) rd.
Proof.
  intros N D HN HD B h p r HB HB4 HNB Hf Hw Fd Hp H.
  destruct (proportional_l N D HN HD B h HB ltac:(lia) Hf Hw) as (p1 & E1 & P1). rewrite Hp in E1. injection E1 as <-.
  destruct (integral_l N D HN HD B h HB ltac:(lia) HNB Hf Hw) as (p2 & E2 & P2). rewrite Hp in E2. injection E2 as <-.
  destruct (derivative_l N D HN HD B h HB HB4 Hf Hw) as (p3 & E3 & P3). rewrite Hp in E3. injection E3 as <-.
  unfold pid_compute in H.
  destruct (pid_compute_p p) as [rp| | |] eqn:Ep; cbn [obind] in H; try discriminate H.
  destruct (pid_compute_i N p) as [ri| | |] eqn:Ei; cbn [obind] in H; try discriminate H.
  destruct (pid_compute_d D p) as [rd| | |] eqn:Ed; cbn [obind] in H; try discriminate H.
  destruct (int_op (rp + ri)) as [s| | |] eqn:Es; cbn [obind] in H; try discriminate H.
  apply int_op_l in Es, H. destruct Es as [-> _], H as [-> _].
  assert (Rp : INT_MIN <= rp <= INT_MAX).
  { unfold pid_compute_p in Ep. destruct (pid_current_error p); cbn [obind] in Ep; try discriminate Ep. exact (times_range _ _ _ Ep). }
  assert (Ri : INT_MIN <= ri <= INT_MAX).
  { unfold pid_compute_i in Ei. destruct (for_up _ _ _ _); cbn [obind] in Ei; try discriminate Ei. exact (times_range _ _ _ Ei). }
  exists rp, ri, rd. split; [reflexivity|]. split; [now apply P1|]. split; [now apply P2|].
  unfold difference. destruct (past_errors h) as [|e es]; [injection P3 as ->; now apply gain_zero|].
  destruct (deriv_on h && _); [injection P3 as ->; now apply gain_zero|].
  assert (Rd : INT_MIN <= rd <= INT_MAX).
  { unfold pid_compute_d in Ed. destruct (pid_current_error p) as [x| | |]; cbn [obind] in Ed; try discriminate Ed.
    destruct (derivative_history_size p =? 0); [injection Ed as <-; unfold INT_MIN, INT_MAX; lia|].
    destruct (zget _ _) as [y| | |]; cbn [obind] in Ed; try discriminate Ed. destruct (int_op (x - y)) as [d| | |]; cbn [obind] in Ed; try discriminate Ed.
    destruct (derivative_threshold p =? 0); [exact (times_range _ _ _ Ed)|].
    destruct (ABS x) as [ax| | |]; cbn [obind] in Ed; try discriminate Ed.
    destruct (derivative_low_threshold p <? ax); [injection Ed as <-; unfold INT_MIN, INT_MAX; lia|exact (times_range _ _ _ Ed)]. }
  now apply (P3 rd Rd).
Qed.

Lemma nonnegative_l : forall k, nonnegative k -> number 24 128 k /\ SFleb (S754_zero false) k = true /\ is_finite k.
Proof. intros [s|s| |[|] m e] [N H]; try contradiction; split; try exact N; split; try reflexivity; exact I. Qed.

Lemma monotone_l : forall N D, (0 < N)%nat -> (0 < D)%nat -> forall B h1 h2 p1 p2 r1 r2,
  0 <= B -> 4 * B <= INT_MAX -> Z.of_nat N * (2 * B) <= INT_MAX ->
  Forall thresholds_fit h1 -> Forall (within B) h1 -> Forall thresholds_fit h2 -> Forall (within B) h2 ->
  gain_p h1 = gain_p h2 -> gain_i h1 = gain_i h2 -> gain_d h1 = gain_d h2 ->
  nonnegative (gain_p h1) -> nonnegative (gain_i h1) -> nonnegative (gain_d h1) ->
  error h1 <= error h2 -> sum (firstn N (contributions N h1)) <= sum (firstn N (contributions N h2)) -> difference D h1 <= difference D h2 ->
  prun N D h1 = Done p1 -> prun N D h2 = Done p2 -> pid_compute N D p1 = Done r1 -> pid_compute N D p2 = Done r2 -> r1 <= r2.
Proof.
  intros N D HN HD B h1 h2 p1 p2 r1 r2 HB HB4 HNB F1 W1 F2 W2 Ep Ei Ed Np Ni Nd Le Li Ld R1 R2 C1 C2.
  destruct (nonnegative_l _ Np) as (Np1 & Np2 & _). destruct (nonnegative_l _ Ni) as (Ni1 & Ni2 & _). destruct (nonnegative_l _ Nd) as (Nd1 & Nd2 & Fd).
  destruct (terms_l N D HN HD B h1 p1 r1 HB HB4 HNB F1 W1 Fd R1 C1) as (a1 & b1 & c1 & -> & A1 & B1 & D1).
  rewrite Ed in Fd. destruct (terms_l N D HN HD B h2 p2 r2 HB HB4 HNB F2 W2 Fd R2 C2) as (a2 & b2 & c2 & -> & A2 & B2 & D2).
  rewrite <- Ep in A2. rewrite <- Ei in B2. rewrite <- Ed in D2.
  pose proof (gain_mono _ _ _ _ _ Np1 Np2 Le A1 A2). pose proof (gain_mono _ _ _ _ _ Ni1 Ni2 Li B1 B2). pose proof (gain_mono _ _ _ _ _ Nd1 Nd2 Ld D1 D2). lia.
Qed.

Lemma accuracy_l : forall N D, (0 < N)%nat -> (0 < D)%nat -> forall B h p r P I K q,
  0 <= B -> 4 * B <= INT_MAX -> Z.of_nat N * (2 * B) <= INT_MAX -> Forall thresholds_fit h -> Forall (within B) h ->
  scaled (gain_p h) P q -> scaled (gain_i h) I q -> scaled (gain_d h) K q ->
  prun N D h = Done p -> pid_compute N D p = Done r ->
  let e := P * error h in let i := I * sum (firstn N (contributions N h)) in let d := K * difference D h in
  16777216 * Z.abs (r * 2 ^ q - (e + i + d)) <= 3 * (16777216 * 2 ^ q + Z.abs e + Z.abs i + Z.abs d).
Proof.
  intros N D HN HD B h p r P I K q HB HB4 HNB Hf Hw Sp Si Sd R C e i d.
  assert (Fd : is_finite (gain_d h)) by (destruct Sd as (_ & W & _); destruct (gain_d h); try contradiction; exact Logic.I).
  destruct (terms_l N D HN HD B h p r HB HB4 HNB Hf Hw Fd R C) as (a & b & c & -> & A & Bi & Dd).
  pose proof (gain_error _ _ _ _ _ Sp A) as Ea. pose proof (gain_error _ _ _ _ _ Si Bi) as Eb. pose proof (gain_error _ _ _ _ _ Sd Dd) as Ec.
  fold e in Ea. fold i in Eb. fold d in Ec. clearbody e i d. rewrite !Z.mul_add_distr_r.
  generalize dependent (a * 2 ^ q). generalize dependent (b * 2 ^ q). generalize dependent (c * 2 ^ q). clear. intros. lia.
Qed.
