From Coq Require Import ZifyBool Floats.SpecFloat.
From Verif Require Import Base BaseLemmas Loop Float FloatProofs FloatSpec FloatExact FloatRound PidModel PidSpec PidSystem PidProofs PidFltModel PidFltSpec PidFltSystem PidFltProofs PidFltErrSpec.

(** * Rounding *)

Lemma same_pos : forall m e X K, same_number (Zpos m) e X K -> 0 < X.
Proof.
  intros m e X K H. unfold same_number in H. assert (0 < 2 ^ (e - Z.min e K)) by (apply Z.pow_pos_nonneg; lia).
  assert (0 < 2 ^ (K - Z.min e K)) by (apply Z.pow_pos_nonneg; lia). nia.
Qed.

Lemma round_finite : forall s m e X K, same_number (Zpos m) e X K -> K <= 0 -> X < 2 ^ (127 - K) -> is_finite (binary_round 24 128 s m e).
Proof.
  intros s m e X K H HK L. set (c := Z.min (Z.min e K) 0). rewrite (same_iff _ _ _ _ c) in H by lia.
  assert (D : Zpos (digits2_pos m) + e <= 127).
  { apply (digits_iff m e 127 c); [lia|lia|]. rewrite H. replace (127 - c) with (127 - K + (K - c)) by lia. rewrite Z.pow_add_r by lia.
    apply Z.mul_lt_mono_pos_r; [apply Z.pow_pos_nonneg; lia|exact L]. }
  destruct (unit_bound 24 128 ltac:(lia) m e) as (_ & _ & _ & U & _). pose proof (round_result 24 128 ltac:(lia) ltac:(lia) s m e) as R.
  assert (Eu : unit 24 128 m e = Z.max (Zpos (digits2_pos m) + e - 24) (-149)) by (unfold unit; apply fexp_eq).
  destruct (binary_round 24 128 s m e) as [t|t| |t n f]; cbn [result] in R; try exact Logic.I; [|contradiction].
  destruct R as [_ R]. pose proof (le_trans _ _ _ _ _ _ R U) as Q. exfalso. set (g := Z.max (Zpos (digits2_pos m) + e) (unit 24 128 m e)) in *.
  assert (G : g <= 127) by lia. rewrite (le_iff _ _ _ _ (Z.min g 0)) in Q by lia. rewrite !Z.mul_1_l in Q.
  apply Z.pow_le_mono_r_iff in Q; lia.
Qed.

Lemma worth_move : forall x r f K, K <= f -> worth x r f -> worth x (r * 2 ^ (f - K)) K.
Proof.
  intros x r f K L W. apply (worth_same x r f); [exact W|]. rewrite (same_iff _ _ _ _ K) by lia. rewrite Z.sub_diag, Z.mul_1_r. reflexivity.
Qed.

Lemma round_near : forall s m e X K, same_number (Zpos m) e X K -> -149 <= K <= 0 -> X < 2 ^ (127 - K) ->
  exists R, worth (binary_round 24 128 s m e) (if s then - R else R) K /\ near R X.
Proof.
  intros s m e X K H HK L. pose proof (same_pos _ _ _ _ H) as Xp. pose proof (round_finite s m e X K H ltac:(lia) L) as F. unfold near.
  destruct (Z.lt_ge_cases X (2 ^ 24)) as [Lt|Ge].
  - destruct X as [|z|z]; try lia. exists (Zpos z). split; [|rewrite Z.sub_diag; cbn; lia].
    pose proof (round_exact 24 128 ltac:(lia) s m e z K H ltac:(split; lia)) as W. destruct s; exact W.
  - pose proof (result_units 24 128 ltac:(lia) ltac:(lia) s m e F) as W. set (f := unit 24 128 m e) in *. set (n := in_units (Zpos m) e f) in *.
    set (c := Z.min (Z.min e f) K). pose proof H as H'. rewrite (same_iff _ _ _ _ c) in H' by lia.
    destruct (round_error 24 128 ltac:(lia) ltac:(lia) m e c ltac:(lia) ltac:(fold f; lia)) as (E1 & E2 & _). fold f n in E1, E2.
    assert (Ef : f = Z.max (Zpos (digits2_pos m) + e - 24) (-149)) by (unfold f, unit; apply fexp_eq).
    assert (Pk : 0 < 2 ^ (K - c)) by (apply Z.pow_pos_nonneg; lia).
    assert (Lf : K < f).
    { destruct (Z.lt_ge_cases K f) as [Q|Q]; [exact Q|]. exfalso. assert (D : Zpos (digits2_pos m) + e <= K + 24) by lia.
      apply (digits_iff m e (K + 24) c) in D; [|lia|lia]. rewrite H' in D. replace (K + 24 - c) with (24 + (K - c)) in D by lia. rewrite Z.pow_add_r in D by lia.
      apply Z.mul_lt_mono_pos_r in D; lia. }
    destruct E2 as [E2|E2]; [exfalso; lia|]. change (24 - 1) with 23 in E2. rewrite H' in E1, E2.
    exists (n * 2 ^ (f - K)). assert (W' : worth (binary_round 24 128 false m e) (n * 2 ^ (f - K)) K) by (apply worth_move; [lia|exact W]). split.
    + destruct s; [rewrite round_opp by lia; now apply worth_opp|exact W'].
    + replace (f - c) with (f - K + (K - c)) in E1, E2 by lia. rewrite (Z.pow_add_r 2 (f - K)), Z.mul_assoc, <- Z.mul_sub_distr_r, Z.abs_mul, (Z.abs_eq (2 ^ (K - c))) in E1 by lia.
      rewrite (Z.pow_add_r 2 (f - K)), Z.mul_assoc in E2 by lia. apply Z.mul_le_mono_pos_r in E2; [|exact Pk].
      assert (E3 : 2 * Z.abs (n * 2 ^ (f - K) - X) <= 2 ^ (f - K)) by (apply (Z.mul_le_mono_pos_r _ _ (2 ^ (K - c))); [exact Pk|lia]).
      rewrite (Z.abs_eq X) by lia. change (2 ^ 24) with (2 ^ 23 * 2). set (y := 2 ^ (f - K)) in *. lia.
Qed.

Lemma near_opp : forall r x, near r x -> near (- r) (- x). Proof. unfold near. intros. lia. Qed.
Lemma near_zero : near 0 0. Proof. unfold near. cbn. lia. Qed.
Lemma near_refl : forall x, near x x. Proof. unfold near. intros. rewrite Z.sub_diag. cbn. lia. Qed.

Lemma normalize_near : forall s m e X K, same_number m e X K -> -149 <= K <= 0 -> Z.abs X < 2 ^ (127 - K) ->
  exists R, worth (binary_normalize 24 128 m e s) R K /\ near R X.
Proof.
  intros s [|m|m] e X K H HK L; cbn [binary_normalize].
  - apply same_sym, same_zero in H. subst X. exists 0. split; [reflexivity|exact near_zero].
  - pose proof (same_pos _ _ _ _ H). destruct (round_near false m e X K H HK ltac:(lia)) as (R & W & N). exists R. auto.
  - apply same_opp in H. cbn [Z.opp] in H. pose proof (same_pos _ _ _ _ H).
    destruct (round_near true m e (- X) K H HK ltac:(lia)) as (R & W & N). exists (- R). split; [exact W|]. apply near_opp in N. rewrite Z.opp_involutive in N. exact N.
Qed.

Lemma add_near : forall k x y a b, num k x a -> num k y b -> -149 <= k <= 0 -> Z.abs (a + b) < 2 ^ (127 - k) ->
  exists R, num k (SFadd 24 128 x y) R /\ near R (a + b).
Proof.
  intros k x y a b X Y HK L.
  assert (Nu : number 24 128 (SFadd 24 128 x y)) by (apply (add_good 24 128 ltac:(lia) x y (num_good _ _ _ X) (num_good _ _ _ Y) (num_finite _ _ _ X))).
  destruct X as [_ Hx], Y as [_ Hy]. revert Nu.
  destruct x as [sx|sx| |sx mx ex]; try contradiction; destruct y as [sy|sy| |sy my ey]; try contradiction; cbn [SFadd]; intros Nu.
  - cbn [worth] in Hx, Hy. subst. exists 0. split; [split; [exact Nu|destruct (Bool.eqb sx sy); reflexivity]|exact near_zero].
  - cbn [worth] in Hx. subst. exists b. split; [split; assumption|apply near_refl].
  - cbn [worth] in Hy. subst. rewrite Z.add_0_r. exists a. split; [split; assumption|apply near_refl].
  - cbn [worth] in Hx, Hy. set (f := Z.min ex ey) in *.
    assert (E : forall (s : bool) m e, f <= e -> cond_Zopp s (Zpos (fst (shl_align m e f))) = (if s then Zneg m else Zpos m) * 2 ^ (e - f)).
    { intros s m e He. unfold cond_Zopp. rewrite align_l by exact He. destruct s; [|reflexivity]. change (Zneg m) with (- Zpos m). lia. }
    rewrite !E in Nu |- * by lia.
    destruct (normalize_near false _ f (a + b) k (same_add _ _ _ _ _ _ _ Hx Hy f ltac:(lia) ltac:(lia)) HK L) as (R & W & N).
    exists R. split; [split; [exact Nu|exact W]|exact N].
Qed.

Lemma mul_near : forall i j x y a b, num i x a -> num j y b -> -149 <= i + j <= 0 -> Z.abs (a * b) < 2 ^ (127 - (i + j)) ->
  exists R, num (i + j) (SFmul 24 128 x y) R /\ near R (a * b).
Proof.
  intros i j x y a b X Y HK L.
  assert (Nu : number 24 128 (SFmul 24 128 x y)) by (apply (mul_good 24 128 ltac:(lia) x y ltac:(unfold emin; lia) (num_good _ _ _ X) (num_good _ _ _ Y) (num_finite _ _ _ X) (num_finite _ _ _ Y))).
  destruct X as [Nx Hx], Y as [Ny Hy].
  destruct x as [sx|sx| |sx mx ex]; try contradiction; destruct y as [sy|sy| |sy my ey]; try contradiction;
    try (cbn [worth] in Hx, Hy; subst; rewrite ?Z.mul_0_l, ?Z.mul_0_r; exists 0; split; [split; [exact Nu|reflexivity]|exact near_zero]).
  destruct (mul_round 24 128 ltac:(lia) ltac:(lia) sx mx ex sy my ey ltac:(lia) Nx Ny) as [Em _]. rewrite Em in Nu |- *. cbn [worth] in Hx, Hy.
  pose proof (same_mul _ _ _ _ _ _ _ _ Hx Hy) as H.
  assert (H' : same_number (Zpos (mx * my)) (ex + ey) (if xorb sx sy then - (a * b) else a * b) (i + j)).
  { destruct sx, sy; cbn [xorb]; try exact H; apply same_opp in H; exact H. }
  destruct (round_near (xorb sx sy) (mx * my) (ex + ey) _ (i + j) H' HK) as (R & W & N); [pose proof (same_pos _ _ _ _ H'); destruct (xorb sx sy); lia|].
  destruct (xorb sx sy); eexists; (split; [split; [exact Nu|exact W]|]); [apply near_opp in N; rewrite Z.opp_involutive in N; exact N|exact N].
Qed.

(** * The errors add up *)

Lemma first_sum : forall e i e' i' M, near e' e -> near i' i -> Z.abs e + Z.abs i < M -> Z.abs (e' + i') < 2 * M.
Proof.
  unfold near. change (2 ^ 24) with 16777216. intros e i e' i' M He Hi HM.
  assert (T : Z.abs (e' + i') <= Z.abs (e' - e) + Z.abs (i' - i) + Z.abs e + Z.abs i) by (clear; lia).
  revert He Hi HM T. generalize (Z.abs (e' + i')) (Z.abs (e' - e)) (Z.abs (i' - i)). pose proof (Z.abs_nonneg e). pose proof (Z.abs_nonneg i).
  revert H H0. generalize (Z.abs e) (Z.abs i). clear. intros. lia.
Qed.

Lemma all_sums : forall e i d e' i' d' s' M, near e' e -> near i' i -> near d' d -> near s' (e' + i') -> Z.abs e + Z.abs i + Z.abs d < M ->
  Z.abs (s' + d') < 2 * M /\
  forall r', near r' (s' + d') -> 2 ^ 24 * Z.abs (r' - (e + i + d)) <= 4 * (Z.abs e + Z.abs i + Z.abs d).
Proof.
  unfold near. change (2 ^ 24) with 16777216. intros e i d e' i' d' s' M He Hi Hd Hs HM.
  assert (T1 : Z.abs (e' + i') <= Z.abs (e' - e) + Z.abs (i' - i) + Z.abs e + Z.abs i) by (clear; lia).
  assert (T2 : Z.abs (s' + d') <= Z.abs (s' - (e' + i')) + Z.abs (e' + i') + Z.abs (d' - d) + Z.abs d) by (clear; lia).
  assert (T3 : forall r', Z.abs (r' - (e + i + d)) <= Z.abs (r' - (s' + d')) + Z.abs (s' - (e' + i')) + Z.abs (e' - e) + Z.abs (i' - i) + Z.abs (d' - d)) by (clear; intros; lia).
  pose proof (Z.abs_nonneg e) as P1. pose proof (Z.abs_nonneg i) as P2. pose proof (Z.abs_nonneg d) as P3. split; [clear T3|intros r' Hr; specialize (T3 r'); revert Hr T3; generalize (Z.abs (r' - (s' + d'))) (Z.abs (r' - (e + i + d)))];
  revert He Hi Hd Hs HM T1 T2 P1 P2 P3;
  generalize (Z.abs (s' + d')) (Z.abs (s' - (e' + i'))) (Z.abs (e' + i')) (Z.abs (e' - e)) (Z.abs (i' - i)) (Z.abs (d' - d)) (Z.abs e) (Z.abs i) (Z.abs d); clear; intros; lia.
Qed.

(** * Runs *)

Section Runs.
Variables N D : nat.
Hypothesis HN : (0 < N)%nat.
Hypothesis HD : (0 < D)%nat.
Variable k : Z.
Hypothesis Hk : -149 <= k <= 0.
Variable B : Z.
Hypothesis HB : 0 <= B.
Hypothesis HB4 : 4 * B < 2 ^ 24.

Lemma error_l : forall H h P I K q, -149 <= k - q -> Z.of_nat N * (2 * B) < 2 ^ 24 ->
  Forall2 (alike k) H h -> Forall (within B) h -> scaled (gain_p h) P q -> scaled (gain_i h) I q -> scaled (gain_d h) K q ->
  let e := P * error h in let i := I * sum (firstn N (contributions N h)) in let d := K * difference D h in
  Z.abs e + Z.abs i + Z.abs d < 2 ^ (126 - (k - q)) ->
  exists f fi fd r, frun N D H = Done f /\ fpid_compute_i N f = Done fi /\ fpid_compute_d D f = Done fd /\ fpid_compute N D f = Done r /\
  exists e' i' d' r', worth (fpid_compute_p f) e' (k - q) /\ near e' e /\ worth fi i' (k - q) /\ near i' i /\ worth fd d' (k - q) /\ near d' d /\
    worth r r' (k - q) /\ 2 ^ 24 * Z.abs (r' - (e + i + d)) <= 4 * (Z.abs e + Z.abs i + Z.abs d).
Proof using HN HD Hk HB HB4.
  intros H h P I K q Hq HNB A W SP SI SK e i d Hs. assert (Ed : d = K * difference D h) by reflexivity. clearbody d.
  assert (Hq0 : 0 <= q) by (destruct SP as (_ & _ & ?); lia).
  assert (HM : 2 ^ (127 - (k - q)) = 2 * 2 ^ (126 - (k - q))) by (replace (127 - (k - q)) with (1 + (126 - (k - q))) by lia; rewrite Z.pow_add_r by lia; reflexivity).
  set (M := 2 ^ (126 - (k - q))) in *.
  destruct (alike_matches N D HN HD k Hk _ _ A) as [Mt NN].
  assert (Q : forall j, nth j (freadings H) f0 <> S754_nan).
  { intros j. destruct (nth_in_or_default j (freadings H) f0) as [I1| ->]; [|discriminate]. rewrite Forall_forall in NN. now apply NN. }
  destruct (run_sim N D HN HD k Hk B HB HB4 H h Mt W) as (f & p & Rf & Rp & S & (b & Fl & Rb) & Fin & _). pose proof (matches_fit N D HN HD k Hk _ _ Mt) as Fit. destruct (matches_length N D HN HD k Hk _ _ Mt) as [_ Len].
  pose proof (run_inv N D HN HD _ _ Fit Rp) as ((Gp & Gi & Gd) & R1 & R2 & Hn & Hin & Hsp & (_ & _ & Hdl) & _ & (_ & Hdt & _) & _).
  destruct (s_gains _ _ _ S) as (Fp & Fi & Fd). rewrite <- Fp, gain_p_clip in Gp. rewrite <- Fi, gain_i_clip in Gi. rewrite <- Fd, gain_d_clip in Gd.
  assert (HB2 : 2 * B < INT_MAX) by (unfold INT_MAX; lia).
  rewrite (contributions_clip N B) in R1 by auto. rewrite past_errors_clip in R2, Hn. rewrite deriv_limit_clip in Hdl. rewrite deriv_on_clip in Hdt.
  rewrite reading_clip in Hin. rewrite setpoint_clip in Hsp.
  pose proof (error_w B h HB W) as Be.
  assert (NI : f_input f <> S754_nan) by (rewrite Fin; generalize (Q 0%nat); destruct (freadings H); auto).
  assert (Ne : num k (fpid_current_error f) (error h)).
  { destruct (s_input _ _ _ S) as [Y|Y]; [contradiction|]. unfold fpid_current_error, F32, fsub, error. rewrite <- Hin, <- Hsp.
    apply num_sub; [apply S|exact Y|unfold error in Be; rewrite <- Hin, <- Hsp in Be; clear - Be HB4; lia|clear - Hk; lia]. }
  assert (NG : forall g G, scaled g G q -> num (- q) g G) by (intros g G (? & ? & _); split; assumption).
  assert (Np : exists e', num (k - q) (fpid_compute_p f) e' /\ near e' e).
  { unfold fpid_compute_p, F32, fmul, e. rewrite Gp. replace (k - q) with (- q + k) in * by lia. apply mul_near; auto; [lia|]. rewrite HM. clear - Hs. unfold e, i in *. lia. }
  assert (Ni : exists fi, fpid_compute_i N f = Done fi /\ exists i', num (k - q) fi i' /\ near i' i).
  { unfold fpid_compute_i. pose proof (contributions_within N D HN HD B h HB W) as Bc. pose proof (ring_bound N _ _ _ (2 * B) ltac:(lia) R1 Bc) as Bh.
    pose proof (forall2_len _ _ _ (s_history _ _ _ S)) as L. rewrite (proj1 R1) in L.
    destruct (floop_ok k (2 * B) (f_history f) (history p) [] f0 0) as (r & Hr & Nr); [lia|lia|apply S|exact Bh|apply num_zero|unfold zlen; rewrite L; change (Z.abs 0) with 0; lia|].
    rewrite L in Hr. unfold fadd_cell in Hr. cbn [app] in Hr. change (zlen []) with 0 in Hr. rewrite Hr. cbn [obind].
    rewrite (ring_sum _ _ _ _ R1), Z.add_0_l in Nr. eexists. split; [reflexivity|]. unfold F32, fmul, i. rewrite Gi, Z.mul_comm.
    replace (k - q) with (k + - q) in * by lia. apply mul_near; auto; [lia|]. rewrite HM, Z.mul_comm. clear - Hs. unfold e, i in *. lia. }
  assert (Nd : exists fd, fpid_compute_d D f = Done fd /\ exists d', num (k - q) fd d' /\ near d' d).
  { unfold fpid_compute_d. rewrite (s_dsize _ _ _ S), Hn. rewrite Ed in Hs |- *. unfold difference in *. clear Ed. destruct (past_errors h) as [|a l] eqn:El.
    - unfold zlen. cbn [length]. replace (Z.min (Z.of_nat 0) (Z.of_nat D) =? 0) with true by lia. eexists. split; [reflexivity|]. rewrite Z.mul_0_r. exists 0. split; [apply num_zero|exact near_zero].
    - rewrite <- El in *. assert (Hl : (0 < length (past_errors h))%nat) by (rewrite El; cbn; lia). clear El a l.
      pose proof (past_w B h HB W) as Bes. set (es := past_errors h) in *. clearbody es. unfold zlen.
      replace (Z.min (Z.of_nat (length es)) (Z.of_nat D) =? 0) with false by lia.
      set (last := if _ =? Z.of_nat D then f_dindex f else 0).
      pose proof (ring_index _ _ _ _ HD R2) as Hi. pose proof (fl_len _ _ _ _ Fl) as Ld. rewrite (proj1 R2) in Ld.
      assert (Hlast : 0 <= last < Z.of_nat D) by (unfold last; rewrite (s_dindex _ _ _ S); destruct (_ =? Z.of_nat D); lia).
      rewrite (zget_ok _ _ _ f0) by (unfold zlen; rewrite Ld; exact Hlast). cbn [obind].
      assert (Nx : num k (nth (Z.to_nat last) (f_dhistory f) f0) (nth (Nat.min D (length es) - 1) es 0)).
      { pose proof (Q (Nat.min D (length (freadings H) - 1))) as NO.
        replace (nth (Nat.min D (length es) - 1) es 0) with (nth (Z.to_nat last) (derivative_history p) 0).
        - apply (fl_cell _ _ _ _ Fl).
          assert (Hb : nth (Z.to_nat last) b 0 = nth (Nat.min D (length es) - 1) (map isnan (tl (freadings H))) 0).
          { unfold last. rewrite (s_dindex _ _ _ S). destruct (Z.eqb_spec (Z.min (Z.of_nat (length es)) (Z.of_nat D)) (Z.of_nat D)).
            + rewrite (ring_nth _ _ _ _ HD Rb). f_equal. clear - e0. lia.
            + change (Z.to_nat 0) with O. rewrite (ring_first _ _ _ _ HD Rb) by (rewrite map_length; clear - n Hl Len; lia). rewrite map_length, <- Len. f_equal. clear - n Hl. lia. }
          rewrite Hb. change 0 with (isnan f0). rewrite map_nth. destruct (freadings H) as [|y r]; cbn [tl length] in *; [lia|].
          replace (Nat.min D (Datatypes.S (length r) - 1)) with (Datatypes.S (Nat.min D (length es) - 1)) in NO by (clear - Len HD Hl; lia). cbn [nth] in NO.
          destruct (nth _ r f0); try reflexivity. now destruct NO.
        - unfold last. rewrite (s_dindex _ _ _ S). destruct (Z.eqb_spec (Z.min (Z.of_nat (length es)) (Z.of_nat D)) (Z.of_nat D)).
          + rewrite (ring_nth _ _ _ _ HD R2). f_equal. lia.
          + change (Z.to_nat 0) with O. rewrite (ring_first _ _ _ _ HD R2) by lia. f_equal. lia. }
      replace (f_dthr f) with (derivative_threshold p) by (symmetry; apply S). rewrite Hdt, negb_involutive.
      exists (if deriv_on h && SFltb (f_dlow f) (fABS (fpid_current_error f)) then f0
        else F32 (fmul (f_Kd f) (F32 (fsub (fpid_current_error f) (nth (Z.to_nat last) (f_dhistory f) f0))))).
      split; [destruct (deriv_on h && SFltb (f_dlow f) (fABS (fpid_current_error f))); reflexivity|].
      pose proof (num_ltb k _ _ _ _ (s_dlow _ _ _ S) (fabs_num k _ _ Ne)) as Hlt. rewrite Hdl in Hlt. rewrite Hlt.
      destruct (deriv_on h && (deriv_limit h <? Z.abs (error h))) eqn:Ec.
      + rewrite Z.mul_0_r. exists 0. split; [apply num_zero|exact near_zero].
      + unfold F32, fmul, fsub. rewrite Gd. replace (k - q) with (- q + k) in * by lia. apply mul_near; auto; [|lia|rewrite HM; clear - Hs; lia].
        apply num_sub; auto; [|lia]. assert (Bx : Z.abs (nth (Nat.min D (length es) - 1) es 0) <= 2 * B); [|clear - Bx Be HB4; lia].
        rewrite Forall_forall in Bes. apply Bes, nth_In. clear - HD Hl. lia. }
  destruct Np as (e' & Np & Ve), Ni as (fi & Ri & i' & Ni & Vi), Nd as (fd & Rd & d' & Nd & Vd).
  assert (Kq : -149 <= k - q <= 0) by (clear - Hk Hq Hq0; lia).
  destruct (add_near (k - q) _ _ _ _ Np Ni Kq) as (s' & Ns & Vs); [rewrite HM; apply (first_sum e i); auto; pose proof (Z.abs_nonneg d) as P0; clear - Hs P0; clearbody e i; lia|].
  destruct (all_sums e i d e' i' d' s' M Ve Vi Vd Vs Hs) as [Bs Tot].
  destruct (add_near (k - q) _ _ _ _ Ns Nd Kq) as (r' & Nr & Vr); [rewrite HM; exact Bs|]. specialize (Tot r' Vr).
  exists f, fi, fd. unfold fpid_compute. rewrite Ri, Rd. cbn [obind]. eexists.
  split; [exact Rf|]. split; [reflexivity|]. split; [reflexivity|]. split; [reflexivity|].
  exists e', i', d', r'.
  split; [apply Np|]. split; [exact Ve|]. split; [apply Ni|]. split; [exact Vi|]. split; [apply Nd|]. split; [exact Vd|]. split; [apply Nr|exact Tot].
Qed.
End Runs.
