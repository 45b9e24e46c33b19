(** Order of the outputs of the controller configured with float. *)
From Verif Require Import Base BaseLemmas Loop Float FloatSpec FloatOrder PidFltModel PidFltSpec PidFltSystem PidFltProofs PidMonoSpec.
From Coq Require Import Floats.SpecFloat ZifyBool.

Notation num32 := (number 24 128).

Section Order.
Variables N D : nat.
Hypothesis HN : (0 < N)%nat.
Hypothesis HD : (0 < D)%nat.

Lemma n0 : num32 f0. Proof. reflexivity. Qed.

Definition fgood (f : fpid) : Prop :=
  num32 (f_Kp f) /\ num32 (f_Ki f) /\ num32 (f_Kd f) /\ num32 (f_sp f) /\ num32 (f_input f) /\ Forall num32 (f_history f) /\ Forall num32 (f_dhistory f).

Lemma upd_forall : forall (P : spec_float -> Prop) l i x, Forall P l -> P x -> Forall P (upd l i x).
Proof. intros P l. induction l as [|y l IH]; intros [|i] x Hl Hx; cbn [upd]; inversion Hl; subst; auto. Qed.

Lemma repeat_num : forall n, Forall num32 (repeat f0 n).
Proof. intros n. induction n; cbn [repeat]; constructor; auto. apply n0. Qed.

Lemma error_num : forall f, fgood f -> num32 (fpid_current_error f).
Proof. intros f (_ & _ & _ & Hs & Hi & _). apply (sub_num 24 128 ltac:(lia) ltac:(lia)); assumption. Qed.

(** What an input leaves of the controller. *)
Lemma input_keeps : forall f v f', fwell N D f -> fgood f -> num32 v -> fpid_add_input N D f v = Done f' ->
  fgood f' /\ f_sp f' = f_sp f /\ f_Kp f' = f_Kp f /\ f_Ki f' = f_Ki f /\ f_Kd f' = f_Kd f /\
  f_auto f' = f_auto f /\ f_len f' = f_len f /\ f_hen f' = f_hen f /\ f_dthr f' = f_dthr f.
Proof using HN HD.
  intros f v f' (W1 & W2 & W3 & W4 & W5) G Nv H. pose proof (error_num f G) as Noe. destruct G as (G1 & G2 & G3 & G4 & G5 & G6 & G7).
  unfold fpid_add_input in H. cbv zeta in H.
  change (fpid_current_error (fset_input f v)) with (F32 (fsub (f_sp f) v)) in H.
  assert (Ne : num32 (F32 (fsub (f_sp f) v))) by (apply (sub_num 24 128 ltac:(lia) ltac:(lia)); assumption).
  set (e := F32 (fsub (f_sp f) v)) in *. set (oe := fpid_current_error f) in *. set (s := if SFltb f0 e then 1 else _) in H.
  set (g := if f_sign (fset_input f v) =? s then _ else _) in H.
  assert (Q : fwell N D g /\ fgood g /\ f_sp g = f_sp f /\ f_Kp g = f_Kp f /\ f_Ki g = f_Ki f /\ f_Kd g = f_Kd f /\
    f_auto g = f_auto f /\ f_len g = f_len f /\ f_hen g = f_hen f /\ f_dthr g = f_dthr f).
  { unfold g. destruct (_ =? s); [|destruct (_ =? 0)]; unfold fwell, fgood; cbn; repeat split; try assumption; try lia; try tauto.
    - now rewrite repeat_length.
    - apply repeat_num. }
  destruct Q as (Wg & Gg & Q). clearbody g e oe s. destruct Wg as (V1 & V2 & V3 & V4 & V5). destruct Gg as (K1 & K2 & K3 & K4 & K5 & K6 & K7).
  assert (Hs : exists h, fstore_error g e = Done h /\ Forall num32 h).
  { unfold fstore_error. assert (Hz : forall x, num32 x -> exists h, zset (f_history g) (f_index g) x = Done h /\ Forall num32 h).
    { intros x Nx. rewrite zset_ok by (unfold zlen; lia). eexists. split; [reflexivity|]. now apply upd_forall. }
    repeat match goal with |- context [if ?c then _ else _] => destruct c end; auto using n0. eauto. }
  destruct Hs as (h & Hs & Nh). rewrite Hs in H. cbn [obind fset_history f_first] in H.
  destruct (f_first g =? 0).
  - injection H as <-. unfold fgood. cbn. tauto.
  - cbn [fset_history f_dhistory f_dindex] in H. rewrite zset_ok in H by (unfold zlen; lia). cbn [obind] in H. injection H as <-.
    pose proof (upd_forall num32 (f_dhistory g) (Z.to_nat (f_dindex g)) oe K7 Noe). unfold fgood. cbn. tauto.
Qed.

Lemma newest_step : forall A (get : fop -> option A) d o H, newest get d (o :: H) = match get o with Some a => a | None => newest get d H end.
Proof. reflexivity. Qed.

Lemma run_told : forall H, Forall floats H -> exists f, frun N D H = Done f /\ fwell N D f /\ fgood f /\ f_sp f = fsetpoint H /\
  gains H = (f_Kp f, f_Ki f, f_Kd f) /\ f_auto f = auto_clear H /\ f_len f = low_enabled H /\ f_hen f = high_enabled H /\ f_dthr f = deriv_enabled H.
Proof using HN HD.
  induction H as [|o H IH]; intros A.
  - exists (fpid_init N D). split; [reflexivity|]. split; [unfold fwell; cbn; rewrite !repeat_length; lia|].
    split; [unfold fgood; cbn; auto 10 using n0, repeat_num|]. cbn. tauto.
  - apply Forall_cons_iff in A as [Ho A]. destruct (IH A) as (f & R & W & G & E1 & E2 & E3 & E4 & E5 & E6). cbn [frun]. rewrite R. cbn [obind].
    destruct o; cbn [fstep fsetpoint]; unfold gains, auto_clear, low_enabled, high_enabled, deriv_enabled in *; cbn [newest floats] in *;
      try (eexists; split; [reflexivity|]; split; [exact W|]; split; [destruct G as (G1 & G2 & G3 & G4 & G5 & G6 & G7); unfold fgood; cbn; tauto|]; cbn; tauto).
    + destruct (input_shape N D HN HD f v W) as (h & f' & _ & Rf & W' & _). rewrite Rf.
      destruct (input_keeps f v f' W G Ho Rf) as (G' & K1 & K2 & K3 & K4 & K5 & K6 & K7 & K8). exists f'.
      rewrite K1, K2, K3, K4, K5, K6, K7, K8. split; [reflexivity|]. split; [exact W'|]. split; [exact G'|]. tauto.
    + eexists. split; [reflexivity|]. split; [destruct W as (W1 & W2 & W3 & W4 & W5); unfold fwell; cbn; rewrite repeat_length; lia|].
      split; [destruct G as (G1 & G2 & G3 & G4 & G5 & G6 & G7); unfold fgood; cbn; auto 10 using repeat_num|]. cbn. tauto.
Qed.

(** * Outputs of two controllers *)

Definition ahead (f1 f2 : fpid) : Prop :=
  f_Kp f2 = f_Kp f1 /\ f_Ki f2 = f_Ki f1 /\ f_Kd f2 = f_Kd f1 /\ f_dthr f1 = 0 /\ f_dthr f2 = 0 /\
  f_dsize f2 = f_dsize f1 /\ f_dindex f2 = f_dindex f1 /\ f_dhistory f2 = f_dhistory f1 /\
  below (fpid_current_error f1) (fpid_current_error f2) /\ Forall2 below (f_history f1) (f_history f2).

Lemma loop_below : forall l1 l2 pre1 pre2 a1 a2 r1 r2, length pre1 = length pre2 -> Forall num32 l1 -> Forall num32 l2 -> Forall2 below l1 l2 ->
  num32 a1 -> num32 a2 -> below a1 a2 ->
  for_up (length l1) (zlen pre1) (fadd_cell (pre1 ++ l1)) a1 = Done r1 -> for_up (length l2) (zlen pre2) (fadd_cell (pre2 ++ l2)) a2 = Done r2 ->
  num32 r1 /\ num32 r2 /\ below r1 r2.
Proof.
  induction l1 as [|x1 l1 IH]; intros l2 pre1 pre2 a1 a2 r1 r2 L F1 F2 B Na1 Na2 Ba E1 E2; inversion B; subst.
  - cbn [length for_up] in E1, E2. injection E1 as <-. injection E2 as <-. auto.
  - inversion F1; subst. inversion F2; subst. cbn [length for_up] in E1, E2.
    assert (Z : forall (p : list spec_float) x q, zget (p ++ x :: q) (zlen p) = Done x).
    { intros p x q. rewrite (zget_ok _ _ _ f0) by (unfold zlen; rewrite app_length; cbn [length]; lia). unfold zlen. rewrite Nat2Z.id, app_nth2, Nat.sub_diag by lia. reflexivity. }
    unfold fadd_cell at 1 in E1. unfold fadd_cell at 1 in E2. rewrite Z in E1, E2. cbn [obind] in E1, E2.
    assert (S1 : zlen pre1 + 1 = zlen (pre1 ++ [x1])) by (unfold zlen; rewrite app_length; cbn [length]; lia).
    assert (S2 : zlen pre2 + 1 = zlen (pre2 ++ [y])) by (unfold zlen; rewrite app_length; cbn [length]; lia).
    replace (pre1 ++ x1 :: l1) with ((pre1 ++ [x1]) ++ l1) in E1 by (rewrite <- app_assoc; reflexivity).
    replace (pre2 ++ y :: l') with ((pre2 ++ [y]) ++ l') in E2 by (rewrite <- app_assoc; reflexivity).
    rewrite S1 in E1. rewrite S2 in E2.
    refine (IH l' (pre1 ++ [x1]) (pre2 ++ [y]) _ _ r1 r2 _ _ _ _ _ _ _ E1 E2); try assumption.
    + rewrite !app_length. cbn [length]. lia.
    + apply (add_num 24 128); [lia|lia|assumption|assumption].
    + apply (add_num 24 128); [lia|lia|assumption|assumption].
    + apply (add_below 24 128); try assumption; lia.
Qed.

Lemma mul_swap : forall x y, num32 x -> num32 y -> SFleb f0 y = true -> SFmul 24 128 x y = SFmul 24 128 y x.
Proof.
  intros [sx|sx| |sx mx ex] [sy|sy| |sy my ey] Nx Ny H; cbn [SFmul]; rewrite 1?(xorb_comm sx sy); try reflexivity.
  rewrite (Pos.mul_comm mx my), (Z.add_comm ex ey). reflexivity.
Qed.

Lemma compute_below : forall f1 f2 r1 r2, fwell N D f1 -> fwell N D f2 -> fgood f1 -> fgood f2 -> ahead f1 f2 ->
  SFleb f0 (f_Kp f1) = true -> SFleb f0 (f_Ki f1) = true -> SFleb f0 (f_Kd f1) = true ->
  fpid_compute N D f1 = Done r1 -> fpid_compute N D f2 = Done r2 -> below r1 r2.
Proof using HN HD.
  intros f1 f2 r1 r2 W1 W2 G1 G2 A Pp Pi Pd H1 H2. pose proof (error_num f1 G1) as Ne1. pose proof (error_num f2 G2) as Ne2.
  destruct A as (A1 & A2 & A3 & A4 & A5 & A6 & A7 & A8 & A9 & A10).
  destruct G1 as (K1 & K2 & K3 & K4 & K5 & K6 & K7). destruct G2 as (L1 & L2 & L3 & L4 & L5 & L6 & L7).
  unfold fpid_compute in H1, H2. cbv zeta in H1, H2.
  assert (P : num32 (fpid_compute_p f1) /\ num32 (fpid_compute_p f2) /\ below (fpid_compute_p f1) (fpid_compute_p f2)).
  { unfold fpid_compute_p, F32, fmul. rewrite A1. split; [apply mul_num; try lia; assumption|]. split; [apply mul_num; try lia; assumption|].
    apply mul_below; try lia; assumption. }
  destruct P as (P1 & P2 & P3).
  destruct (fpid_compute_i N f1) as [i1| | |] eqn:I1; try discriminate H1. destruct (fpid_compute_i N f2) as [i2| | |] eqn:I2; try discriminate H2.
  cbn [obind] in H1, H2.
  assert (I : num32 i1 /\ num32 i2 /\ below i1 i2).
  { unfold fpid_compute_i in I1, I2. change (fun iterm i => do x <- zget ?l i; Done (F32 (fadd iterm x))) with (fadd_cell l) in I1.
    change (fun iterm i => do x <- zget ?l i; Done (F32 (fadd iterm x))) with (fadd_cell l) in I2.
    destruct (for_up N 0 (fadd_cell (f_history f1)) f0) as [s1| | |] eqn:S1; try discriminate I1.
    destruct (for_up N 0 (fadd_cell (f_history f2)) f0) as [s2| | |] eqn:S2; try discriminate I2. cbn [obind] in I1, I2.
    injection I1 as <-. injection I2 as <-. unfold F32, fmul. rewrite A2.
    destruct (loop_below (f_history f1) (f_history f2) [] [] f0 f0 s1 s2 eq_refl K6 L6 A10 n0 n0 (below_refl f0)) as (T1 & T2 & T3).
    { rewrite (proj1 W1). exact S1. }
    { rewrite (proj1 W2). exact S2. }
    rewrite !(mul_swap _ (f_Ki f1)) by assumption.
    split; [apply mul_num; try lia; assumption|]. split; [apply mul_num; try lia; assumption|]. apply mul_below; try lia; assumption. }
  destruct I as (J1 & J2 & J3).
  destruct (fpid_compute_d D f1) as [d1| | |] eqn:D1; try discriminate H1. destruct (fpid_compute_d D f2) as [d2| | |] eqn:D2; try discriminate H2.
  cbn [obind] in H1, H2.
  assert (I : num32 d1 /\ num32 d2 /\ below d1 d2).
  { unfold fpid_compute_d in D1, D2. cbv zeta in D1, D2. rewrite A6, A7, A8, A3, A5 in D2. rewrite A4 in D1.
    destruct (f_dsize f1 =? 0). { injection D1 as <-. injection D2 as <-. split; [apply n0|]. split; [apply n0|apply below_refl]. }
    set (k := if f_dsize f1 =? Z.of_nat D then f_dindex f1 else 0) in *.
    assert (Kb : 0 <= k < zlen (f_dhistory f1)) by (destruct W1 as (_ & _ & V3 & V4 & V5); unfold k, zlen; destruct (_ =? _); lia).
    rewrite (zget_ok _ _ _ f0) in D1, D2 by exact Kb. cbn [obind] in D1, D2. change (negb (0 =? 0)) with false in D1, D2. cbn [andb] in D1, D2.
    set (x := nth (Z.to_nat k) (f_dhistory f1) f0) in *.
    assert (Nx : num32 x). { destruct (nth_in_or_default (Z.to_nat k) (f_dhistory f1) f0) as [I0| E0]; [|unfold x; rewrite E0; apply n0]. rewrite Forall_forall in K7. now apply K7. }
    injection D1 as <-. injection D2 as <-. unfold F32, fmul, fsub.
    assert (M1 : num32 (SFsub 24 128 (fpid_current_error f1) x)) by (apply sub_num; try lia; assumption).
    assert (M2 : num32 (SFsub 24 128 (fpid_current_error f2) x)) by (apply sub_num; try lia; assumption).
    split; [apply mul_num; try lia; assumption|]. split; [apply mul_num; try lia; assumption|].
    apply mul_below; try lia; try assumption. apply sub_below; try lia; try assumption. apply below_refl. }
  destruct I as (M1 & M2 & M3). injection H1 as <-. injection H2 as <-. unfold F32, fadd.
  apply add_below; try lia; try assumption; [apply add_num; try lia; assumption|apply add_num; try lia; assumption|].
  apply add_below; try lia; assumption.
Qed.

Lemma forall2_refl : forall l, Forall2 below l l.
Proof. induction l; constructor; auto using below_refl. Qed.

Lemma forall2_upd_below : forall l i x y, below x y -> Forall2 below (upd l i x) (upd l i y).
Proof. induction l as [|z l IH]; intros [|i] x y H; cbn [upd]; constructor; auto using below_refl, forall2_refl. Qed.

(** * Set points *)

Lemma setpoint_l : forall H s1 s2 f1 f2 r1 r2, Forall floats H -> num32 s1 -> num32 s2 -> positive_gains H -> deriv_enabled H = 0 ->
  SFleb s1 s2 = true ->
  frun N D (FSetpoint s1 :: H) = Done f1 -> frun N D (FSetpoint s2 :: H) = Done f2 ->
  fpid_compute N D f1 = Done r1 -> fpid_compute N D f2 = Done r2 -> r1 <> S754_nan -> r2 <> S754_nan -> SFleb r1 r2 = true.
Proof using HN HD.
  intros H s1 s2 f1 f2 r1 r2 F N1 N2 P Hd L R1 R2 C1 C2 Q1 Q2.
  destruct (run_told H F) as (f & R & W & G & E1 & E2 & E3 & E4 & E5 & E6). cbn [frun] in R1, R2. rewrite R in R1, R2. cbn [obind fstep] in R1, R2.
  injection R1 as <-. injection R2 as <-. unfold positive_gains in P. rewrite E2 in P. destruct P as (P1 & P2 & P3).
  assert (G' : forall s, num32 s -> fgood (fpid_set_sp f s)) by (intros s Ns; destruct G as (G1 & G2 & G3 & G4 & G5 & G6 & G7); unfold fgood; cbn; tauto).
  refine (compute_below (fpid_set_sp f s1) (fpid_set_sp f s2) r1 r2 W W (G' s1 N1) (G' s2 N2) _ P1 P2 P3 C1 C2 Q1 Q2).
  unfold ahead. cbn. rewrite E6, Hd. do 8 (split; [reflexivity|]). split; [|apply forall2_refl].
  assert (Ni : num32 (f_input f)) by apply G.
  exact (sub_below 24 128 ltac:(lia) ltac:(lia) s1 (f_input f) s2 (f_input f) N1 N2 Ni Ni (below_leb _ _ L) (below_refl _)).
Qed.

(** * Readings *)

(** An input off target of a controller without thresholds and automatic clearing. *)
Lemma input_off : forall f, fwell N D f -> f_auto f = 0 -> f_len f = 0 -> f_hen f = 0 ->
  exists n i dh, forall v, let e := F32 (fsub (f_sp f) v) in SFltb f0 e = true \/ SFltb e f0 = true ->
    exists f', fpid_add_input N D f v = Done f' /\ f_history f' = upd (f_history f) (Z.to_nat (f_index f)) e /\ f_input f' = v /\
      f_dsize f' = n /\ f_dindex f' = i /\ f_dhistory f' = dh.
Proof using HN HD.
  intros f (W1 & W2 & W3 & W4 & W5) Ea El Eh.
  exists (if f_first f =? 0 then f_dsize f else if f_dsize f <? Z.of_nat D then f_dsize f + 1 else f_dsize f),
    (if f_first f =? 0 then f_dindex f else (f_dindex f + 1) mod Z.of_nat D),
    (if f_first f =? 0 then f_dhistory f else upd (f_dhistory f) (Z.to_nat (f_dindex f)) (fpid_current_error f)).
  intros v e He. unfold fpid_add_input. cbv zeta. change (fpid_current_error (fset_input f v)) with e.
  set (oe := fpid_current_error f). set (s := if SFltb f0 e then 1 else _).
  set (g := if f_sign (fset_input f v) =? s then _ else _).
  assert (Q : f_history g = f_history f /\ f_index g = f_index f /\ f_first g = f_first f /\ f_dsize g = f_dsize f /\ f_dindex g = f_dindex f /\
    f_dhistory g = f_dhistory f /\ f_len g = 0 /\ f_hen g = 0 /\ f_input g = v).
  { unfold g. cbn [fset_input fset_sign f_sign f_auto]. rewrite Ea. destruct (f_sign f =? s); cbn; tauto. }
  clearbody g s oe e. destruct Q as (Q1 & Q2 & Q3 & Q4 & Q5 & Q6 & Q7 & Q8 & Q9).
  assert (Hs : fstore_error g e = Done (upd (f_history f) (Z.to_nat (f_index f)) e)).
  { unfold fstore_error. rewrite Q1, Q2, Q7, Q8. cbn [Z.eqb orb]. rewrite zset_ok by (unfold zlen; lia).
    destruct (SFltb f0 e); [reflexivity|]. destruct He as [He|He]; [discriminate He|]. now rewrite He. }
  rewrite Hs. cbn [obind fset_history f_first]. rewrite Q3. destruct (f_first f =? 0).
  - eexists. split; [reflexivity|]. cbn. tauto.
  - cbn [fset_history f_dhistory f_dindex]. rewrite zset_ok by (unfold zlen; rewrite Q5, Q6; lia). cbn [obind]. eexists. split; [reflexivity|]. cbn. rewrite Q4, Q5, Q6. tauto.
Qed.

Lemma off_sign : forall e, e <> S754_nan -> (forall s, e <> S754_zero s) -> SFltb f0 e = true \/ SFltb e f0 = true.
Proof. intros [s|[]| |[] m x] H1 H2; try (now left); try (now right); now elim (H2 s). Qed.

Lemma nan_out : forall f r, fpid_current_error f = S754_nan -> fpid_compute N D f = Done r -> r = S754_nan.
Proof.
  intros f r E H. unfold fpid_compute in H. cbv zeta in H. unfold fpid_compute_p in H. rewrite E in H.
  assert (X : F32 (fmul (f_Kp f) S754_nan) = S754_nan) by (destruct (f_Kp f); reflexivity). rewrite X in H.
  destruct (fpid_compute_i N f) as [i| | |]; try discriminate H. destruct (fpid_compute_d D f) as [d| | |]; try discriminate H. cbn [obind] in H. now injection H as <-.
Qed.

Lemma reading_l : forall H v1 v2 f1 f2 r1 r2, Forall floats H -> num32 v1 -> num32 v2 -> positive_gains H ->
  auto_clear H = 0 -> low_enabled H = 0 -> high_enabled H = 0 -> deriv_enabled H = 0 ->
  SFleb v2 v1 = true -> SFeqb (fsetpoint H) v1 = false -> SFeqb (fsetpoint H) v2 = false ->
  frun N D (FInput v1 :: H) = Done f1 -> frun N D (FInput v2 :: H) = Done f2 ->
  fpid_compute N D f1 = Done r1 -> fpid_compute N D f2 = Done r2 -> r1 <> S754_nan -> r2 <> S754_nan -> SFleb r1 r2 = true.
Proof using HN HD.
  intros H v1 v2 f1 f2 r1 r2 F N1 N2 P Ha Hl Hh Hd L O1 O2 R1 R2 C1 C2 Q1 Q2.
  destruct (run_told H F) as (f & R & W & G & E1 & E2 & E3 & E4 & E5 & E6). cbn [frun] in R1, R2. rewrite R in R1, R2. cbn [obind fstep] in R1, R2.
  unfold positive_gains in P. rewrite E2 in P. destruct P as (P1 & P2 & P3). rewrite <- E1 in O1, O2.
  assert (Nsp : num32 (f_sp f)) by apply G.
  destruct (input_keeps f v1 f1 W G N1 R1) as (G1 & S1 & X1 & X2 & X3 & _ & _ & _ & X4).
  destruct (input_keeps f v2 f2 W G N2 R2) as (G2 & S2 & Y1 & Y2 & Y3 & _ & _ & _ & Y4).
  destruct (input_shape N D HN HD f v1 W) as (h1 & g1 & _ & Rg1 & W1 & _). rewrite R1 in Rg1. injection Rg1 as <-.
  destruct (input_shape N D HN HD f v2 W) as (h2 & g2 & _ & Rg2 & W2 & _). rewrite R2 in Rg2. injection Rg2 as <-.
  destruct (input_off f W (eq_trans E3 Ha) (eq_trans E4 Hl) (eq_trans E5 Hh)) as (n & i & dh & Off).
  assert (Hin : forall v f', fpid_add_input N D f v = Done f' -> f_input f' = v).
  { intros v f' Hv. destruct W as (V1 & V2 & V3 & V4 & V5). unfold fpid_add_input in Hv. cbv zeta in Hv.
    set (s := if SFltb f0 _ then 1 else _) in Hv. set (g := if _ =? s then _ else _) in Hv.
    assert (Eg : f_input g = v) by (unfold g; destruct (_ =? s); [|destruct (_ =? 0)]; reflexivity). clearbody g.
    destruct (fstore_error g _) as [h| | |]; try discriminate Hv. cbn [obind] in Hv. destruct (f_first _ =? 0); [now injection Hv as <-|].
    destruct (zset _ _ _) as [q| | |]; try discriminate Hv. cbn [obind] in Hv. now injection Hv as <-. }
  assert (Er1 : fpid_current_error f1 = F32 (fsub (f_sp f) v1)) by (unfold fpid_current_error; rewrite S1, (Hin v1 f1 R1); reflexivity).
  assert (Er2 : fpid_current_error f2 = F32 (fsub (f_sp f) v2)) by (unfold fpid_current_error; rewrite S2, (Hin v2 f2 R2); reflexivity).
  assert (T : forall v g r, num32 v -> fpid_compute N D g = Done r -> r <> S754_nan -> fpid_current_error g = F32 (fsub (f_sp f) v) -> SFeqb (f_sp f) v = false ->
    SFltb f0 (F32 (fsub (f_sp f) v)) = true \/ SFltb (F32 (fsub (f_sp f) v)) f0 = true).
  { intros v g r Nv Cr Qr Er O. apply off_sign.
    - intros X. apply Qr. apply (nan_out g r); [now rewrite Er|exact Cr].
    - intros s. apply (sub_nonzero 24 128); try lia; assumption. }
  destruct (Off v1 (T v1 f1 r1 N1 C1 Q1 Er1 O1)) as (g1 & Rg1 & H1 & _ & B1 & B2 & B3). rewrite R1 in Rg1. injection Rg1 as <-.
  destruct (Off v2 (T v2 f2 r2 N2 C2 Q2 Er2 O2)) as (g2 & Rg2 & H2 & _ & B4 & B5 & B6). rewrite R2 in Rg2. injection Rg2 as <-.
  assert (Be : below (F32 (fsub (f_sp f) v1)) (F32 (fsub (f_sp f) v2))).
  { apply (sub_below 24 128); try lia; try assumption; [apply below_refl|now apply below_leb]. }
  rewrite <- X1 in P1. rewrite <- X2 in P2. rewrite <- X3 in P3.
  refine (compute_below f1 f2 r1 r2 W1 W2 G1 G2 _ P1 P2 P3 C1 C2 Q1 Q2).
  unfold ahead. rewrite Er1, Er2, H1, H2, B1, B2, B3, B4, B5, B6, X1, X2, X3, Y1, Y2, Y3, X4, Y4, E6, Hd.
  do 8 (split; [reflexivity|]). split; [exact Be|]. now apply forall2_upd_below.
Qed.

End Order.
