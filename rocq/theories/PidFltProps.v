(** The controller configured with float. *)
From Verif Require Import Base Float FloatSpec PidSpec PidSystem PidFltModel PidFltSpec PidFltSystem PidFltProofs.
From Coq Require Import Floats.SpecFloat.

Definition one : spec_float := F32 (of_int 1).
Definition minus_inf : spec_float := S754_infinity true.
Definition half : spec_float := S754_finite false 8388608 (-24).
Definition quarter : spec_float := S754_finite false 8388608 (-25).

(** C166. *)
Theorem pid_float_total : forall N D, (0 < N)%nat -> (0 < D)%nat -> forall H,
  exists f i d r, frun N D H = Done f /\ fpid_compute_i N f = Done i /\ fpid_compute_d D f = Done d /\ fpid_compute N D f = Done r.
Proof. exact total_l. Qed.
Print Assumptions pid_float_total.

(** C167. *)
Theorem pid_float_exact : forall N D, (0 < N)%nat -> (0 < D)%nat -> forall k, -149 <= k <= 0 -> forall B, 0 <= B -> 4 * B < 2 ^ 24 ->
  forall H h P I K q, -149 <= k - q -> Z.of_nat N * (2 * B) < 2 ^ 24 ->
  Forall2 (alike k) H h -> Forall (within B) h -> scaled (gain_p h) P q -> scaled (gain_i h) I q -> scaled (gain_d h) K q ->
  let e := P * error h in let i := I * sum (firstn N (contributions N h)) in let d := K * difference D h in
  Z.abs e + Z.abs i + Z.abs d < 2 ^ 24 ->
  exists f fi fd r, frun N D H = Done f /\ worth (fpid_compute_p f) e (k - q) /\ fpid_compute_i N f = Done fi /\ worth fi i (k - q) /\
    fpid_compute_d D f = Done fd /\ worth fd d (k - q) /\ fpid_compute N D f = Done r /\ worth r (e + i + d) (k - q).
Proof. exact exact_l. Qed.
Print Assumptions pid_float_exact.

(** Readings in halves, gains in quarters; a set point of 3, thresholds, readings of 1/2 and 5, and the output -38/8. *)
Definition pf_float : list fop :=
  [FInput (F32 (of_int 5)); FInput half; FHighThreshold 3; FHighEnable 1; FSetpoint (F32 (of_int 3)); FDerivThreshold (F32 (of_int 9)) f0; FDerivEnable 1; FTune quarter half one].
Definition pf_int : list pop :=
  [Input 10; Input 1; HighThreshold 6; HighEnable 1; Setpoint 6; DerivThreshold 18 0; DerivEnable 1; Tune quarter half one].

Example pid_float_exact_applies :
  Forall2 (alike (-1)) pf_float pf_int /\ Forall (within 10) pf_int /\ scaled (gain_p pf_int) 1 2 /\ scaled (gain_i pf_int) 2 2 /\ scaled (gain_d pf_int) 4 2 /\
  1 * error pf_int = -4 /\ 2 * sum (firstn 4 (contributions 4 pf_int)) = 2 /\ 4 * difference 3 pf_int = -36 /\
  (do f <- frun 4 3 pf_float; fpid_compute 4 3 f) = Done (S754_finite true 9961472 (-21)) /\ worth (S754_finite true 9961472 (-21)) (-38) (-1 - 2).
Proof.
  split; [repeat (apply Forall2_cons || apply Forall2_nil); cbn; repeat split; try lia; vm_compute; reflexivity|].
  split; [repeat (apply Forall_cons || apply Forall_nil); cbn; lia || exact Logic.I|].
  assert (S : forall x K q, valid_binary 24 128 x = true -> worth x K (- q) -> 0 <= q <= 149 -> scaled x K q) by (intros; split; auto).
  split; [apply S; [| |lia]; vm_compute; reflexivity|]. split; [apply S; [| |lia]; vm_compute; reflexivity|]. split; [apply S; [| |lia]; vm_compute; reflexivity|].
  repeat split; vm_compute; reflexivity.
Qed.

(** C168. *)
Theorem pid_float_nan : forall N D, (0 < N)%nat -> (0 < D)%nat -> forall k, -149 <= k <= 0 -> forall B, 0 <= B -> 4 * B < 2 ^ 24 ->
  forall H h P I K q, -149 <= k - q -> Z.of_nat N * (2 * B) < 2 ^ 24 ->
  matches k H h -> Forall (within B) h -> scaled (gain_p h) P q -> scaled (gain_i h) I q -> scaled (gain_d h) K q ->
  let e := P * error h in let i := I * sum (firstn N (contributions N h)) in let d := K * difference D h in
  Z.abs e + Z.abs i + Z.abs d < 2 ^ 24 ->
  exists f fi fd r, frun N D H = Done f /\ fpid_compute_i N f = Done fi /\ worth fi i (k - q) /\ fpid_compute_d D f = Done fd /\ fpid_compute N D f = Done r /\
    let l := freadings H in
    (nth 0 l f0 = S754_nan -> fpid_compute_p f = S754_nan /\ r = S754_nan) /\
    (nth 0 l f0 <> S754_nan -> worth (fpid_compute_p f) e (k - q)) /\
    (nth 0 l f0 <> S754_nan -> nth (Nat.min D (length l - 1)) l f0 <> S754_nan -> worth fd d (k - q) /\ worth r (e + i + d) (k - q)).
Proof. exact nan_l. Qed.
Print Assumptions pid_float_nan.

(** A reading that is not a number, and the one after the next. *)
Definition pn_float : list fop := [FInput half; FInput one; FInput S754_nan; FInput half; FSetpoint (F32 (of_int 3)); FTune quarter half one].
Definition pn_int : list pop := [Input 1; Input 2; Input 6; Input 1; Setpoint 6; Tune quarter half one].

Example pid_float_nan_applies :
  matches (-1) pn_float pn_int /\ Forall (within 10) pn_int /\
  (do f <- frun 4 1 pn_float; fpid_compute 4 1 f) = Done (S754_finite false 9699328 (-21)) /\
  (do f <- frun 4 1 (tl pn_float); fpid_compute 4 1 f) = Done S754_nan /\
  (do f <- frun 4 1 (tl (tl pn_float)); fpid_compute 4 1 f) = Done S754_nan.
Proof.
  split; [cbn; repeat split; vm_compute; reflexivity|]. split; [repeat (apply Forall_cons || apply Forall_nil); cbn; lia || exact Logic.I|].
  repeat split; vm_compute; reflexivity.
Qed.

(** C169.  The claim: a reading that is not finite is forgotten by the integral after N further readings.  False: readings at the set point leave it where
    it is. *)
Theorem pid_float_infinite_refuted : exists N D H, (0 < N)%nat /\ (0 < D)%nat /\
  forall n, exists f, frun N D (repeat (FInput f0) n ++ H) = Done f /\ fpid_compute_i N f = Done minus_inf.
Proof.
  exists 4%nat, 1%nat, [FInput (S754_infinity false); FTune one one f0]. split; [lia|]. split; [lia|].
  assert (Q : forall n, exists f, frun 4 1 (repeat (FInput f0) n ++ [FInput (S754_infinity false); FTune one one f0]) = Done f /\
    f_history f = [minus_inf; f0; f0; f0] /\ f_sp f = f0 /\ f_Ki f = one /\ f_sign f = -1 /\ f_first f = 1 /\ f_dindex f = 0 /\ (exists x, f_dhistory f = [x])).
  { induction n as [|n (f & R & E1 & E2 & E3 & E4 & E5 & E6 & (x & E7))].
    - eexists. split; [vm_compute; reflexivity|]. repeat split. eexists. reflexivity.
    - cbn [repeat app frun]. rewrite R. cbn [obind fstep]. destruct f; cbn in E1, E2, E3, E4, E5, E6, E7. subst. eexists. split; [reflexivity|]. cbn. repeat split. eexists. reflexivity. }
  intros n. destruct (Q n) as (f & R & E1 & _ & E3 & _). exists f. split; [exact R|]. unfold fpid_compute_i. rewrite E1, E3. vm_compute. reflexivity.
Qed.
Print Assumptions pid_float_infinite_refuted.

(** What holds: N readings off the target, of any size within bounds, leave nothing of what was there before. *)
Theorem pid_float_infinite_partial : forall N D, (0 < N)%nat -> (0 < D)%nat -> forall k E, 0 <= E ->
  forall H I q, -149 <= k <= 104 -> -149 <= k - q <= 104 -> Z.of_nat N * E < 2 ^ 24 -> Z.abs I * (Z.of_nat N * E) < 2 ^ 24 ->
  off_target k E N H -> scaled (fgain_i H) I q ->
  exists f i s, frun N D H = Done f /\ fpid_compute_i N f = Done i /\ worth i (I * s) (k - q) /\ Z.abs s <= Z.of_nat N * E.
Proof. exact recovers_l. Qed.
Print Assumptions pid_float_infinite_partial.

Example pid_float_infinite_applies :
  off_target (-1) 10 2 [FInput one; FSetpoint half; FInput one; FInput (S754_infinity true); FTune one one f0] /\
  (do f <- frun 2 1 [FInput one; FSetpoint half; FInput one; FInput (S754_infinity true); FTune one one f0]; fpid_compute_i 2 f) = Done (S754_finite true 12582912 (-23)) /\
  (do f <- frun 2 1 [FSetpoint half; FInput one; FInput (S754_infinity true); FTune one one f0]; fpid_compute_i 2 f) = Done (S754_infinity false).
Proof.
  split; [|split; vm_compute; reflexivity]. cbn [off_target fsetpoint]. split; [exists (-1)|split; [exists (-2)|exact Logic.I]]; (split; [|lia]); split; vm_compute; reflexivity.
Qed.
