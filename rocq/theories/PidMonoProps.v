(** Order of the outputs of the controller configured with float: theorems for C186 and C187. *)
From Verif Require Import Base Float FloatSpec PidFltModel PidFltSpec PidFltSystem PidMonoSpec PidMonoProofs.
From Coq Require Import Floats.SpecFloat.

(** * C186: without a derivative threshold a greater set point never gives a smaller output, whatever was called before
      and whatever rounding, underflow and overflow did. *)
Theorem pid_float_setpoint_monotone : forall N D, (0 < N)%nat -> (0 < D)%nat -> forall H s1 s2 f1 f2 r1 r2,
  Forall floats H -> number 24 128 s1 -> number 24 128 s2 -> positive_gains H -> deriv_enabled H = 0 -> SFleb s1 s2 = true ->
  frun N D (FSetpoint s1 :: H) = Done f1 -> frun N D (FSetpoint s2 :: H) = Done f2 ->
  fpid_compute N D f1 = Done r1 -> fpid_compute N D f2 = Done r2 -> r1 <> S754_nan -> r2 <> S754_nan -> SFleb r1 r2 = true.
Proof. exact setpoint_l. Qed.
Print Assumptions pid_float_setpoint_monotone.

Definition fl (n : Z) : spec_float := F32 (of_int n).
Definition tenth : spec_float := S754_finite false 13421773 (-27).

(** Gains of 1/10, which is not a float; set points 3 and infinite. *)
Definition pm : list fop := [FInput (fl 1); FInput tenth; FHighThreshold 1; FHighEnable 1; FAutoClear 1; FTune tenth tenth tenth].
Example pid_float_setpoint_monotone_case :
  Forall floats pm /\ positive_gains pm /\ deriv_enabled pm = 0 /\
  SFleb (fl 3) (S754_infinity false) = true /\
  (do f <- frun 4 2 (FSetpoint (fl 3) :: pm); fpid_compute 4 2 f) = Done (S754_finite false 13421772 (-25)) /\
  (do f <- frun 4 2 (FSetpoint (S754_infinity false) :: pm); fpid_compute 4 2 f) = Done (S754_infinity false).
Proof. split; [repeat (apply Forall_cons || apply Forall_nil); cbn; auto; repeat split|]. repeat split; vm_compute; reflexivity. Qed.

(** With the threshold the derivative term drops out above it: the claim needs it off. *)
Example pid_float_setpoint_threshold :
  (do f <- frun 4 2 [FSetpoint (fl 3); FInput (fl 1); FInput (fl 5); FDerivThreshold (fl 3) f0; FDerivEnable 1; FTune f0 f0 (fl 1)]; fpid_compute 4 2 f) = Done (fl 7) /\
  (do f <- frun 4 2 [FSetpoint (fl 5); FInput (fl 1); FInput (fl 5); FDerivThreshold (fl 3) f0; FDerivEnable 1; FTune f0 f0 (fl 1)]; fpid_compute 4 2 f) = Done f0.
Proof. split; vm_compute; reflexivity. Qed.

(** * C187: a smaller reading never gives a smaller output.  Refuted: after an error of 10, an error of 0 gives the output 10
      and an error of 1 gives 1, because an error of 0 is not stored. *)
Theorem pid_float_reading_monotone_refuted : exists N D H v1 v2 f1 f2 r1 r2, (0 < N)%nat /\ (0 < D)%nat /\
  Forall floats H /\ number 24 128 v1 /\ number 24 128 v2 /\ positive_gains H /\
  auto_clear H = 0 /\ low_enabled H = 0 /\ high_enabled H = 0 /\ deriv_enabled H = 0 /\ SFleb v2 v1 = true /\
  frun N D (FInput v1 :: H) = Done f1 /\ frun N D (FInput v2 :: H) = Done f2 /\
  fpid_compute N D f1 = Done r1 /\ fpid_compute N D f2 = Done r2 /\ SFltb r2 r1 = true.
Proof.
  exists 1%nat, 1%nat, [FInput (fl (-10)); FTune f0 (fl 1) f0], f0, (fl (-1)),
    (match frun 1 1 [FInput f0; FInput (fl (-10)); FTune f0 (fl 1) f0] with Done f => f | _ => fpid_init 1 1 end),
    (match frun 1 1 [FInput (fl (-1)); FInput (fl (-10)); FTune f0 (fl 1) f0] with Done f => f | _ => fpid_init 1 1 end), (fl 10), (fl 1).
  split; [lia|]. split; [lia|]. split; [repeat (apply Forall_cons || apply Forall_nil); cbn; auto; repeat split|].
  do 2 (split; [vm_compute; reflexivity|]). split; [repeat split; vm_compute; reflexivity|].
  repeat match goal with |- _ /\ _ => split end; vm_compute; reflexivity.
Qed.
Print Assumptions pid_float_reading_monotone_refuted.

(** Missing: readings equal to the set point. *)
Theorem pid_float_reading_monotone_partial : forall N D, (0 < N)%nat -> (0 < D)%nat -> forall H v1 v2 f1 f2 r1 r2,
  Forall floats H -> number 24 128 v1 -> number 24 128 v2 -> positive_gains H ->
  auto_clear H = 0 -> low_enabled H = 0 -> high_enabled H = 0 -> deriv_enabled H = 0 -> SFleb v2 v1 = true ->
  SFeqb (fsetpoint H) v1 = false -> SFeqb (fsetpoint H) v2 = false ->
  frun N D (FInput v1 :: H) = Done f1 -> frun N D (FInput v2 :: H) = Done f2 ->
  fpid_compute N D f1 = Done r1 -> fpid_compute N D f2 = Done r2 -> r1 <> S754_nan -> r2 <> S754_nan -> SFleb r1 r2 = true.
Proof. exact reading_l. Qed.
Print Assumptions pid_float_reading_monotone_partial.

Definition pr : list fop := [FInput (fl 1); FInput tenth; FSetpoint (fl 2); FTune tenth tenth tenth].
Example pid_float_reading_monotone_case :
  Forall floats pr /\ positive_gains pr /\ auto_clear pr = 0 /\ low_enabled pr = 0 /\ high_enabled pr = 0 /\ deriv_enabled pr = 0 /\
  SFleb tenth (fl 3) = true /\ SFeqb (fsetpoint pr) (fl 3) = false /\ SFeqb (fsetpoint pr) tenth = false /\
  (do f <- frun 4 2 (FInput (fl 3) :: pr); do r <- fpid_compute 4 2 f; Done (SFltb r f0)) = Done true /\
  (do f <- frun 4 2 (FInput tenth :: pr); do r <- fpid_compute 4 2 f; Done (SFltb f0 r)) = Done true.
Proof. split; [repeat (apply Forall_cons || apply Forall_nil); cbn; auto; repeat split|]. repeat split; vm_compute; reflexivity. Qed.
