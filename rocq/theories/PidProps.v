(** Properties C87-C89, C101, C105, C106, C114, C119 and C120: the PID controller.

    [prun N D h] is the controller after the calls [h], newest first, from pid_init; [N] is the size of the
    integral history and [D] of the derivative history.  [gain k x r] says that [r] is the float [k] times
    [x], cut to an integer.  The bounds on the readings and set points exclude integer overflow. *)
From Coq Require Import Floats.SpecFloat.
From Verif Require Import Base BaseLemmas FloatSpec PidModel PidSpec PidSystem PidProofs PidFloatProofs.

Definition one : spec_float := S754_finite false 8388608 (-23).
Definition half : spec_float := S754_finite false 8388608 (-24).

(** C87 is false: an error of 0 does not enter the history, the old value stays in the sum. *)
Theorem pid_integral_refuted : exists N D h p,
  Forall (within 10) h /\ Forall (fun o => plain o = true) h /\ prun N D h = Done p /\
  gain_i h = one /\ sum (firstn N (input_errors h)) = 0 /\ gain one 0 0 /\ pid_compute_i N p = Done 1.
Proof.
  exists 2%nat, 1%nat, [Input 10; Input 10; Input 9; Setpoint 10; Tune one one one]. eexists.
  split; [repeat constructor; cbn; lia|]. split; [repeat constructor|]. split; [vm_compute; reflexivity|].
  split; [reflexivity|]. split; [reflexivity|]. split; [reflexivity|vm_compute; reflexivity].
Qed.
Print Assumptions pid_integral_refuted.

(** C87 for histories in which no input has error 0. *)
Theorem pid_integral_partial : forall N D B h, (0 < N)%nat -> (0 < D)%nat ->
  0 <= B -> 2 * B <= INT_MAX -> Z.of_nat N * (2 * B) <= INT_MAX -> Forall thresholds_fit h -> Forall (within B) h ->
  Forall (fun o => plain o = true) h -> ~ In 0 (input_errors h) ->
  exists p, prun N D h = Done p /\ forall r, INT_MIN <= r <= INT_MAX ->
    (pid_compute_i N p = Done r <-> gain (gain_i h) (sum (firstn N (input_errors h))) r).
Proof. exact integral_plain_l. Qed.
Print Assumptions pid_integral_partial.

(** What the integral is for all histories, including thresholds, clearing and errors of 0. *)
Theorem pid_integral : forall N D, (0 < N)%nat -> (0 < D)%nat -> forall B h,
  0 <= B -> 2 * B <= INT_MAX -> Z.of_nat N * (2 * B) <= INT_MAX -> Forall thresholds_fit h -> Forall (within B) h ->
  exists p, prun N D h = Done p /\ forall r, INT_MIN <= r <= INT_MAX ->
    (pid_compute_i N p = Done r <-> gain (gain_i h) (sum (firstn N (contributions N h))) r).
Proof. exact integral_l. Qed.
Print Assumptions pid_integral.

Example pid_integral_example :
  let h := [Input 12; Input 5; Input 7; Input 2; Setpoint 10; Tune half one half] in
  Forall thresholds_fit h /\ Forall (within 100) h /\ Forall (fun o => plain o = true) h /\
  input_errors h = [-2; 5; 3; 8] /\ (do p <- prun 3 2 h; pid_compute_i 3 p) = Done 6 /\ gain one 6 6.
Proof.
  cbv zeta. split; [repeat constructor|]. split; [repeat constructor; cbn; lia|]. split; [repeat constructor|].
  split; [reflexivity|]. split; [vm_compute; reflexivity|]. apply trunc_part. vm_compute. reflexivity.
Qed.

(** C88, with the set point given before the inputs [v :: vs] (newest first). *)
Theorem pid_derivative : forall N D B vs v pre, (0 < N)%nat -> (0 < D)%nat -> 0 <= B -> 4 * B <= INT_MAX ->
  Forall thresholds_fit pre -> Forall (within B) (map Input (v :: vs) ++ pre) -> Forall (fun o => is_input o = false) pre ->
  let h := map Input (v :: vs) ++ pre in
  exists p, prun N D h = Done p /\
    match vs with
    | [] => pid_compute_d D p = Done 0
    | _ => if deriv_on pre && (deriv_limit pre <? Z.abs (setpoint pre - v)) then pid_compute_d D p = Done 0
           else forall r, INT_MIN <= r <= INT_MAX ->
             (pid_compute_d D p = Done r <->
              gain (gain_d pre) ((setpoint pre - v) - (setpoint pre - nth (Nat.min D (length vs) - 1) vs 0)) r)
    end.
Proof. exact derivative_fixed_l. Qed.
Print Assumptions pid_derivative.

(** C88 for all histories: the errors compared with are those just before each input. *)
Theorem pid_derivative_general : forall N D, (0 < N)%nat -> (0 < D)%nat -> forall B h,
  0 <= B -> 4 * B <= INT_MAX -> Forall thresholds_fit h -> Forall (within B) h ->
  exists p, prun N D h = Done p /\
    match past_errors h with
    | [] => pid_compute_d D p = Done 0
    | es => if deriv_on h && (deriv_limit h <? Z.abs (error h)) then pid_compute_d D p = Done 0
            else forall r, INT_MIN <= r <= INT_MAX ->
              (pid_compute_d D p = Done r <-> gain (gain_d h) (error h - nth (Nat.min D (length es) - 1) es 0) r)
    end.
Proof. exact derivative_l. Qed.
Print Assumptions pid_derivative_general.

Example pid_derivative_example :
  let pre := [Setpoint 10; Tune half one half; DerivThreshold 50 7; DerivEnable 2] in
  Forall thresholds_fit pre /\ Forall (within 100) (map Input [12; 5; 7; 2] ++ pre) /\
  (do p <- prun 3 2 (map Input [12; 5; 7; 2] ++ pre); pid_compute_d 2 p) = Done (-2) /\
  (do p <- prun 3 5 (map Input [12; 5; 7; 2] ++ pre); pid_compute_d 5 p) = Done (-5) /\
  (do p <- prun 3 5 (map Input [99; 5; 7; 2] ++ pre); pid_compute_d 5 p) = Done 0.
Proof.
  cbv zeta. split; [repeat constructor|]. split; [repeat constructor; cbn; lia|]. repeat split; vm_compute; reflexivity.
Qed.

(** C89: beyond the threshold of its sign an error contributes 0: only the N-1 contributions before remain ... *)
Theorem pid_threshold : forall N D B h v, (0 < N)%nat -> (0 < D)%nat ->
  0 <= B -> 2 * B <= INT_MAX -> Z.of_nat N * (2 * B) <= INT_MAX ->
  Forall thresholds_fit h -> Forall (within B) (Input v :: h) -> autoclear h = false ->
  let e := setpoint h - v in
  (0 < e /\ low_on h = true /\ low_limit h <= e) \/ (e < 0 /\ high_on h = true /\ high_limit h <= - e) ->
  exists p, prun N D (Input v :: h) = Done p /\ forall r, INT_MIN <= r <= INT_MAX ->
    (pid_compute_i N p = Done r <-> gain (gain_i h) (sum (firstn (N - 1) (contributions N h))) r).
Proof. exact threshold_l. Qed.
Print Assumptions pid_threshold.

(** ... and with auto-clear a change of sign leaves the new error alone. *)
Theorem pid_autoclear : forall N D B h v, (0 < N)%nat -> (0 < D)%nat ->
  0 <= B -> 2 * B <= INT_MAX -> Z.of_nat N * (2 * B) <= INT_MAX ->
  Forall thresholds_fit h -> Forall (within B) (Input v :: h) -> autoclear h = true ->
  let e := setpoint h - v in e * last_sign h < 0 ->
  exists p, prun N D (Input v :: h) = Done p /\ forall r, INT_MIN <= r <= INT_MAX ->
    (pid_compute_i N p = Done r <-> gain (gain_i h) (accepted h e) r).
Proof. exact autoclear_l. Qed.
Print Assumptions pid_autoclear.

Example pid_threshold_example :
  let h := [Input 7; Input 2; LowThreshold 20; LowEnable 256; Setpoint 10; Tune half one half] in
  Forall thresholds_fit h /\ Forall (within 100) (Input (-20) :: h) /\ autoclear h = false /\ low_on h = true /\ low_limit h <= 10 - -20 /\
  (do p <- prun 3 2 (Input (-20) :: h); pid_compute_i 3 p) = Done 11 /\
  (do p <- prun 3 2 (Input (-9) :: h); pid_compute_i 3 p) = Done 30.
Proof.
  cbv zeta. split; [repeat constructor; cbn; (exact Logic.I || discriminate)|]. split; [repeat constructor; cbn; lia|]. split; [reflexivity|]. split; [reflexivity|].
  split; [cbn; lia|]. split; vm_compute; reflexivity.
Qed.

Example pid_autoclear_example :
  let h := [Input 7; Input 2; AutoClear (-1); Setpoint 10; Tune half one half] in
  Forall thresholds_fit h /\ Forall (within 100) (Input 14 :: h) /\ autoclear h = true /\ (10 - 14) * last_sign h < 0 /\
  (do p <- prun 3 2 (Input 14 :: h); pid_compute_i 3 p) = Done (-4) /\
  (do p <- prun 3 2 (Input 9 :: h); pid_compute_i 3 p) = Done 12.
Proof.
  cbv zeta. split; [repeat constructor|]. split; [repeat constructor; cbn; lia|]. split; [reflexivity|]. split; [cbn; lia|].
  split; vm_compute; reflexivity.
Qed.

(** C101. *)
Theorem pid_proportional : forall N D, (0 < N)%nat -> (0 < D)%nat -> forall B h,
  0 <= B -> 2 * B <= INT_MAX -> Forall thresholds_fit h -> Forall (within B) h ->
  exists p, prun N D h = Done p /\ forall r, INT_MIN <= r <= INT_MAX -> (pid_compute_p p = Done r <-> gain (gain_p h) (error h) r).
Proof. exact proportional_l. Qed.
Print Assumptions pid_proportional.

Example pid_proportional_example :
  (do p <- prun 3 2 [Setpoint 11; Input 4; Tune half one half]; pid_compute_p p) = Done 3 /\ gain half 7 3.
Proof. split; [vm_compute; reflexivity|]. apply trunc_part. vm_compute. reflexivity. Qed.

(** C105: the output is the sum of the three terms. *)
Theorem pid_output : forall N D, (0 < N)%nat -> (0 < D)%nat -> forall B h,
  0 <= B -> 4 * B <= INT_MAX -> Z.of_nat N * (2 * B) <= INT_MAX -> Forall thresholds_fit h -> Forall (within B) h ->
  exists p, prun N D h = Done p /\ pid_current_error p = Done (error h) /\
    forall rp ri rd, INT_MIN <= rp <= INT_MAX -> INT_MIN <= ri <= INT_MAX -> INT_MIN <= rd <= INT_MAX ->
      gain (gain_p h) (error h) rp -> gain (gain_i h) (sum (firstn N (contributions N h))) ri -> derivative_term D h rd ->
      INT_MIN <= rp + ri <= INT_MAX -> INT_MIN <= rp + ri + rd <= INT_MAX -> pid_compute N D p = Done (rp + ri + rd).
Proof. exact output_l. Qed.
Print Assumptions pid_output.

Example pid_output_example :
  let h := [Input 12; Input 5; Input 7; Input 2; Setpoint 10; Tune half one half] in
  gain half (error h) (-1) /\ gain one (sum (firstn 3 (contributions 3 h))) 6 /\ derivative_term 2 h (-2) /\
  (do p <- prun 3 2 h; pid_compute 3 2 p) = Done 3.
Proof.
  cbv zeta. split; [apply trunc_part; vm_compute; reflexivity|]. split; [apply trunc_part; vm_compute; reflexivity|].
  split; [apply trunc_part; vm_compute; reflexivity|vm_compute; reflexivity].
Qed.

(** C106 is false: a threshold above INT_MAX becomes another number; an error of 1, far below 2^32, is then ignored. *)
Theorem pid_large_threshold_refuted : exists N D h p,
  Forall (within 10) h /\ prun N D h = Done p /\ gain_i h = one /\ low_on h = true /\ 0 <= low_limit h < 2 ^ 64 /\
  sum (firstn N (contributions N h)) = 1 /\ gain one 1 1 /\ pid_compute_i N p = Done 0.
Proof.
  exists 2%nat, 1%nat, [Input 9; LowThreshold 4294967296; LowEnable 1; Setpoint 10; Tune one one one]. eexists.
  split; [repeat constructor; cbn; lia|]. split; [vm_compute; reflexivity|]. split; [reflexivity|]. split; [reflexivity|]. split; [cbn; lia|].
  split; [reflexivity|]. split; [apply trunc_part; vm_compute; reflexivity|vm_compute; reflexivity].
Qed.
Print Assumptions pid_large_threshold_refuted.

(** Missing from C106: thresholds above INT_MAX. *)
Theorem pid_large_threshold_partial : forall N D B h v, (0 < N)%nat -> (0 < D)%nat ->
  0 <= B -> 2 * B <= INT_MAX -> Z.of_nat N * (2 * B) <= INT_MAX ->
  Forall thresholds_fit h -> Forall (within B) (Input v :: h) -> autoclear h = false ->
  let e := setpoint h - v in
  (0 < e /\ e < low_limit h) \/ (e < 0 /\ - e < high_limit h) ->
  exists p, prun N D (Input v :: h) = Done p /\ forall r, INT_MIN <= r <= INT_MAX ->
    (pid_compute_i N p = Done r <-> gain (gain_i h) (e + sum (firstn (N - 1) (contributions N h))) r).
Proof. exact below_threshold_l. Qed.
Print Assumptions pid_large_threshold_partial.

(** C114 is false: with the gains 1, 0, 0 an error of 2^24 + 1 gives an output of 2^24 ... *)
Theorem pid_exact_refuted : exists N D h p,
  scaled (gain_p h) 1 0 /\ scaled (gain_i h) 0 0 /\ scaled (gain_d h) 0 0 /\
  Forall (within 16777217) h /\ prun N D h = Done p /\ error h = 16777217 /\ pid_compute N D p = Done 16777216.
Proof.
  exists 4%nat, 2%nat, [Input 0; Setpoint 16777217; Tune one (S754_zero false) (S754_zero false)]. eexists.
  split; [repeat split; lia|]. split; [repeat split; lia|]. split; [repeat split; lia|]. split; [repeat constructor; cbn; lia|].
  split; [vm_compute; reflexivity|]. split; [reflexivity|vm_compute; reflexivity].
Qed.
Print Assumptions pid_exact_refuted.

(** ... and an error of INT_MAX is converted to the float 2^31, which does not fit an int. *)
Theorem pid_exact_undefined_refuted : exists N D h p,
  scaled (gain_p h) 1 0 /\ scaled (gain_i h) 0 0 /\ scaled (gain_d h) 0 0 /\
  Forall (within INT_MAX) h /\ prun N D h = Done p /\ error h = INT_MAX /\ pid_compute N D p = Undef.
Proof.
  exists 4%nat, 2%nat, [Input 0; Setpoint INT_MAX; Tune one (S754_zero false) (S754_zero false)]. eexists.
  split; [repeat split; lia|]. split; [repeat split; lia|]. split; [repeat split; lia|]. split; [repeat first [apply Forall_cons | apply Forall_nil]; cbn; unfold INT_MAX; lia|].
  split; [vm_compute; reflexivity|]. split; [reflexivity|vm_compute; reflexivity].
Qed.
Print Assumptions pid_exact_undefined_refuted.

(** Missing from C114: numbers of 2^24 and more, where float rounds. *)
Theorem pid_exact_partial : forall N D, (0 < N)%nat -> (0 < D)%nat -> forall B h P qp I qi K qd,
  0 <= B -> 4 * B <= INT_MAX -> Z.of_nat N * (2 * B) <= INT_MAX -> Forall thresholds_fit h -> Forall (within B) h ->
  scaled (gain_p h) P qp -> scaled (gain_i h) I qi -> scaled (gain_d h) K qd ->
  small P (error h) -> small I (sum (firstn N (contributions N h))) -> small K (difference D h) ->
  exists p, prun N D h = Done p /\
    pid_compute N D p = Done (Z.quot (P * error h) (2 ^ qp) + Z.quot (I * sum (firstn N (contributions N h))) (2 ^ qi)
                              + Z.quot (K * difference D h) (2 ^ qd)).
Proof. exact exact_l. Qed.
Print Assumptions pid_exact_partial.

Example pid_exact_example :
  let h := [Input 12; Input 5; Input 7; Input 2; Setpoint 10; Tune half one half] in
  scaled half 1 1 /\ scaled one 1 0 /\ small 1 (error h) /\ small 1 (sum (firstn 3 (contributions 3 h))) /\ small 1 (difference 2 h) /\
  error h = -2 /\ sum (firstn 3 (contributions 3 h)) = 6 /\ difference 2 h = -5 /\ Z.quot (1 * -5) (2 ^ 1) = -2.
Proof. cbv zeta. repeat split; cbn; lia. Qed.

(** C119: with gains that are not negative, a larger error, sum and difference never give a smaller output. *)
Theorem pid_monotone : forall N D, (0 < N)%nat -> (0 < D)%nat -> forall B h1 h2 p1 p2 r1 r2,
  0 <= B -> 4 * B <= INT_MAX -> Z.of_nat N * (2 * B) <= INT_MAX ->
  Forall thresholds_fit h1 -> Forall (within B) h1 -> Forall thresholds_fit h2 -> Forall (within B) h2 ->
  gain_p h1 = gain_p h2 -> gain_i h1 = gain_i h2 -> gain_d h1 = gain_d h2 ->
  nonnegative (gain_p h1) -> nonnegative (gain_i h1) -> nonnegative (gain_d h1) ->
  error h1 <= error h2 -> sum (firstn N (contributions N h1)) <= sum (firstn N (contributions N h2)) -> difference D h1 <= difference D h2 ->
  prun N D h1 = Done p1 -> prun N D h2 = Done p2 -> pid_compute N D p1 = Done r1 -> pid_compute N D p2 = Done r2 -> r1 <= r2.
Proof. exact monotone_l. Qed.
Print Assumptions pid_monotone.

(** Errors that float cannot represent: 16777216 and 16777217 give the same output, 16777219 a larger one. *)
Example pid_monotone_example :
  let h e := [Input 0; Setpoint e; Tune one half half] in
  Forall (within 16777219) (h 16777219) /\ nonnegative one /\ nonnegative half /\
  (do p <- prun 2 1 (h 16777216); pid_compute 2 1 p) = Done 25165824 /\
  (do p <- prun 2 1 (h 16777217); pid_compute 2 1 p) = Done 25165824 /\
  (do p <- prun 2 1 (h 16777219); pid_compute 2 1 p) = Done 25165830.
Proof.
  cbv zeta. split; [repeat constructor; cbn; lia|]. split; [repeat split|]. split; [repeat split|]. repeat split; vm_compute; reflexivity.
Qed.

(** C120: with gains P / 2^q, I / 2^q, K / 2^q the output differs from the exact sum of the three products by at most 3
    (the terms are cut to integers) plus 3 * 2^-24 of the size of the products. *)
Theorem pid_accuracy : forall N D, (0 < N)%nat -> (0 < D)%nat -> forall B h p r P I K q,
  0 <= B -> 4 * B <= INT_MAX -> Z.of_nat N * (2 * B) <= INT_MAX -> Forall thresholds_fit h -> Forall (within B) h ->
  scaled (gain_p h) P q -> scaled (gain_i h) I q -> scaled (gain_d h) K q ->
  prun N D h = Done p -> pid_compute N D p = Done r ->
  let e := P * error h in let i := I * sum (firstn N (contributions N h)) in let d := K * difference D h in
  16777216 * Z.abs (r * 2 ^ q - (e + i + d)) <= 3 * (16777216 * 2 ^ q + Z.abs e + Z.abs i + Z.abs d).
Proof. exact accuracy_l. Qed.
Print Assumptions pid_accuracy.

(** Gains 0.1f, 0.5 and 0.5 on an error of 16777217: the output is 10066329, the exact sum 10066330 and a fraction. *)
Example pid_accuracy_example :
  let h := [Input 0; Setpoint 16777217; Tune (S754_finite false 13421773 (-27)) half half] in
  scaled (S754_finite false 13421773 (-27)) 13421773 27 /\ scaled half 67108864 27 /\ error h = 16777217 /\ difference 1 h = 0 /\
  sum (firstn 2 (contributions 2 h)) = 16777217 /\
  (do p <- prun 2 1 h; pid_compute 2 1 p) = Done 10066329 /\
  (13421773 * 16777217 + 67108864 * 16777217) / 2 ^ 27 = 10066330.
Proof.
  cbv zeta. split; [repeat split; lia|]. split; [repeat split; lia|]. repeat split; vm_compute; reflexivity.
Qed.

(** C146: thresholds of any size act as the int that stands for them modulo 2^32. *)
Theorem pid_any_threshold : forall N D, (0 < N)%nat -> (0 < D)%nat -> forall B h v,
  0 <= B -> 2 * B <= INT_MAX -> Z.of_nat N * (2 * B) <= INT_MAX ->
  Forall (within B) (Input v :: h) -> autoclear h = false ->
  let e := setpoint h - v in e <> 0 ->
  let taken := if 0 <? e then negb (low_on h) || (e <? int_of (low_limit h))
               else negb (high_on h) || (- e <? int_of (high_limit h)) in
  exists p, prun N D (Input v :: h) = Done p /\ forall r, INT_MIN <= r <= INT_MAX ->
    (pid_compute_i N p = Done r <->
     gain (gain_i h) ((if taken then e else 0) + sum (firstn (N - 1) (contributions N (map as_int h)))) r).
Proof. exact any_threshold_l. Qed.
Print Assumptions pid_any_threshold.

Theorem pid_thresholds_as_int : forall N D h,
  prun N D (map as_int h) = prun N D h /\ Forall thresholds_fit (map as_int h).
Proof. exact as_int_l. Qed.
Print Assumptions pid_thresholds_as_int.

(** 2^32 + 5 acts as 5, 2^31 as a negative number. *)
Example pid_any_threshold_example :
  let h t := [LowThreshold t; LowEnable 1; Setpoint 10; Tune half one half] in
  int_of (2 ^ 32 + 5) = 5 /\ int_of (2 ^ 31) = - 2 ^ 31 /\
  Forall (within 10) (Input 6 :: h (2 ^ 32 + 5)) /\ autoclear (h 0) = false /\
  (do p <- prun 3 2 (Input 6 :: h (2 ^ 32 + 5)); pid_compute_i 3 p) = Done 4 /\
  (do p <- prun 3 2 (Input 4 :: h (2 ^ 32 + 5)); pid_compute_i 3 p) = Done 0 /\
  (do p <- prun 3 2 (Input 9 :: h (2 ^ 31)); pid_compute_i 3 p) = Done 0.
Proof.
  cbv zeta. split; [reflexivity|]. split; [reflexivity|]. split; [repeat constructor; cbn; lia|]. split; [reflexivity|].
  split; [|split]; vm_compute; reflexivity.
Qed.
