(** Model of gel/pid/pid.c configured with pid_control_type_t and pid_output_type_t float.

    Floats are those of [Float], with no excess precision (FLT_EVAL_METHOD 0) and no contraction.  [N] is
    GEL_PID_INTEGRAL_HISTORY_SIZE and [D] is GEL_PID_DERIVATIVE_DELTA, at most INT_MAX. *)
From Verif Require Import Base Loop Float.
From Coq Require Import Floats.SpecFloat.

(** pid.h:13-32. *)
Record fpid := mkF {
  f_Kp : spec_float; f_Kd : spec_float; f_Ki : spec_float;
  f_index : Z; f_dindex : Z; f_dsize : Z;
  f_history : list spec_float; f_dhistory : list spec_float;
  f_input : spec_float; f_sp : spec_float;
  f_low : spec_float; f_high : spec_float; f_dlow : spec_float;
  f_first : Z; f_auto : Z; f_dthr : Z;
  f_hen : Z; f_len : Z; f_sign : Z }.

Definition fset_gains (f : fpid) (kp ki kd : spec_float) : fpid :=
  mkF kp kd ki (f_index f) (f_dindex f) (f_dsize f) (f_history f) (f_dhistory f) (f_input f) (f_sp f) (f_low f) (f_high f) (f_dlow f)
    (f_first f) (f_auto f) (f_dthr f) (f_hen f) (f_len f) (f_sign f).
Definition fset_history (f : fpid) (i : Z) (h : list spec_float) : fpid :=
  mkF (f_Kp f) (f_Kd f) (f_Ki f) i (f_dindex f) (f_dsize f) h (f_dhistory f) (f_input f) (f_sp f) (f_low f) (f_high f) (f_dlow f)
    (f_first f) (f_auto f) (f_dthr f) (f_hen f) (f_len f) (f_sign f).
Definition fset_derivative (f : fpid) (i n : Z) (h : list spec_float) : fpid :=
  mkF (f_Kp f) (f_Kd f) (f_Ki f) (f_index f) i n (f_history f) h (f_input f) (f_sp f) (f_low f) (f_high f) (f_dlow f)
    (f_first f) (f_auto f) (f_dthr f) (f_hen f) (f_len f) (f_sign f).
Definition fset_input (f : fpid) (v : spec_float) : fpid :=
  mkF (f_Kp f) (f_Kd f) (f_Ki f) (f_index f) (f_dindex f) (f_dsize f) (f_history f) (f_dhistory f) v (f_sp f) (f_low f) (f_high f) (f_dlow f)
    (f_first f) (f_auto f) (f_dthr f) (f_hen f) (f_len f) (f_sign f).
Definition fset_sp (f : fpid) (v : spec_float) : fpid :=
  mkF (f_Kp f) (f_Kd f) (f_Ki f) (f_index f) (f_dindex f) (f_dsize f) (f_history f) (f_dhistory f) (f_input f) v (f_low f) (f_high f) (f_dlow f)
    (f_first f) (f_auto f) (f_dthr f) (f_hen f) (f_len f) (f_sign f).
Definition fset_thresholds (f : fpid) (low high d : spec_float) : fpid :=
  mkF (f_Kp f) (f_Kd f) (f_Ki f) (f_index f) (f_dindex f) (f_dsize f) (f_history f) (f_dhistory f) (f_input f) (f_sp f) low high d
    (f_first f) (f_auto f) (f_dthr f) (f_hen f) (f_len f) (f_sign f).
Definition fset_flags (f : fpid) (a d h l : Z) : fpid :=
  mkF (f_Kp f) (f_Kd f) (f_Ki f) (f_index f) (f_dindex f) (f_dsize f) (f_history f) (f_dhistory f) (f_input f) (f_sp f) (f_low f) (f_high f) (f_dlow f)
    (f_first f) a d h l (f_sign f).
Definition fset_first (f : fpid) (v : Z) : fpid :=
  mkF (f_Kp f) (f_Kd f) (f_Ki f) (f_index f) (f_dindex f) (f_dsize f) (f_history f) (f_dhistory f) (f_input f) (f_sp f) (f_low f) (f_high f) (f_dlow f)
    v (f_auto f) (f_dthr f) (f_hen f) (f_len f) (f_sign f).
Definition fset_sign (f : fpid) (s : Z) : fpid :=
  mkF (f_Kp f) (f_Kd f) (f_Ki f) (f_index f) (f_dindex f) (f_dsize f) (f_history f) (f_dhistory f) (f_input f) (f_sp f) (f_low f) (f_high f) (f_dlow f)
    (f_first f) (f_auto f) (f_dthr f) (f_hen f) (f_len f) s.

(** 0.0f, and all bytes 0. *)
Definition f0 : spec_float := S754_zero false.

Definition fsub (x y : spec_float) (prec emax : Z) : spec_float := SFsub prec emax x y.

Section Pid.
Variables N D : nat.

(** pid.c:13-15. *)
Definition fpid_init : fpid := mkF f0 f0 f0 0 0 0 (repeat f0 N) (repeat f0 D) f0 f0 f0 f0 f0 0 0 0 0 0 0.

(** pid.c:18-22. *)
Definition fpid_ctrl_tune (f : fpid) (kp ki kd : spec_float) : fpid := fset_gains f kp ki kd.

(** pid.c:8-10 and 130-132. *)
Definition fpid_current_error (f : fpid) : spec_float := F32 (fsub (f_sp f) (f_input f)).

(** pid.c:5. *)
Definition fABS (x : spec_float) : spec_float := if SFltb f0 x then x else SFopp x.

(** pid.c:135-138. *)
Definition fpid_clear_integral_history (f : fpid) : fpid := fset_history f 0 (repeat f0 N).

(** pid.c:42-53: the new content of the history.  Neither branch is taken for 0 and NaN. *)
Definition fstore_error (f : fpid) (error : spec_float) : outcome (list spec_float) :=
  if SFltb f0 error then
    if (f_len f =? 0) || SFltb (fABS error) (f_low f) then zset (f_history f) (f_index f) error
    else zset (f_history f) (f_index f) f0
  else if SFltb error f0 then
    if (f_hen f =? 0) || SFltb (fABS error) (f_high f) then zset (f_history f) (f_index f) error
    else zset (f_history f) (f_index f) f0
  else Done (f_history f).

(** pid.c:25-65. *)
Definition fpid_add_input (f : fpid) (v : spec_float) : outcome fpid :=
  let olderror := fpid_current_error f in
  let f := fset_input f v in
  let error := fpid_current_error f in
  let newsign := if SFltb f0 error then 1 else if SFltb error f0 then -1 else f_sign f in
  let f :=
    if f_sign f =? newsign then f else
    let f := fset_sign f newsign in
    if f_auto f =? 0 then f else fpid_clear_integral_history f in
  do h <- fstore_error f error;
  let f := fset_history f ((f_index f + 1) mod Z.of_nat N) h in
  if f_first f =? 0 then Done (fset_first f 1) else
  do dh <- zset (f_dhistory f) (f_dindex f) olderror;
  let n := if f_dsize f <? Z.of_nat D then f_dsize f + 1 else f_dsize f in
  Done (fset_first (fset_derivative f ((f_dindex f + 1) mod Z.of_nat D) n dh) 1).

(** pid.c:68-70. *)
Definition fpid_set_sp (f : fpid) (v : spec_float) : fpid := fset_sp f v.

(** pid.c:73-76. *)
Definition fpid_compute_p (f : fpid) : spec_float := F32 (fmul (f_Kp f) (fpid_current_error f)).

(** pid.c:79-87. *)
Definition fpid_compute_i (f : fpid) : outcome spec_float :=
  do iterm <- for_up N 0 (fun iterm i => do x <- zget (f_history f) i; Done (F32 (fadd iterm x))) f0;
  Done (F32 (fmul iterm (f_Ki f))).

(** pid.c:90-118. *)
Definition fpid_compute_d (f : fpid) : outcome spec_float :=
  let error := fpid_current_error f in
  if f_dsize f =? 0 then Done f0 else
  let last := if f_dsize f =? Z.of_nat D then f_dindex f else 0 in
  do x <- zget (f_dhistory f) last;
  let derivative := F32 (fsub error x) in
  if negb (f_dthr f =? 0) && SFltb (f_dlow f) (fABS error) then Done f0
  else Done (F32 (fmul (f_Kd f) derivative)).

(** pid.c:121-127. *)
Definition fpid_compute (f : fpid) : outcome spec_float :=
  let pterm := fpid_compute_p f in
  do iterm <- fpid_compute_i f;
  do dterm <- fpid_compute_d f;
  Done (F32 (fadd (F32 (fadd pterm iterm)) dterm)).

(** pid.c:141-153. *)
Definition fpid_enable_integral_low_threshold (f : fpid) (e : Z) : fpid := fset_flags f (f_auto f) (f_dthr f) (f_hen f) e.
Definition fpid_enable_integral_high_threshold (f : fpid) (e : Z) : fpid := fset_flags f (f_auto f) (f_dthr f) e (f_len f).
Definition fpid_enable_derivative_threshold (f : fpid) (e : Z) : fpid := fset_flags f (f_auto f) e (f_hen f) (f_len f).

(** pid.c:156-170; the size_t arguments are converted to float. *)
Definition fpid_set_integral_low_threshold (f : fpid) (t : Z) : fpid := fset_thresholds f (F32 (of_int t)) (f_high f) (f_dlow f).
Definition fpid_set_integral_high_threshold (f : fpid) (t : Z) : fpid := fset_thresholds f (f_low f) (F32 (of_int t)) (f_dlow f).
Definition fpid_set_derivative_threshold (f : fpid) (low high : spec_float) : fpid := fset_thresholds f (f_low f) (f_high f) low.

(** pid.c:173-175. *)
Definition fpid_set_auto_integral_clear (f : fpid) (a : Z) : fpid := fset_flags f a (f_dthr f) (f_hen f) (f_len f).

End Pid.
