(** Model of gel/pid/pid.c.

    pid_control_type_t and pid_output_type_t are int (gel_conf_template.h:30-31), the gains are float.
    [N] is GEL_PID_INTEGRAL_HISTORY_SIZE and [D] is GEL_PID_DERIVATIVE_DELTA, at most INT_MAX. *)
From Verif Require Import Base Loop Float.
From Coq Require Import Floats.SpecFloat.

(** pid.h:13-32. *)
Record pid := mkPid {
  Kp : spec_float; Kd : spec_float; Ki : spec_float;
  index : Z; derivative_index : Z; derivative_history_size : Z;
  history : list Z; derivative_history : list Z;
  input : Z; sp : Z;
  integral_low_threshold : Z; integral_high_threshold : Z; derivative_low_threshold : Z;
  first_value : Z; auto_clear : Z; derivative_threshold : Z;
  high_enabled : Z; low_enabled : Z; sign : Z }.

Definition set_gains (p : pid) (kp ki kd : spec_float) : pid :=
  mkPid kp kd ki (index p) (derivative_index p) (derivative_history_size p) (history p) (derivative_history p) (input p) (sp p)
    (integral_low_threshold p) (integral_high_threshold p) (derivative_low_threshold p) (first_value p) (auto_clear p)
    (derivative_threshold p) (high_enabled p) (low_enabled p) (sign p).
Definition set_history (p : pid) (i : Z) (h : list Z) : pid :=
  mkPid (Kp p) (Kd p) (Ki p) i (derivative_index p) (derivative_history_size p) h (derivative_history p) (input p) (sp p)
    (integral_low_threshold p) (integral_high_threshold p) (derivative_low_threshold p) (first_value p) (auto_clear p)
    (derivative_threshold p) (high_enabled p) (low_enabled p) (sign p).
Definition set_derivative (p : pid) (i n : Z) (h : list Z) : pid :=
  mkPid (Kp p) (Kd p) (Ki p) (index p) i n (history p) h (input p) (sp p)
    (integral_low_threshold p) (integral_high_threshold p) (derivative_low_threshold p) (first_value p) (auto_clear p)
    (derivative_threshold p) (high_enabled p) (low_enabled p) (sign p).
Definition set_input (p : pid) (v : Z) : pid :=
  mkPid (Kp p) (Kd p) (Ki p) (index p) (derivative_index p) (derivative_history_size p) (history p) (derivative_history p) v (sp p)
    (integral_low_threshold p) (integral_high_threshold p) (derivative_low_threshold p) (first_value p) (auto_clear p)
    (derivative_threshold p) (high_enabled p) (low_enabled p) (sign p).
Definition set_sp (p : pid) (v : Z) : pid :=
  mkPid (Kp p) (Kd p) (Ki p) (index p) (derivative_index p) (derivative_history_size p) (history p) (derivative_history p) (input p) v
    (integral_low_threshold p) (integral_high_threshold p) (derivative_low_threshold p) (first_value p) (auto_clear p)
    (derivative_threshold p) (high_enabled p) (low_enabled p) (sign p).
Definition set_thresholds (p : pid) (low high d : Z) : pid :=
  mkPid (Kp p) (Kd p) (Ki p) (index p) (derivative_index p) (derivative_history_size p) (history p) (derivative_history p) (input p) (sp p)
    low high d (first_value p) (auto_clear p) (derivative_threshold p) (high_enabled p) (low_enabled p) (sign p).
Definition set_flags (p : pid) (a d h l : Z) : pid :=
  mkPid (Kp p) (Kd p) (Ki p) (index p) (derivative_index p) (derivative_history_size p) (history p) (derivative_history p) (input p) (sp p)
    (integral_low_threshold p) (integral_high_threshold p) (derivative_low_threshold p) (first_value p) a d h l (sign p).
Definition set_first (p : pid) (f : Z) : pid :=
  mkPid (Kp p) (Kd p) (Ki p) (index p) (derivative_index p) (derivative_history_size p) (history p) (derivative_history p) (input p) (sp p)
    (integral_low_threshold p) (integral_high_threshold p) (derivative_low_threshold p) f (auto_clear p)
    (derivative_threshold p) (high_enabled p) (low_enabled p) (sign p).
Definition set_sign (p : pid) (s : Z) : pid :=
  mkPid (Kp p) (Kd p) (Ki p) (index p) (derivative_index p) (derivative_history_size p) (history p) (derivative_history p) (input p) (sp p)
    (integral_low_threshold p) (integral_high_threshold p) (derivative_low_threshold p) (first_value p) (auto_clear p)
    (derivative_threshold p) (high_enabled p) (low_enabled p) s.

(** A result of signed arithmetic: overflow is undefined. *)
Definition int_op (x : Z) : outcome Z := if (INT_MIN <=? x) && (x <=? INT_MAX) then Done x else Undef.

Section Pid.
Variables N D : nat.

(** pid.c:13-15: all bytes 0. *)
Definition pid_init : pid :=
  mkPid (S754_zero false) (S754_zero false) (S754_zero false) 0 0 0 (repeat 0 N) (repeat 0 D) 0 0 0 0 0 0 0 0 0 0 0.

(** pid.c:18-22. *)
Definition pid_ctrl_tune (p : pid) (kp ki kd : spec_float) : pid := set_gains p kp ki kd.

(** pid.c:8-10 and 130-132. *)
Definition pid_current_error (p : pid) : outcome Z := int_op (sp p - input p).

(** pid.c:5. *)
Definition ABS (x : Z) : outcome Z := if 0 <? x then Done x else int_op (- x).

(** pid.c:135-138. *)
Definition pid_clear_integral_history (p : pid) : pid := set_history p 0 (repeat 0 N).

(** pid.c:42-53: the new content of the history. *)
Definition store_error (p : pid) (error : Z) : outcome (list Z) :=
  if 0 <? error then
    if low_enabled p =? 0 then zset (history p) (index p) error else
    do a <- ABS error;
    if a <? integral_low_threshold p then zset (history p) (index p) error else zset (history p) (index p) 0
  else if error <? 0 then
    if high_enabled p =? 0 then zset (history p) (index p) error else
    do a <- ABS error;
    if a <? integral_high_threshold p then zset (history p) (index p) error else zset (history p) (index p) 0
  else Done (history p).

(** pid.c:25-65. *)
Definition pid_add_input (p : pid) (v : Z) : outcome pid :=
  do olderror <- pid_current_error p;
  let p := set_input p v in
  do error <- pid_current_error p;
  let newsign := if 0 <? error then 1 else if error <? 0 then -1 else sign p in
  let p :=
    if sign p =? newsign then p else
    let p := set_sign p newsign in
    if auto_clear p =? 0 then p else pid_clear_integral_history p in
  do h <- store_error p error;
  let p := set_history p ((index p + 1) mod Z.of_nat N) h in
  if first_value p =? 0 then Done (set_first p 1) else
  do dh <- zset (derivative_history p) (derivative_index p) olderror;
  let n := if derivative_history_size p <? Z.of_nat D then derivative_history_size p + 1 else derivative_history_size p in
  Done (set_first (set_derivative p ((derivative_index p + 1) mod Z.of_nat D) n dh) 1).

(** pid.c:68-70. *)
Definition pid_set_sp (p : pid) (v : Z) : pid := set_sp p v.

(** float times int, converted to int (pid.c:75, 84 and 116). *)
Definition times (k : spec_float) (x : Z) : outcome Z := to_int INT_MIN INT_MAX (F32 (fmul k (F32 (of_int x)))).

(** pid.c:73-76. *)
Definition pid_compute_p (p : pid) : outcome Z :=
  do e <- pid_current_error p; times (Kp p) e.

(** pid.c:79-87. *)
Definition pid_compute_i (p : pid) : outcome Z :=
  do iterm <- for_up N 0 (fun iterm i => do x <- zget (history p) i; int_op (iterm + x)) 0;
  times (Ki p) iterm.

(** pid.c:90-118. *)
Definition pid_compute_d (p : pid) : outcome Z :=
  do error <- pid_current_error p;
  if derivative_history_size p =? 0 then Done 0 else
  let last := if derivative_history_size p =? Z.of_nat D then derivative_index p else 0 in
  do x <- zget (derivative_history p) last;
  do derivative <- int_op (error - x);
  if derivative_threshold p =? 0 then times (Kd p) derivative else
  do a <- ABS error;
  if derivative_low_threshold p <? a then Done 0 else times (Kd p) derivative.

(** pid.c:121-127. *)
Definition pid_compute (p : pid) : outcome Z :=
  do pterm <- pid_compute_p p;
  do iterm <- pid_compute_i p;
  do dterm <- pid_compute_d p;
  do s <- int_op (pterm + iterm);
  int_op (s + dterm).

(** pid.c:141-153. *)
Definition pid_enable_integral_low_threshold (p : pid) (e : Z) : pid :=
  set_flags p (auto_clear p) (derivative_threshold p) (high_enabled p) e.
Definition pid_enable_integral_high_threshold (p : pid) (e : Z) : pid :=
  set_flags p (auto_clear p) (derivative_threshold p) e (low_enabled p).
Definition pid_enable_derivative_threshold (p : pid) (e : Z) : pid :=
  set_flags p (auto_clear p) e (high_enabled p) (low_enabled p).

(** pid.c:156-170; the size_t arguments are converted to int. *)
Definition pid_set_integral_low_threshold (p : pid) (t : Z) : pid :=
  set_thresholds p (swrap 32 t) (integral_high_threshold p) (derivative_low_threshold p).
Definition pid_set_integral_high_threshold (p : pid) (t : Z) : pid :=
  set_thresholds p (integral_low_threshold p) (swrap 32 t) (derivative_low_threshold p).
Definition pid_set_derivative_threshold (p : pid) (low high : Z) : pid :=
  set_thresholds p (integral_low_threshold p) (integral_high_threshold p) low.

(** pid.c:173-175. *)
Definition pid_set_auto_integral_clear (p : pid) (a : Z) : pid :=
  set_flags p a (derivative_threshold p) (high_enabled p) (low_enabled p).

End Pid.
