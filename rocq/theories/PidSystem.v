(** Running histories on the PID model. *)
From Verif Require Import Base PidModel PidSpec.

Definition pstep (N D : nat) (p : pid) (o : pop) : outcome pid :=
  match o with
  | Input v => pid_add_input N D p v
  | Setpoint v => Done (pid_set_sp p v)
  | Tune kp ki kd => Done (pid_ctrl_tune p kp ki kd)
  | ClearIntegral => Done (pid_clear_integral_history N p)
  | AutoClear b => Done (pid_set_auto_integral_clear p b)
  | LowThreshold t => Done (pid_set_integral_low_threshold p t)
  | LowEnable b => Done (pid_enable_integral_low_threshold p b)
  | HighThreshold t => Done (pid_set_integral_high_threshold p t)
  | HighEnable b => Done (pid_enable_integral_high_threshold p b)
  | DerivThreshold t u => Done (pid_set_derivative_threshold p t u)
  | DerivEnable b => Done (pid_enable_derivative_threshold p b)
  end.

(** The controller after the calls [h], newest first. *)
Fixpoint prun (N D : nat) (h : list pop) : outcome pid :=
  match h with
  | [] => Done (pid_init N D)
  | o :: h' => do p <- prun N D h'; pstep N D p o
  end.

(** Thresholds given to the two size_t functions are ints (a negative one goes through size_t unharmed). *)
Definition thresholds_fit (o : pop) : Prop :=
  match o with LowThreshold t | HighThreshold t => INT_MIN <= t <= INT_MAX | _ => True end.

(** The int that stands for [t] modulo 2^32, and calls with thresholds like that. *)
Definition int_of (t : Z) : Z := (t + 2 ^ 31) mod 2 ^ 32 - 2 ^ 31.
Definition as_int (o : pop) : pop :=
  match o with LowThreshold t => LowThreshold (int_of t) | HighThreshold t => HighThreshold (int_of t) | _ => o end.

(** Readings and set points stay below [B] in size. *)
Definition within (B : Z) (o : pop) : Prop :=
  match o with Input v | Setpoint v => Z.abs v <= B | _ => True end.
