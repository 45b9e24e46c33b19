(** Running histories on the controller configured with float. *)
From Verif Require Import Base PidFltModel PidFltSpec.
From Coq Require Import Floats.SpecFloat.

Definition fstep (N D : nat) (f : fpid) (o : fop) : outcome fpid :=
  match o with
  | FInput v => fpid_add_input N D f v
  | FSetpoint v => Done (fpid_set_sp f v)
  | FTune kp ki kd => Done (fpid_ctrl_tune f kp ki kd)
  | FClearIntegral => Done (fpid_clear_integral_history N f)
  | FAutoClear b => Done (fpid_set_auto_integral_clear f b)
  | FLowThreshold t => Done (fpid_set_integral_low_threshold f t)
  | FLowEnable b => Done (fpid_enable_integral_low_threshold f b)
  | FHighThreshold t => Done (fpid_set_integral_high_threshold f t)
  | FHighEnable b => Done (fpid_enable_integral_high_threshold f b)
  | FDerivThreshold t u => Done (fpid_set_derivative_threshold f t u)
  | FDerivEnable b => Done (fpid_enable_derivative_threshold f b)
  end.

(** The controller after the calls [h], newest first. *)
Fixpoint frun (N D : nat) (h : list fop) : outcome fpid :=
  match h with
  | [] => Done (fpid_init N D)
  | o :: h' => do f <- frun N D h'; fstep N D f o
  end.
