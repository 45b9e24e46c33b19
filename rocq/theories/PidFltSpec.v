(** Histories of calls of the controller configured with float, and what they have to do with histories of integers. *)
From Coq Require Import ZArith List Bool Floats.SpecFloat.
From Verif Require Import FloatSpec PidSpec.
Import ListNotations.
Open Scope Z_scope.

Inductive fop :=
| FInput (v : spec_float)
| FSetpoint (v : spec_float)
| FTune (kp ki kd : spec_float)
| FClearIntegral
| FAutoClear (on : Z)
| FLowThreshold (t : Z) | FLowEnable (on : Z)
| FHighThreshold (t : Z) | FHighEnable (on : Z)
| FDerivThreshold (t u : spec_float) | FDerivEnable (on : Z).

(** [x] is a float worth a * 2^k. *)
Definition num (k : Z) (x : spec_float) (a : Z) : Prop := number 24 128 x /\ worth x a k.

(** The calls of [h], numbers given in units of 2^k. *)
Definition alike (k : Z) (F : fop) (o : pop) : Prop :=
  match F, o with
  | FInput x, Input v => num k x v
  | FSetpoint x, Setpoint v => num k x v
  | FTune a b c, Tune a' b' c' => a = a' /\ b = b' /\ c = c'
  | FClearIntegral, ClearIntegral => True
  | FAutoClear b, AutoClear b' | FLowEnable b, LowEnable b' | FHighEnable b, HighEnable b' | FDerivEnable b, DerivEnable b' => b = b'
  | FLowThreshold t, LowThreshold T | FHighThreshold t, HighThreshold T => 0 <= t < 2 ^ 24 /\ T = t * 2 ^ (- k)
  | FDerivThreshold x _, DerivThreshold v _ => num k x v
  | _, _ => False
  end.

(** The readings, newest first. *)
Fixpoint freadings (H : list fop) : list spec_float :=
  match H with
  | [] => []
  | FInput v :: H' => v :: freadings H'
  | _ :: H' => freadings H'
  end.

(** [h] says the same as [H], where a reading that is not a number stands for a reading at the set point. *)
Fixpoint matches (k : Z) (H : list fop) (h : list pop) : Prop :=
  match H, h with
  | [], [] => True
  | F :: H', o :: h' =>
      match F, o with
      | FInput S754_nan, Input v => v = setpoint h'
      | _, _ => alike k F o
      end /\ matches k H' h'
  | _, _ => False
  end.

(** The set point. *)
Fixpoint fsetpoint (H : list fop) : spec_float :=
  match H with
  | [] => S754_zero false
  | FSetpoint v :: _ => v
  | _ :: H' => fsetpoint H'
  end.

(** The integral gain. *)
Fixpoint fgain_i (H : list fop) : spec_float :=
  match H with
  | [] => S754_zero false
  | FTune _ ki _ :: _ => ki
  | _ :: H' => fgain_i H'
  end.

(** The newest [n] readings had errors a * 2^k with 0 < |a| <= E. *)
Fixpoint off_target (k E : Z) (n : nat) (H : list fop) : Prop :=
  match n, H with
  | O, _ => True
  | S _, [] => False
  | S m, FInput v :: H' => (exists a, num k (SFsub 24 128 (fsetpoint H') v) a /\ 0 < Z.abs a <= E) /\ off_target k E m H'
  | S _, _ :: H' => off_target k E n H'
  end.
