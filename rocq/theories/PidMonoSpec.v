(** What the controller configured with float has been told, for the comparison of two runs. *)
From Coq Require Import ZArith List Bool Floats.SpecFloat.
From Verif Require Import FloatSpec PidFltSpec.
Import ListNotations.
Open Scope Z_scope.

(** The newest setting of something, and [d] if there is none. *)
Fixpoint newest {A} (get : fop -> option A) (d : A) (H : list fop) : A :=
  match H with
  | [] => d
  | o :: H' => match get o with Some a => a | None => newest get d H' end
  end.

Definition auto_clear : list fop -> Z := newest (fun o => match o with FAutoClear b => Some b | _ => None end) 0.
Definition low_enabled : list fop -> Z := newest (fun o => match o with FLowEnable b => Some b | _ => None end) 0.
Definition high_enabled : list fop -> Z := newest (fun o => match o with FHighEnable b => Some b | _ => None end) 0.
Definition deriv_enabled : list fop -> Z := newest (fun o => match o with FDerivEnable b => Some b | _ => None end) 0.
Definition gains : list fop -> spec_float * spec_float * spec_float :=
  newest (fun o => match o with FTune p i d => Some (p, i, d) | _ => None end) (S754_zero false, S754_zero false, S754_zero false).

(** The arguments are floats (NaN and infinities are). *)
Definition floats (o : fop) : Prop :=
  match o with
  | FInput v | FSetpoint v => number 24 128 v
  | FTune p i d => number 24 128 p /\ number 24 128 i /\ number 24 128 d
  | _ => True
  end.

(** No gain is negative. *)
Definition positive_gains (H : list fop) : Prop :=
  let '(p, i, d) := gains H in SFleb (S754_zero false) p = true /\ SFleb (S754_zero false) i = true /\ SFleb (S754_zero false) d = true.
