(** Specification of the controller: functions of the history of calls, newest first. *)
From Coq Require Import ZArith List Bool Floats.SpecFloat.
From Verif Require Import FloatSpec.
Import ListNotations.
Open Scope Z_scope.

Inductive pop :=
| Input (v : Z)
| Setpoint (v : Z)
| Tune (kp ki kd : spec_float)
| ClearIntegral
| AutoClear (on : Z)
| LowThreshold (t : Z) | LowEnable (on : Z)
| HighThreshold (t : Z) | HighEnable (on : Z)
| DerivThreshold (t u : Z) | DerivEnable (on : Z).

(** An int as a truth value. *)
Definition yes (z : Z) : bool := negb (z =? 0).

(** The value given by the most recent call that [f] selects. *)
Fixpoint latest {A} (f : pop -> option A) (dflt : A) (h : list pop) : A :=
  match h with
  | [] => dflt
  | o :: h' => match f o with Some a => a | None => latest f dflt h' end
  end.

Definition setpoint := latest (fun o => match o with Setpoint v => Some v | _ => None end) 0.
Definition reading := latest (fun o => match o with Input v => Some v | _ => None end) 0.
Definition autoclear := latest (fun o => match o with AutoClear b => Some (yes b) | _ => None end) false.
Definition low_limit := latest (fun o => match o with LowThreshold v => Some v | _ => None end) 0.
Definition low_on := latest (fun o => match o with LowEnable b => Some (yes b) | _ => None end) false.
Definition high_limit := latest (fun o => match o with HighThreshold v => Some v | _ => None end) 0.
Definition high_on := latest (fun o => match o with HighEnable b => Some (yes b) | _ => None end) false.
Definition deriv_limit := latest (fun o => match o with DerivThreshold v _ => Some v | _ => None end) 0.
Definition deriv_on := latest (fun o => match o with DerivEnable b => Some (yes b) | _ => None end) false.
Definition gain_p := latest (fun o => match o with Tune kp _ _ => Some kp | _ => None end) (S754_zero false).
Definition gain_i := latest (fun o => match o with Tune _ ki _ => Some ki | _ => None end) (S754_zero false).
Definition gain_d := latest (fun o => match o with Tune _ _ kd => Some kd | _ => None end) (S754_zero false).

(** The present error. *)
Definition error (h : list pop) : Z := setpoint h - reading h.

(** The sign of the last error different from 0 that an input produced; 0 if there was none. *)
Fixpoint last_sign (h : list pop) : Z :=
  match h with
  | [] => 0
  | Input v :: h' => if error h =? 0 then last_sign h' else Z.sgn (error h)
  | _ :: h' => last_sign h'
  end.

(** An input whose error has the other sign than the last one. *)
Definition turns (h : list pop) : bool := negb (error h =? 0) && negb (Z.sgn (error h) =? last_sign (tl h)).

(** An error [e] as far as the integral takes it into account. *)
Definition accepted (h : list pop) (e : Z) : Z :=
  if 0 <? e then if low_on h && (low_limit h <=? e) then 0 else e
  else if high_on h && (high_limit h <=? - e) then 0 else e.

(** The contributions to the integral since it was last cleared, newest first; [N] is the size of the
    window.  An input without error repeats the contribution made [N] inputs before (this is what the
    code does; see [pid_integral_refuted]). *)
Fixpoint contributions (N : nat) (h : list pop) : list Z :=
  match h with
  | [] => []
  | Input _ :: h' =>
      let before := if autoclear h' && turns h then [] else contributions N h' in
      (if error h =? 0 then nth (N - 1) before 0 else accepted h' (error h)) :: before
  | ClearIntegral :: _ => []
  | _ :: h' => contributions N h'
  end.

Definition sum (l : list Z) : Z := fold_right Z.add 0 l.

(** For each input but the first, newest first: the error just before it. *)
Fixpoint past_errors (h : list pop) : list Z :=
  match h with
  | [] => []
  | Input _ :: h' =>
      if existsb (fun o => match o with Input _ => true | _ => false end) h' then error h' :: past_errors h' else []
  | _ :: h' => past_errors h'
  end.

(** [z] is the integer part of [x]. *)
Definition integer_part (x : spec_float) (z : Z) : Prop :=
  match x with
  | S754_zero _ => z = 0
  | S754_finite s m e => exists a, 0 <= a /\ z = (if s then - a else a) /\
      a * 2 ^ Z.max 0 (- e) <= Zpos m * 2 ^ Z.max 0 e < (a + 1) * 2 ^ Z.max 0 (- e)
  | _ => False
  end.

(** [r] is the gain [k] (a float) times [x], rounded to float, then cut to an integer. *)
Definition gain (k : spec_float) (x r : Z) : Prop :=
  integer_part (SFmul 24 128 k (binary_normalize 24 128 x 0 false)) r.

(** The errors of the inputs, newest first. *)
Fixpoint input_errors (h : list pop) : list Z :=
  match h with
  | [] => []
  | Input _ :: h' => error h :: input_errors h'
  | _ :: h' => input_errors h'
  end.

(** Calls that neither clear the integral nor enable anything that changes it. *)
Definition plain (o : pop) : bool :=
  match o with ClearIntegral => false | AutoClear b | LowEnable b | HighEnable b => negb (yes b) | _ => true end.

Definition is_input (o : pop) : bool := match o with Input _ => true | _ => false end.

(** [r] is the derivative term; [D] is the distance of the errors compared. *)
Definition derivative_term (D : nat) (h : list pop) (r : Z) : Prop :=
  match past_errors h with
  | [] => r = 0
  | es => if deriv_on h && (deriv_limit h <? Z.abs (error h)) then r = 0
          else gain (gain_d h) (error h - nth (Nat.min D (length es) - 1) es 0) r
  end.

(** The number that the derivative gain multiplies. *)
Definition difference (D : nat) (h : list pop) : Z :=
  match past_errors h with
  | [] => 0
  | es => if deriv_on h && (deriv_limit h <? Z.abs (error h)) then 0 else error h - nth (Nat.min D (length es) - 1) es 0
  end.

(** The gain [k] is exactly K / 2^q. *)
Definition scaled (k : spec_float) (K q : Z) : Prop := number 24 128 k /\ worth k K (- q) /\ 0 <= q <= 149.

(** Numbers whose product with the gain K / 2^q needs no rounding. *)
Definition small (K x : Z) : Prop := Z.abs x < 2 ^ 24 /\ Z.abs (K * x) < 2 ^ 24.

(** A gain that is a number and not negative. *)
Definition nonnegative (k : spec_float) : Prop :=
  number 24 128 k /\ match k with S754_zero _ | S754_finite false _ _ => True | _ => False end.
