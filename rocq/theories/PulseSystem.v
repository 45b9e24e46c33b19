(** A history of calls executed by the pulse counter model. *)
From Verif Require Import Base PulseModel PulseSpec.

Section PulseSystem.
Variables (W : nat) (d : Z).

Definition pcall (p : pfilter) (o : pop) : outcome (pfilter * Z) :=
  match o with
  | PFilter x => pulse_filter W p x d
  | PClear i => do p' <- pulse_clear W p i; Done (p', 0)
  end.

Fixpoint prun (p : pfilter) (h : list pop) : outcome pfilter :=
  match h with
  | [] => Done p
  | o :: h' => do (p', _) <- pcall p o; prun p' h'
  end.

Definition type_of (high : bool) : pulse_type := if high then COUNT_HIGH_PULSE else COUNT_LOW_PULSE.

(** Initialised in memory [p], then the calls [h]. *)
Definition phistory (p : pfilter) (high : bool) (init : Z) (h : list pop) : outcome pfilter :=
  do p' <- pulse_filter_init W p (type_of high) init; prun p' h.

(** Memory of the right size holding unsigned ints. *)
Definition mem_ok (p : pfilter) : Prop :=
  length (filters p) = W /\ length (pcount p) = W /\ Forall (fun c => 0 <= c < 2 ^ Z.of_nat W) (filters p).

End PulseSystem.

(** The same with a debounce argument for every call. *)
Section VaryingPulseSystem.
Variable W : nat.

Definition vpcall (p : pfilter) (o : vpop) : outcome (pfilter * Z) :=
  match o with
  | VPFilter x d => pulse_filter W p x d
  | VPClear i => do p' <- pulse_clear W p i; Done (p', 0)
  end.

Fixpoint vprun (p : pfilter) (h : list vpop) : outcome pfilter :=
  match h with
  | [] => Done p
  | o :: h' => do (p', _) <- vpcall p o; vprun p' h'
  end.

Definition vphistory (p : pfilter) (high : bool) (init : Z) (h : list vpop) : outcome pfilter :=
  do p' <- pulse_filter_init W p (type_of high) init; vprun p' h.

End VaryingPulseSystem.
