(** Debounced edges of one input. *)
From Verif Require Import Base DebounceSpec.

Inductive pop := PFilter (word : Z) | PClear (i : Z).

Definition pop_ok (W : nat) (o : pop) : Prop :=
  match o with PFilter x => 0 <= x < 2 ^ Z.of_nat W | PClear _ => True end.

(** Debounced level of an input: it follows the samples after [d]+1 consecutive contrary ones;
    [run] counts the contrary samples so far. *)
Definition debounced (d : Z) (s : bool * Z) (sample : bool) : bool * Z :=
  let (level, run) := s in
  if eqb sample level then (level, 0)
  else if run =? d then (sample, 0)
  else (level, run + 1).

(** Which debounced transition counts: high to low, or low to high. *)
Definition counted (high : bool) (before after : bool) : bool :=
  if high then before && negb after else negb before && after.

(** Level, run and pulse count of input [i]. *)
Definition pulse_step (high : bool) (d i : Z) (s : (bool * Z) * Z) (o : pop) : (bool * Z) * Z :=
  let (lr, n) := s in
  match o with
  | PFilter x =>
      let lr' := debounced d lr (Z.testbit x i) in
      (lr', if counted high (fst lr) (fst lr') then n + 1 else n)
  | PClear j => (lr, if j =? i then 0 else n)
  end.

Definition pulse_ref (high : bool) (d init i : Z) (h : list pop) : (bool * Z) * Z :=
  fold_left (pulse_step high d i) h (Z.testbit init i, 0, 0).

(** Some input among the [W] ones sees a counted edge in this call. *)
Definition any_edge (W : nat) (high : bool) (d init : Z) (h : list pop) (x : Z) : bool :=
  existsb (fun k => let s := pulse_ref high d init (Z.of_nat k) h in
                    counted high (fst (fst s)) (fst (debounced d (fst s) (Z.testbit x (Z.of_nat k)))))
          (seq 0 W).

(** *** Every call with its own debounce argument, any memory before initialisation *)

Inductive vpop := VPFilter (word d : Z) | VPClear (i : Z).

(** Input [i]: debounced as in the debounce filter, with the pulses counted. *)
Definition vpulse_step (W : nat) (high : bool) (i : Z) (s : input * Z) (o : vpop) : input * Z :=
  match o with
  | VPFilter x d =>
      let t := sampled W (fst s) (Z.testbit x i) d in
      (t, if counted high (reading (fst s)) (reading t) then snd s + 1 else snd s)
  | VPClear j => (fst s, if j =? i then 0 else snd s)
  end.

(** [stale] is the content of the filter cell of the input before initialisation. *)
Definition vpulse (W : nat) (high : bool) (init stale i : Z) (h : list vpop) : input * Z :=
  fold_left (vpulse_step W high i) h (mkInput (Z.testbit init i) stale, 0).

(** Some input counts a pulse in the call with word [x] and argument [d]. *)
Definition some_pulse (W : nat) (high : bool) (init : Z) (stale : list Z) (h : list vpop) (x d : Z) : bool :=
  existsb (fun k => let i := Z.of_nat k in
             let s := fst (vpulse W high init (nth k stale 0) i h) in
             counted high (reading s) (reading (sampled W s (Z.testbit x i) d)))
          (seq 0 W).
