(** The same samples given to a debounce filter and to a pulse counter. *)
From Verif Require Import Base DebounceModel PulseModel PulseSpec PulseSystem DebounceSystem.

Section PulseDeb.
Variable W : nat.

(** The debounce filter called with words and debounce arguments: after each call the returned
    mask and the word of readings. *)
Fixpoint dreports (f : dfilter) (h : list (Z * Z)) : outcome (dfilter * list (Z * Z)) :=
  match h with
  | [] => Done (f, [])
  | (x, d) :: h' =>
      do (f1, m) <- debounce_filter W f x d;
      do (f2, r) <- dreports f1 h';
      Done (f2, (m, debounce_value f1) :: r)
  end.

(** The pulse counter called with the same: the returned numbers. *)
Fixpoint panswers (p : pfilter) (h : list (Z * Z)) : outcome (pfilter * list Z) :=
  match h with
  | [] => Done (p, [])
  | (x, d) :: h' =>
      do (p1, c) <- pulse_filter W p x d;
      do (p2, r) <- panswers p1 h';
      Done (p2, c :: r)
  end.

(** In a report of the debounce filter, the inputs that have gone to the level that ends a pulse. *)
Definition pulse_ends (high : bool) (r : Z * Z) : Z :=
  let (m, v) := r in if high then Z.ldiff m v else Z.land m v.

(** Number of reports in which input [i] ends a pulse. *)
Definition pulses_of (high : bool) (i : Z) (rs : list (Z * Z)) : Z :=
  Z.of_nat (length (filter (fun r => Z.testbit (pulse_ends high r) i) rs)).

Definition words_ok (h : list (Z * Z)) : Prop := Forall (fun s => 0 <= fst s < 2 ^ Z.of_nat W) h.

End PulseDeb.
