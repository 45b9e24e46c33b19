(** A debounce filter in front of a keypad: every poll filters a raw word (debounce.c:21-29) and hands the value of the
    filter (debounce.h:28-30) to the keypad (keypad.c). *)
From Verif Require Import Base TimeModel TimeSpec DebounceModel KeypadModel.

Section DebKey.
Variables (I w : Z) (W : nat) (d click longclick period : Z).

Fixpoint polls (f : dfilter) (keys : list key) (h : list (Z * Z)) : outcome (dfilter * list key * list (Z * Z * Z)) :=
  match h with
  | [] => Done (f, keys, [])
  | (t, x) :: h' =>
      do (f, _) <- debounce_filter W f x d;
      do (keys, found, ecode, e) <- keypad_routine I w keys click longclick period (counter w t) (debounce_value f);
      do (f, keys, outs) <- polls f keys h';
      Done (f, keys, (found, ecode, e) :: outs)
  end.

End DebKey.

Definition reports_event (e : Z) (o : Z * Z * Z) : bool := snd o =? e.
