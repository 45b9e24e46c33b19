(** Model of gel/timer/timer.c with several timers whose callbacks use timers, their own included.

    The timers are the cells of a list, a pointer to a timer is an index.  A callback may call the functions of
    timer.h on any of them, gel_timer_manage_callback included, look at the results, and so on, before it returns.
    [fuel] bounds the depth of nested callbacks; a run that needs more is a [Timeout].  [w] is the width of
    unsigned long. *)
From Verif Require Import Base StopwatchModel TimerModel.

Section TimerNest.
Variable w : Z.
Context {Cb User Arg : Type}.

(** A call of a function of timer.h without result, with its timestamp. *)
Inductive op := OStop | OResume (now : Z) | OPause (now : Z) | OReset (now : Z) | OPeriod (p now : Z) | OReload (a : Z).

Definition apply (o : op) (t : timer Cb Arg) : timer Cb Arg :=
  match o with
  | OStop => gel_timer_stop t
  | OResume now => gel_timer_resume t now
  | OPause now => gel_timer_pause w t now
  | OReset now => gel_timer_reset w t now
  | OPeriod p now => gel_timer_change_period w t p now
  | OReload a => gel_timer_set_autoreload t a
  end.

(** What a callback does next: return, operate on timer [i], ask for the remaining time of timer [i], or manage timer
    [i], and go on with the result. *)
Inductive body :=
| Return
| Do (i : Z) (o : op) (k : body)
| Ask (i now : Z) (k : Z -> body)
| Poll (i now : Z) (u : User) (k : Z -> body).

(** The history: the callback of timer [i] was called; it returned. *)
Inductive ev := Began (i : Z) (c : Cb) (u : User) (a : Arg) | Ended (i : Z).

(** What the callbacks do: callback, the timer it is called for, user pointer, argument. *)
Variable behave : Cb -> Z -> User -> Arg -> body.

Definition table : Type := list (timer Cb Arg).

Fixpoint perform (poll : table -> list ev -> Z -> Z -> User -> outcome (table * list ev * Z)) (b : body) (T : table) (tr : list ev)
  : outcome (table * list ev) :=
  match b with
  | Return => Done (T, tr)
  | Do i o k => do t <- zget T i; perform poll k (upd T (Z.to_nat i) (apply o t)) tr
  | Ask i now k => do t <- zget T i; perform poll (k (gel_timer_get_remaining w t now)) T tr
  | Poll i now u k => do (T, tr, r) <- poll T tr i now u; perform poll (k r) T tr
  end.

(** timer.c:70-82. *)
Fixpoint poll (fuel : nat) (T : table) (tr : list ev) (i now : Z) (u : User) : outcome (table * list ev * Z) :=
  match fuel with
  | O => Timeout
  | S fuel =>
      do t <- zget T i;
      if stopwatch_is_timer_reached w (stopwatch_ t) now then
        do (T, tr) <- perform (poll fuel) (behave (callback t) i u (targ t)) T (tr ++ [Began i (callback t) u (targ t)]);
        do t <- zget T i;
        let t := if negb (autoreload t =? 0)
                 then with_sw t (fst (stopwatch_restart (stopwatch_ t) now))
                 else with_sw t (fst (stopwatch_stop (stopwatch_ t))) in
        Done (upd T (Z.to_nat i) t, tr ++ [Ended i], 1)
      else Done (T, tr, 0)
  end.

End TimerNest.
Arguments body : clear implicits.
Arguments ev : clear implicits.
