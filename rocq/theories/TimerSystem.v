(** Histories of calls executed by the timer model, on a [w]-bit clock. *)
From Verif Require Import Base TimeSpec StopwatchModel StopwatchSpec TimerModel TimerSpec.

Section TimerSystem.
Variable w : Z.
Context {Cb User Arg : Type}.
Variable call : Cb -> timer Cb Arg -> User -> Arg -> timer Cb Arg.

Definition timer_call (t : timer Cb Arg) (now : Z) (o : alarm_op User)
  : timer Cb Arg * (Z * option (Cb * User * Arg)) :=
  let c := counter w now in
  match o with
  | TStop => (gel_timer_stop t, (0, None))
  | TResume => (gel_timer_resume t c, (0, None))
  | TPause => (gel_timer_pause w t c, (0, None))
  | TReset => (gel_timer_reset w t c, (0, None))
  | TPeriod p => (gel_timer_change_period w t p c, (0, None))
  | TReload b => (gel_timer_set_autoreload t b, (0, None))
  | TPoll u => let '(t', r, e) := gel_timer_manage_callback w call t c u in (t', (r, e))
  | TRemaining => (t, (gel_timer_get_remaining w t c, None))
  end.

Fixpoint timer_run (t : timer Cb Arg) (h : list (Z * alarm_op User)) : list (Z * option (Cb * User * Arg)) :=
  match h with
  | [] => []
  | (now, o) :: h' => let (t', r) := timer_call t now o in r :: timer_run t' h'
  end.

Definition poll_all (polls : list (Z * User)) : list (Z * alarm_op User) :=
  map (fun p => (fst p, TPoll (snd p))) polls.

End TimerSystem.

(** A callback that makes a list of calls on its timer. *)
Definition obey {Cb Arg : Type} (w : Z) (l : list command) (t : timer Cb Arg) : timer Cb Arg :=
  fold_left (fun t (c : command) =>
    match snd c with
    | TStop => gel_timer_stop t
    | TResume => gel_timer_resume t (fst c)
    | TPause => gel_timer_pause w t (fst c)
    | TReset => gel_timer_reset w t (fst c)
    | TPeriod p => gel_timer_change_period w t p (fst c)
    | TReload b => gel_timer_set_autoreload t b
    | TPoll u => match (u : Empty_set) with end
    | TRemaining => t
    end) l t.
