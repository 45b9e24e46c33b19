(** Histories of a timer compiled with a [T]-bit timestamp type; the application passes the
    value of a [C]-bit clock. *)
From Verif Require Import Base TimeSpec StopwatchModel StopwatchSpec SwCustomModel TimerModel TimerSpec TmCustomModel.

Section TmCustomSystem.
Variables I L T C : Z.
Context {Cb User Arg : Type}.
Variable call : Cb -> timer Cb Arg -> User -> Arg -> timer Cb Arg.

Definition c_timer_call (t : timer Cb Arg) (now : Z) (o : alarm_op User)
  : timer Cb Arg * (Z * option (Cb * User * Arg)) :=
  let c := counter C now in
  match o with
  | TStop => (gel_timer_stop t, (0, None))
  | TResume => (gel_timer_resume t c, (0, None))
  | TPause => (c_timer_pause I L T t c, (0, None))
  | TReset => (c_timer_reset I L T t c, (0, None))
  | TPeriod p => (c_timer_change_period I L T t p c, (0, None))
  | TReload b => (gel_timer_set_autoreload t b, (0, None))
  | TPoll u => let '(t', r, e) := c_timer_manage_callback I L T call t c u in (t', (r, e))
  | TRemaining => (t, (c_timer_get_remaining I L T t c, None))
  end.

Fixpoint c_timer_run (t : timer Cb Arg) (h : list (Z * alarm_op User)) : list (Z * option (Cb * User * Arg)) :=
  match h with
  | [] => []
  | (now, o) :: h' => let (t', r) := c_timer_call t now o in r :: c_timer_run t' h'
  end.

End TmCustomSystem.

Definition all_polls {User} (polls : list (Z * User)) : list (Z * alarm_op User) :=
  map (fun p => (fst p, TPoll (snd p))) polls.

(** Result of a poll, and the callback made. *)
Definition report {Cb User Arg} (cb : Cb) (arg : Arg) (o : option User) : Z * option (Cb * User * Arg) :=
  match o with Some u => (1, Some (cb, u, arg)) | None => (0, None) end.
