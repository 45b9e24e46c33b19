(** A software timer in true time. *)
From Verif Require Import Base TimeSpec StopwatchSpec.

Record alarm := mkAlarm { awatch : watch; reload : bool }.

Inductive alarm_op (User : Type) :=
| TStop | TResume | TPause | TReset | TPeriod (p : Z) | TReload (b : Z) | TPoll (u : User) | TRemaining.
Arguments TStop {User}.
Arguments TResume {User}.
Arguments TPause {User}.
Arguments TReset {User}.
Arguments TPeriod {User} p.
Arguments TReload {User} b.
Arguments TPoll {User} u.
Arguments TRemaining {User}.

(** Due: not stopped and the period has elapsed. *)
Definition due (s : watch) (now : Z) : bool :=
  match wphase s with Idle => false | _ => period s <=? elapsed s now end.

Definition alarm_step {User} (a : alarm) (now : Z) (o : alarm_op User) : alarm :=
  let s := awatch a in
  match o with
  | TStop => mkAlarm (mkWatch Idle 0 (period s)) (reload a)
  | TResume =>
      match wphase s with
      | Running _ => a
      | _ => mkAlarm (mkWatch (Running now) (acc s) (period s)) (reload a)
      end
  | TPause =>
      match wphase s with
      | Running _ => mkAlarm (mkWatch Held (elapsed s now) (period s)) (reload a)
      | _ => a
      end
  | TReset =>
      match wphase s with
      | Idle => a
      | Running _ => mkAlarm (mkWatch (Running now) 0 (period s)) (reload a)
      | Held => mkAlarm (mkWatch Held 0 (period s)) (reload a)
      end
  | TPeriod p =>
      match wphase s with
      | Idle => a
      | Running _ => mkAlarm (mkWatch (Running now) 0 p) (reload a)
      | Held => mkAlarm (mkWatch Held 0 p) (reload a)
      end
  | TReload b => mkAlarm s (negb (b =? 0))
  | TPoll _ =>
      if due s now then
        if reload a then mkAlarm (mkWatch (Running now) 0 (period s)) true
        else mkAlarm (mkWatch Idle 0 (period s)) false
      else a
  | TRemaining => a
  end.

(** What a call reports: a number, and the user pointer of a callback invocation. *)
Definition alarm_out {User} (a : alarm) (now : Z) (o : alarm_op User) : Z * option User :=
  match o with
  | TPoll u => if due (awatch a) now then (1, Some u) else (0, None)
  | TRemaining => (Z.max 0 (period (awatch a) - elapsed (awatch a) now), None)
  | _ => (0, None)
  end.

Fixpoint alarm_run {User} (a : alarm) (h : list (Z * alarm_op User)) : list (Z * option User) :=
  match h with
  | [] => []
  | (now, o) :: h' => alarm_out a now o :: alarm_run (alarm_step a now o) h'
  end.

(** The limits of a [w]-bit clock: polls come less than half the range from the deadline,
    paused and queried stretches are shorter than half the range, and the total counted
    time fits the counter. *)
Definition alarm_call_ok {User} (w : Z) (a : alarm) (now : Z) (o : alarm_op User) : Prop :=
  let s := awatch a in
  match o with
  | TPause => stretch_ok w s now
  | TPeriod p => 0 <= p < 2 ^ w
  | TReload b => 0 <= b < 256
  | TPoll _ =>
      acc s < 2 ^ w /\
      match wphase s with
      | Running since => since <= now /\ close w now (since + (period s - acc s))
      | _ => True
      end
  | TRemaining => stretch_ok w s now /\ elapsed s now < 2 ^ w
  | _ => True
  end.

Fixpoint alarm_history_ok {User} (w : Z) (a : alarm) (h : list (Z * alarm_op User)) : Prop :=
  match h with
  | [] => True
  | (now, o) :: h' => alarm_call_ok w a now o /\ alarm_history_ok w (alarm_step a now o) h'
  end.

(** *** Polling only *)

(** One shot: a callback at the first poll at or after the deadline [d]. *)
Fixpoint oneshot {User} (d : Z) (polls : list (Z * User)) : list (option User) :=
  match polls with
  | [] => []
  | (t, u) :: r => if d <=? t then Some u :: map (fun _ => None) r else None :: oneshot d r
  end.

(** Autoreload: a callback whenever a period [p] has passed since [last]. *)
Fixpoint periodic {User} (p last : Z) (polls : list (Z * User)) : list (option User) :=
  match polls with
  | [] => []
  | (t, u) :: r => if last + p <=? t then Some u :: periodic p t r else None :: periodic p last r
  end.

(** Polls between the start [t0] and the first one past the deadline [d] are close to [d]. *)
Fixpoint polls_near {User} (w t0 d : Z) (polls : list (Z * User)) : Prop :=
  match polls with
  | [] => True
  | (t, _) :: r => t0 <= t /\ close w t d /\ (t < d -> polls_near w t0 d r)
  end.

(** Non-decreasing, and each poll close to one period after the previous callback. *)
Fixpoint polls_regular {User} (w p last : Z) (polls : list (Z * User)) : Prop :=
  match polls with
  | [] => True
  | (t, _) :: r => last <= t /\ close w t (last + p) /\
                   polls_regular w p (if last + p <=? t then t else last) r
  end.

(** *** Callbacks that use their timer

    A callback is a list of calls with their timestamps; it does not poll.  All that matters to the timer afterwards is
    the period, which does not change while the timer is stopped, and whether it reloads. *)
Definition command : Type := Z * alarm_op Empty_set.
Definition command_ok (w : Z) (c : command) : Prop :=
  match snd c with TPeriod p => 0 <= p < 2 ^ w | TReload b => 0 <= b < 256 | _ => True end.

Fixpoint effect (stopped : bool) (p : Z) (r : bool) (l : list command) : Z * bool :=
  match l with
  | [] => (p, r)
  | (_, o) :: l' =>
      match o with
      | TStop => effect true p r l'
      | TResume => effect false p r l'
      | TPeriod q => effect stopped (if stopped then p else q) r l'
      | TReload b => effect stopped p (negb (b =? 0)) l'
      | _ => effect stopped p r l'
      end
  end.

Section Scripted.
Context {User : Type}.
Variable script : User -> list command.

Definition scripted_step (a : alarm) (now : Z) (o : alarm_op User) : alarm :=
  match o with
  | TPoll u =>
      if due (awatch a) now then
        let (p, r) := effect false (period (awatch a)) (reload a) (script u) in
        mkAlarm (mkWatch (if r then Running now else Idle) 0 p) r
      else a
  | _ => alarm_step a now o
  end.

Fixpoint scripted_run (a : alarm) (h : list (Z * alarm_op User)) : list (Z * option User) :=
  match h with
  | [] => []
  | (now, o) :: h' => alarm_out a now o :: scripted_run (scripted_step a now o) h'
  end.

Fixpoint scripted_ok (w : Z) (a : alarm) (h : list (Z * alarm_op User)) : Prop :=
  match h with
  | [] => True
  | (now, o) :: h' => alarm_call_ok w a now o /\ scripted_ok w (scripted_step a now o) h'
  end.

End Scripted.
