(** A timer on a [T]-bit timestamp type, [I] bits of int, [L] bits of long, in true time. *)
From Verif Require Import Base TimeSpec StopwatchSpec SwCustomSpec TimerSpec.

(** When such a timer takes its period to be over. *)
Definition custom_due (I T : Z) (s : watch) (now : Z) : bool :=
  match wphase s with
  | Idle => false
  | Held => period s <=? acc s
  | Running since =>
      (left_at_start s <=? 0) ||
      (if T <? I then counter T since + left_at_start s mod 2 ^ T <=? counter T now
       else (now - since) mod 2 ^ T =? left_at_start s mod 2 ^ T)
  end.

(** The alarm of [TimerSpec], apart from that. *)
Definition custom_step {User} (I T : Z) (a : alarm) (now : Z) (o : alarm_op User) : alarm :=
  match o with
  | TPoll _ =>
      if custom_due I T (awatch a) now then
        if reload a then mkAlarm (mkWatch (Running now) 0 (period (awatch a))) true
        else mkAlarm (mkWatch Idle 0 (period (awatch a))) false
      else a
  | _ => alarm_step a now o
  end.

Definition custom_out {User} (I T : Z) (a : alarm) (now : Z) (o : alarm_op User) : Z * option User :=
  match o with
  | TPoll u => if custom_due I T (awatch a) now then (1, Some u) else (0, None)
  | _ => alarm_out a now o
  end.

Fixpoint custom_run {User} (I T : Z) (a : alarm) (h : list (Z * alarm_op User)) : list (Z * option User) :=
  match h with
  | [] => []
  | (now, o) :: h' => custom_out I T a now o :: custom_run I T (custom_step I T a now o) h'
  end.

Definition custom_alarm_call_ok {User} (I L T : Z) (a : alarm) (now : Z) (o : alarm_op User) : Prop :=
  let s := awatch a in
  match o with
  | TPause => stretch_fits I T s now
  | TPeriod p => 0 <= p < 2 ^ L
  | TReload b => 0 <= b < 256
  | TPoll _ => acc s < 2 ^ L
  | TRemaining => stretch_fits I T s now /\ elapsed s now < 2 ^ L
  | _ => True
  end.

Fixpoint custom_alarm_ok {User} (I L T : Z) (a : alarm) (h : list (Z * alarm_op User)) : Prop :=
  match h with
  | [] => True
  | (now, o) :: h' => custom_alarm_call_ok I L T a now o /\ custom_alarm_ok I L T (custom_step I T a now o) h'
  end.

(** *** Polling only *)

(** No tick from [last] on is left out. *)
Fixpoint every_tick {User} (last : Z) (polls : list (Z * User)) : Prop :=
  match polls with
  | [] => True
  | (t, _) :: r => last <= t <= last + 1 /\ every_tick t r
  end.

(** In order, from [last] on and before [limit]. *)
Fixpoint in_order {User} (last limit : Z) (polls : list (Z * User)) : Prop :=
  match polls with
  | [] => True
  | (t, _) :: r => last <= t < limit /\ in_order t limit r
  end.
