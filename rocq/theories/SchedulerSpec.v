(** Schedules by weekday and second of the day. *)
From Verif Require Import Base SchedulerModel.

Definition DAY : Z := 86400.

(** Field ranges of the C types. *)
Definition entry_ok (e : entry) : Prop :=
  0 <= enabled e < 256 /\ 0 <= days e < 256 /\ 0 <= start_second e < 2 ^ 32 /\ 0 <= end_second e < 2 ^ 32 /\
  INT_MIN <= value e <= INT_MAX.

(** Second of the day. *)
Definition clock (t : tm) : Z := tm_hour t * 3600 + tm_min t * 60 + tm_sec t.

(** A time of day as <time.h> allows it; a leap second counts as the first second of the next minute, the
    one before midnight is left to [leap]. *)
Definition tm_ok (t : tm) : Prop :=
  0 <= tm_wday t < 7 /\ 0 <= tm_hour t < 24 /\ 0 <= tm_min t < 60 /\ 0 <= tm_sec t <= 60 /\ clock t < DAY.
(** 23:59:60. *)
Definition leap (t : tm) : Prop := 0 <= tm_wday t < 7 /\ tm_hour t = 23 /\ tm_min t = 59 /\ tm_sec t = 60.

Definition on_day (e : entry) (wday : Z) : bool := Z.testbit (days e) wday.
Definition yesterday (wday : Z) : Z := (wday + 6) mod 7.

(** The entry covers second [s] counted from midnight of its day. *)
Definition covers (e : entry) (s : Z) : bool := (start_second e <=? s) && (s <? end_second e).

(** The entry is running: it was started today or yesterday and is not over yet. *)
Definition running (e : entry) (wday s : Z) : bool :=
  (on_day e wday && covers e s) || (on_day e (yesterday wday) && covers e (s + DAY)).

(** Seconds the entry covers in a week. *)
Definition week_total (e : entry) : Z :=
  Z.abs (end_second e - start_second e) * zlen (filter (on_day e) [0;1;2;3;4;5;6]).

(** The entry is meant to be active now, judged by today's flag only. *)
Definition active_today (e : entry) (wday s : Z) : bool :=
  on_day e wday && (covers e s || ((DAY <? end_second e) && (s + DAY <? end_second e))).

(** Enabled and active. *)
Definition eligible (e : entry) (t : tm) : bool :=
  negb (enabled e =? 0) && active_today e (tm_wday t) (clock t).

(** Two entries on a common day with a common instant on the same day. *)
Definition overlapping (a b : entry) : Prop :=
  exists wday s, 0 <= wday < 7 /\ 0 <= s < DAY /\
    on_day a wday = true /\ on_day b wday = true /\ covers a s = true /\ covers b s = true.

Definition same_day (e : entry) : Prop := start_second e < end_second e <= DAY.

(** The entries with their indices from [i]. *)
Fixpoint numbered (i : Z) (s : list entry) : list (Z * entry) :=
  match s with [] => [] | e :: s' => (i, e) :: numbered (i + 1) s' end.

(** Eligible, and no eligible entry has a smaller weekly total. *)
Definition contender (s : list entry) (t : tm) (e : entry) : bool :=
  eligible e t && forallb (fun e' => negb (eligible e' t) || (week_total e <=? week_total e')) s.
Definition contenders (s : list entry) (t : tm) : list (Z * entry) :=
  filter (fun ie => contender s t (snd ie)) (numbered 0 s).

(** Each contender in turn replaces the one before if its value exceeds the low byte of that one's. *)
Fixpoint survivor (c : Z * entry) (l : list (Z * entry)) : Z * entry :=
  match l with
  | [] => c
  | x :: l' => survivor (if value (snd c) mod 256 <? value (snd x) then x else c) l'
  end.
