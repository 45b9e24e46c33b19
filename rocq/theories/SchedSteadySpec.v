(** When nothing starts or ends. *)
From Verif Require Import Base SchedulerModel SchedulerSpec.

(** No enabled entry starts or ends after second [a] of the day and up to [b]; ends past 24:00 count on the next day. *)
Definition nothing_due (s : list entry) (a b : Z) : Prop := forall e x, In e s -> enabled e <> 0 -> a < x <= b ->
  x <> start_second e /\ x <> end_second e /\ x + DAY <> end_second e.

(** Nor at midnight: no enabled entry starts at 0:00 (or never), ends at 24:00, or includes only one of the two days. *)
Definition nothing_at_midnight (s : list entry) (wday wday' : Z) : Prop := forall e, In e s -> enabled e <> 0 ->
  0 < start_second e < DAY /\ end_second e <> DAY /\ on_day e wday = on_day e wday'.
