(** The seconds of a week. *)
From Verif Require Import Base SchedulerModel SchedulerSpec.

(** How many of the numbers below [n] satisfy [p]. *)
Fixpoint count (p : Z -> bool) (n : nat) : Z :=
  match n with O => 0 | S n' => count p n' + b2z (p (Z.of_nat n')) end.

(** The time [x] seconds after the beginning of the week. *)
Definition moment (x : Z) : tm := mkTm (x / DAY) (x mod DAY / 3600) (x mod DAY / 60 mod 60) (x mod DAY mod 60).

(** The number of seconds of a week in which [p] holds. *)
Definition in_a_week (p : tm -> bool) : Z := count (fun x => p (moment x)) (7 * Z.to_nat DAY).

(** The included days. *)
Definition num_days (e : entry) : Z := zlen (filter (on_day e) [0;1;2;3;4;5;6]).

(** Past 24:00 the seconds between the end and the start of a day are left out. *)
Definition seconds_a_day (e : entry) : Z :=
  if end_second e <=? DAY then Z.max 0 (end_second e - start_second e)
  else DAY - Z.max 0 (Z.min (start_second e) DAY - (end_second e - DAY)).
