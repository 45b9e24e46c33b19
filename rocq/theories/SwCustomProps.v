(** Properties C178 and C179: stopwatches compiled with GEL_CUSTOM_TIMESTAMP_TYPE. *)
From Coq Require Import ZifyBool.
From Verif Require Import Base BaseLemmas TimeModel TimeSpec StopwatchModel StopwatchSpec StopwatchSystem
  SwCustomModel SwCustomSpec SwCustomSystem SwCustomProofs.

(** C178: elapsed and remaining time over any history.  A type between int and long is right
    over its full range, twice as far as the default type; one narrower than int is right
    between two wraps of the clock. *)
Theorem stopwatch_custom_elapsed : forall I L T C t h now,
  0 < T <= C -> T < L -> I <= L -> I <= T \/ T + 1 < I -> custom_history_ok I L T new_watch h ->
  let s := watch_run new_watch h in let m := c_run I L T C (stopwatch_init t) h in
  stretch_fits I T s now ->
  c_get_elapsed I L T m (counter C now) = elapsed s now mod 2 ^ L /\
  (elapsed s now < 2 ^ L ->
   c_get_remaining I L T m (counter C now) = Z.max 0 (period s - elapsed s now)) /\
  stopwatch_get_state m = state_of (wphase s).
Proof. intros I L T C t h now [H1 H2] H3 H4 H5. now apply custom_elapsed_l. Qed.
Print Assumptions stopwatch_custom_elapsed.

(** C178: with the default type everything is as in C62-C65. *)
Theorem stopwatch_custom_default : forall I L t h n, I <= L -> 0 < L ->
  Forall (fun x => match snd x with
                   | Change v | SetPeriod v | SetElapsed v => 0 <= v < 2 ^ L | _ => True end) h ->
  0 <= n < 2 ^ L ->
  let m := sw_run L (stopwatch_init t) h in
  c_run I L L L (stopwatch_init t) h = m /\
  c_get_elapsed I L L m n = stopwatch_get_elapsed L m n /\
  c_get_remaining I L L m n = stopwatch_get_remaining L m n /\
  c_is_timer_reached I L L m n = stopwatch_is_timer_reached L m n.
Proof.
  intros I L t h n HI HL Hh Hn m.
  destruct (default_run_l I L HI HL h (stopwatch_init t) (in_range_init L HL t) Hh) as (E & R).
  split; [exact E|]. destruct (default_queries_l I L HI HL _ n R Hn) as (E1 & E2 & E3 & _). auto.
Qed.
Print Assumptions stopwatch_custom_default.

(** A uint32_t clock on an LP64 machine, counting through a wrap and past half the range. *)
Definition custom_history : list (Z * sw_op) :=
  [(0, SetPeriod 3000000100); (10, Start); (3000000010, Pause); (2 ^ 32 - 7, Start)].

Example stopwatch_custom_example :
  custom_history_ok 32 64 32 new_watch custom_history /\
  stretch_fits 32 32 (watch_run new_watch custom_history) (2 ^ 32 + 90) /\
  elapsed (watch_run new_watch custom_history) (2 ^ 32 + 90) = 3000000097 /\
  c_get_elapsed 32 64 32 (c_run 32 64 32 32 STOPWATCH_NULL custom_history) 90 = 3000000097 /\
  c_get_remaining 32 64 32 (c_run 32 64 32 32 STOPWATCH_NULL custom_history) 90 = 3.
Proof. repeat split; vm_compute; congruence. Qed.

(** C179 refuted: a period of 100 on a uint32_t clock of an LP64 machine is reached at tick 100
    and not at tick 101, when nothing remains; on a uint16_t clock it is not reached at all
    when started 36 ticks before the wrap, and a period of 65541 is reached after 5 ticks. *)
Theorem stopwatch_custom_reached_refuted :
  let m p t0 := stopwatch_setngo (stopwatch_init STOPWATCH_NULL) p t0 in
  (c_is_timer_reached 32 64 32 (m 100 0) 100 = true /\
   c_is_timer_reached 32 64 32 (m 100 0) 101 = false /\ c_get_remaining 32 64 32 (m 100 0) 101 = 0) /\
  (forall d, 0 <= d -> c_is_timer_reached 32 64 16 (m 100 65500) (counter 16 (65500 + d)) = false) /\
  c_is_timer_reached 32 64 16 (m 65541 0) 5 = true.
Proof.
  split; [repeat split|]. split; [|reflexivity].
  intros d Hd. unfold counter. pose proof (Z.mod_pos_bound (65500 + d) (2 ^ 16) ltac:(lia)) as R.
  set (n := (65500 + d) mod 2 ^ 16) in *. clearbody n. change (2 ^ 16) with 65536 in R.
  unfold c_is_timer_reached, stopwatch_setngo, stopwatch_start, stopwatch_set, stopwatch_init.
  cbn [fst snd sstate starting_time elapsed_time total_time]. change (0 <? 100) with true. cbv iota.
  change (wrap 16 65500) with 65500. change (wrap 16 (wrap 64 (100 - 0))) with 100.
  rewrite (wrap_small 16 n) by exact R.
  destruct (TimeProofs.narrow_int_expired_l 32 64 16 65500 n 100) as (E & _); try lia; try exact R.
Qed.
Print Assumptions stopwatch_custom_reached_refuted.

(** C179, exact, over any history: while counting, a type between int and long reports the
    period reached only in the ticks where the stretch is congruent to what was left of the
    period; a type narrower than int compares clock values, what was left taken modulo the range. *)
Theorem stopwatch_custom_reached_partial : forall I L T C t h now,
  0 < T <= C -> T < L -> I <= L -> I <= T \/ T + 1 < I -> custom_history_ok I L T new_watch h ->
  let s := watch_run new_watch h in let m := c_run I L T C (stopwatch_init t) h in
  acc s < 2 ^ L ->
  c_is_timer_reached I L T m (counter C now) =
    match wphase s with
    | Idle => false
    | Held => period s <=? acc s
    | Running since =>
        (left_at_start s <=? 0) ||
        (if T <? I then counter T since + left_at_start s mod 2 ^ T <=? counter T now
         else (now - since) mod 2 ^ T =? left_at_start s mod 2 ^ T)
    end.
Proof. intros I L T C t h now [H1 H2] H3 H4 H5. now apply custom_reached_l. Qed.
Print Assumptions stopwatch_custom_reached_partial.

Example stopwatch_custom_reached_example :
  acc (watch_run new_watch custom_history) = 3000000000 /\ left_at_start (watch_run new_watch custom_history) = 100 /\
  c_is_timer_reached 32 64 32 (c_run 32 64 32 32 STOPWATCH_NULL custom_history) 93 = true /\
  c_is_timer_reached 32 64 32 (c_run 32 64 32 32 STOPWATCH_NULL custom_history) 94 = false.
Proof. repeat split. Qed.
