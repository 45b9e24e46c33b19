(** Properties C58-C61: timecheck.h.  [I] bits of int, [w] bits of the timestamp type. *)
From Coq Require Import ZifyBool.
From Verif Require Import Base BaseLemmas TimeModel TimeSpec TimeProofs.

(** C58: order of instants, across counter wrap-around (timestamp_t as wide as long). *)
Theorem time_order : forall I w t u, 0 < w -> I <= w -> close w t u ->
  time_after I w w (counter w t) (counter w u) = (u <? t) /\
  time_before I w w (counter w t) (counter w u) = (t <? u) /\
  time_after_or_equal I w w (counter w t) (counter w u) = (u <=? t).
Proof.
  intros. split; [now apply time_after_l|]. split; [now apply time_before_l|now apply time_after_or_equal_l].
Qed.
Print Assumptions time_order.

(** The distance bound cannot be improved: at half the range each is after the other. *)
Theorem time_order_sharp : forall I w t, 0 < w -> I <= w ->
  time_after I w w (counter w t) (counter w (t + 2 ^ (w - 1))) = true /\
  time_after I w w (counter w (t + 2 ^ (w - 1))) (counter w t) = true.
Proof. exact time_after_half_l. Qed.
Print Assumptions time_order_sharp.

Example time_order_example :
  close 32 (2 ^ 32 + 5) (2 ^ 32 - 10) /\ counter 32 (2 ^ 32 + 5) = 5 /\ counter 32 (2 ^ 32 - 10) = 2 ^ 32 - 10 /\
  time_after 32 32 32 5 (2 ^ 32 - 10) = true.
Proof. repeat split. Qed.

(** C59: intervals. *)
Theorem time_interval_distance : forall I w t u, 0 < w -> I <= w -> close w t u ->
  time_interval I w w (counter w t) (counter w u) = Z.abs (t - u).
Proof. exact time_interval_l. Qed.
Print Assumptions time_interval_distance.

Example time_interval_example :
  close 64 (2 ^ 64 - 3) (2 ^ 64 + 4) /\ time_interval 32 64 64 (2 ^ 64 - 3) 4 = 7 /\
  time_interval 32 64 64 4 (2 ^ 64 - 3) = 7.
Proof. repeat split. Qed.

(** C60: expiry. *)
Theorem time_expiry : forall I w start now delay, 0 < w -> I <= w -> close w now (start + delay) ->
  is_expired I w w (counter w start) (counter w now) delay = (start + delay <=? now) /\
  is_strictly_expired I w w (counter w start) (counter w now) delay = (start + delay <? now).
Proof. intros. split; [now apply is_expired_l|now apply is_strictly_expired_l]. Qed.
Print Assumptions time_expiry.

Example time_expiry_example :
  close 32 (2 ^ 32 + 90) (2 ^ 32 - 10 + 100) /\
  is_expired 32 32 32 (2 ^ 32 - 10) 90 100 = true /\ is_strictly_expired 32 32 32 (2 ^ 32 - 10) 90 100 = false.
Proof. repeat split. Qed.

(** C61 refuted: with 32 bit int and 64 bit long, a uint32_t clock never runs "after"
    anything, and a uint16_t clock goes back in time when it wraps. *)
Theorem time_custom_type_refuted :
  (exists t u, close 32 t u /\ u < t /\ time_after 32 64 32 (counter 32 t) (counter 32 u) = false) /\
  (exists t u, close 16 t u /\ u < t /\ time_after 32 64 16 (counter 16 t) (counter 16 u) = false).
Proof.
  split.
  - exists 10, 5. repeat split.
  - exists 65540, 65530. repeat split.
Qed.
Print Assumptions time_custom_type_refuted.

(** C61, exact, on all counter values: a type at least as wide as int but narrower than long
    never compares as after, so that a delay is over only in the one tick where the counter
    equals its end; a type narrower than int compares plain counter values. *)
Theorem time_custom_type_exact_partial : forall I L w a b d, 0 < w -> I <= L ->
  0 <= a < 2 ^ w -> 0 <= b < 2 ^ w -> 0 <= d < 2 ^ w ->
  (I <= w < L ->
     time_after I L w a b = false /\
     time_after_or_equal I L w a b = (a =? b) /\
     time_interval I L w a b = (b - a) mod 2 ^ w /\
     is_expired I L w a b d = (b =? (a + d) mod 2 ^ w) /\
     is_strictly_expired I L w a b d = false) /\
  (w + 1 < I ->
     time_after I L w a b = (b <? a) /\
     time_after_or_equal I L w a b = (b <=? a) /\
     time_interval I L w a b = Z.abs (a - b) /\
     is_expired I L w a b d = (a + d <=? b) /\
     is_strictly_expired I L w a b d = (a + d <? b)).
Proof.
  intros I L w a b d Hw HL Ha Hb Hd. split.
  - intros [H1 H2]. split; [now apply narrow_long_l|]. now apply narrow_long_all_l.
  - intros H1. destruct (narrow_int_l I L w a b) as (E1 & E2 & E3); try assumption; [lia|].
    destruct (narrow_int_expired_l I L w a b d) as (E4 & E5); try assumption. auto.
Qed.
Print Assumptions time_custom_type_exact_partial.

(** C61, on instants: a type narrower than int is right while the counter has not wrapped
    between the two instants and wrong after it has, unless the counter has run past the
    other value again; a type as wide as long is covered by [time_order]. *)
Theorem time_custom_type_partial : forall I L w, 0 < w -> I <= L ->
  (I <= w < L -> forall a b, time_after I L w a b = false) /\
  (w < I -> forall t u, t / 2 ^ w = u / 2 ^ w ->
     time_after I L w (counter w t) (counter w u) = (u <? t) /\
     time_after_or_equal I L w (counter w t) (counter w u) = (u <=? t) /\
     time_interval I L w (counter w t) (counter w u) = Z.abs (t - u)) /\
  (w < I -> forall t u, u / 2 ^ w < t / 2 ^ w -> counter w t <= counter w u ->
     time_after I L w (counter w t) (counter w u) = false).
Proof.
  intros I L w Hw HL. assert (0 < 2 ^ w) by (apply Z.pow_pos_nonneg; lia). split; [|split].
  - intros Hi a b. apply narrow_long_l; lia.
  - intros Hi t u E.
    destruct (narrow_int_l I L w (counter w t) (counter w u)) as (E1 & E2 & E3);
      try assumption; try (apply Z.mod_pos_bound; lia).
    rewrite E1, E2, E3. unfold counter.
    pose proof (Z.div_mod t (2 ^ w) ltac:(lia)). pose proof (Z.div_mod u (2 ^ w) ltac:(lia)).
    rewrite E in *. repeat split; lia.
  - intros Hi t u _ Hc.
    destruct (narrow_int_l I L w (counter w t) (counter w u)) as (E1 & _ & _);
      try assumption; try (apply Z.mod_pos_bound; lia).
    rewrite E1. lia.
Qed.
Print Assumptions time_custom_type_partial.

(** A 100 tick delay on a uint32_t clock of an LP64 machine: over at tick 100, no longer at 101;
    on a uint16_t clock started at 65500 it is never over. *)
Example time_custom_type_example :
  is_expired 32 64 32 0 100 100 = true /\ is_expired 32 64 32 0 101 100 = false /\
  is_expired 32 64 16 65500 65535 100 = false /\ is_expired 32 64 16 65500 (counter 16 (65500 + 200)) 100 = false.
Proof. repeat split. Qed.

