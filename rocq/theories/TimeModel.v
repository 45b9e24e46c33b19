(** Model of gel/timer/timecheck.h.

    Parameters: [I] bits of int, [L] bits of long, [w] bits of timestamp_t (an unsigned
    type, w <= L).  A type narrower than int is promoted to (signed) int before arithmetic;
    the sums and differences of two promoted values are taken to fit an int, which holds
    for uint8_t and uint16_t with a 32 bit int.  [typecheck] (15-25) is always 1. *)
From Verif Require Import Base.

Section Time.
Variables I L w : Z.

(** Type of the result of + and - on two timestamps: promoted int, or timestamp_t. *)
Definition arith (x : Z) : Z := if w <? I then x else wrap w x.

(** timecheck.h:27 applied to operands of the (promoted) timestamp type. *)
Definition time_after (a b : Z) : bool := swrap L (arith (b - a)) <? 0.

(** timecheck.h:28. *)
Definition time_after_or_equal (a b : Z) : bool := swrap L (arith (b - a)) <=? 0.

(** timecheck.h:29. *)
Definition time_before (a b : Z) : bool := time_after b a.

(** timecheck.h:34-39; the result is converted to timestamp_t. *)
Definition time_interval (a b : Z) : Z :=
  if time_after a b then wrap w (- arith (b - a)) else wrap w (arith (b - a)).

(** timecheck.h:42-45. *)
Definition is_loosely_expired (start current delay : Z) : bool :=
  time_after_or_equal current (arith (start + delay)).

(** timecheck.h:48-51. *)
Definition is_strictly_expired (start current delay : Z) : bool :=
  time_after current (arith (start + delay)).

(** timecheck.h:31. *)
Definition is_expired (start current delay : Z) : bool := is_loosely_expired start current delay.

End Time.
