(** Model of gel/debounce/pulsecounter.c and pulsecounter.h.

    [W] is the number of bits of unsigned int (PULSE_NUM, pulsecounter.h:4).  The shift
    [1 << i] of an int into the sign bit is taken with gcc's meaning. *)
From Verif Require Import Base Loop.

(** pulsecounter.h:6-9. *)
Inductive pulse_type := COUNT_HIGH_PULSE | COUNT_LOW_PULSE.

(** pulsecounter.h:11-16. *)
Record pfilter := mkPf { ptype : pulse_type; pold : Z; filters : list Z; pcount : list Z }.

Section Pulse.
Variable W : nat.
Definition PULSE_NUM : Z := Z.of_nat W.

(** pulsecounter.c:3. *)
Definition PNTH (x i : Z) : Z := Z.land (Z.shiftr x i) 1.

(** pulsecounter.c:4; [val] is 0 or 1. *)
Definition PSET_NTH (x i val : Z) : Z :=
  Z.lor (Z.land x (wrap PULSE_NUM (Z.lnot (Z.shiftl 1 i)))) (Z.shiftl val i).

(** pulsecounter.h:25-29. *)
Definition pulse_count (p : pfilter) (i : Z) : outcome Z :=
  if (i <? 0) || (PULSE_NUM <=? i) then Done (-1)
  else do c <- zget (pcount p) i; Done (swrap PULSE_NUM c).

(** pulsecounter.h:46-50. *)
Definition pulse_clear (p : pfilter) (i : Z) : outcome pfilter :=
  if (i <? 0) || (PULSE_NUM <=? i) then Done p
  else do c <- zset (pcount p) i 0; Done (mkPf (ptype p) (pold p) (filters p) c).

(** pulsecounter.c:6-13. *)
Definition pulse_filter_init (p : pfilter) (type : pulse_type) (init : Z) : outcome pfilter :=
  for_up W 0 pulse_clear (mkPf type init (filters p) (pcount p)).

(** pulsecounter.c:19-45, the loop body. *)
Definition pulse_body (input debounce : Z) (s : pfilter * Z) (i : Z) : outcome (pfilter * Z) :=
  let (p, change) := s in
  if PNTH input i =? PNTH (pold p) i then
    do f <- zset (filters p) i 0;
    Done (mkPf (ptype p) (pold p) f (pcount p), change)
  else
    do n <- zget (filters p) i;
    let n' := if 0 <? n then wrap PULSE_NUM (n - 1) else wrap PULSE_NUM debounce in
    do f <- zset (filters p) i n';
    if n' =? 0 then
      let edge := match ptype p with
                  | COUNT_HIGH_PULSE => (PNTH (pold p) i =? 1) && (PNTH input i =? 0)
                  | COUNT_LOW_PULSE => (PNTH (pold p) i =? 0) && (PNTH input i =? 1)
                  end in
      do (c, ch) <- (if edge then
                       do c <- zget (pcount p) i;
                       do cs <- zset (pcount p) i (wrap PULSE_NUM (c + 1));
                       Done (cs, 1)
                     else Done (pcount p, change));
      Done (mkPf (ptype p) (PSET_NTH (pold p) i (PNTH input i)) f c, ch)
    else Done (mkPf (ptype p) (pold p) f (pcount p), change).

(** pulsecounter.c:15-48. *)
Definition pulse_filter (p : pfilter) (input debounce : Z) : outcome (pfilter * Z) :=
  for_up W 0 (pulse_body input debounce) (p, 0).

(** pulsecounter.c:51-55. *)
Definition pulse_level (p : pfilter) (i : Z) : Z :=
  if (i <? 0) || (PULSE_NUM <=? i) then -1 else PNTH (pold p) i.

End Pulse.
