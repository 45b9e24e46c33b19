(** Model of gel/debounce/debounce.c and debounce.h.

    [W] is the number of bits of unsigned int (NUM_INPUTS, debounce.h:6).  The shifts
    [1 << i] and [BOOL(val) << i] of an int into the sign bit (i = W-1) are taken with
    gcc's meaning (the bit is set); ISO C leaves them undefined. *)
From Verif Require Import Base Loop.

Section Debounce.
Variable W : nat.
Definition NUM_INPUTS : Z := Z.of_nat W.

(** debounce.h:9-13. *)
Record dfilter := mkDf { old_input : Z; buffered : Z; debounce_count : list Z }.

(** debounce.c:3, on an unsigned argument. *)
Definition BOOL (x : Z) : bool := 0 <? x.

(** debounce.h:7. *)
Definition NTH (x i : Z) : Z := Z.land (Z.shiftr x i) 1.

(** debounce.c:4. *)
Definition SET_NTH (x i val : Z) : Z :=
  Z.lor (Z.land x (wrap NUM_INPUTS (Z.lnot (Z.shiftl 1 i)))) (Z.shiftl (b2z (BOOL val)) i).

(** debounce.c:6-14. *)
Definition debounce_filter_init (f : dfilter) : outcome dfilter :=
  do c <- for_up W 0 (fun c i => zset c i 0) (debounce_count f);
  Done (mkDf 0 0 c).

(** debounce.c:16-19. *)
Definition debounce_filter_set (f : dfilter) (set : Z) : dfilter := mkDf set set (debounce_count f).

(** debounce.c:31-50; shifting by the word width or more is undefined. *)
Definition debounce_filter_single (f : dfilter) (input i debounce : Z) : outcome (dfilter * Z) :=
  if (i <? 0) || (NUM_INPUTS <=? i) then Undef
  else if b2z (BOOL input) =? NTH (old_input f) i then
    do c <- zset (debounce_count f) i 0;
    Done (mkDf (old_input f) (buffered f) c, 0)
  else
    do n <- zget (debounce_count f) i;
    let n' := if 0 <? n then wrap NUM_INPUTS (n - 1) else wrap NUM_INPUTS debounce in
    do c <- zset (debounce_count f) i n';
    if n' =? 0 then
      Done (mkDf (SET_NTH (old_input f) i input) (SET_NTH (buffered f) i input) c, SET_NTH 0 i 1)
    else Done (mkDf (old_input f) (buffered f) c, 0).

(** debounce.c:21-29. *)
Definition debounce_filter (f : dfilter) (input debounce : Z) : outcome (dfilter * Z) :=
  for_up W 0 (fun '(f, change) i =>
    do (f', c) <- debounce_filter_single f (NTH input i) i debounce;
    Done (f', Z.lor change c)) (f, 0).

(** debounce.h:22-26. *)
Definition debounce_read (f : dfilter) (i : Z) : Z :=
  if NUM_INPUTS <=? i then -1 else NTH (buffered f) i.

(** debounce.h:28-30. *)
Definition debounce_value (f : dfilter) : Z := buffered f.

End Debounce.
