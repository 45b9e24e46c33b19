(** Model of gel/wearleveling/wearleveling.c.  size_t has 64 bits, int 32, uint8_t 8.

    The three device callbacks are arguments of the model, acting on a device state.  [rd]
    yields the result and the bytes put into the buffer, [rm] the result and the marker stored,
    [wr] the new device and the result.  Reading does not change the device. *)
From Verif Require Import Base.

(** wearleveling.h:9. *)
Definition MAX_BLOCKS_IN_PAGE : Z := 256.

(** wearleveling.h:12-14, 18-20. *)
Record callbacks (Dev : Type) := mkCb {
  rd : Dev -> Z -> Z -> outcome (Z * list Z);
  wr : Dev -> Z -> Z -> list Z -> outcome (Dev * Z);
  rm : Dev -> Z -> outcome (Z * Z) }.
Arguments mkCb {Dev}. Arguments rd {Dev}. Arguments wr {Dev}. Arguments rm {Dev}.

(** wearleveling.h:17-25 without the callbacks. *)
Record wlm := mkWl { blocks_in_page : Z; last_active_block : Z; last_marker : Z }.

(** wearleveling.c:21 on size_t operands; a zero modulus is undefined. *)
Definition NEXT_BLOCK (x m : Z) : outcome Z :=
  if m =? 0 then Undef else Done (wrap 64 (x + 1) mod m).

Section Wear.
Context {Dev : Type}.
Variable cb : callbacks Dev.

(** wearleveling.c:35-37. *)
Definition wl_read (d : Dev) (w : wlm) (len : Z) : outcome (Z * list Z) :=
  rd cb d (last_active_block w) len.

(** wearleveling.c:48-63.  A zero-length array (49) is undefined. *)
Definition wl_write (d : Dev) (w : wlm) (buffer : list Z) : outcome (Dev * wlm * Z) :=
  let len := zlen buffer in
  if len =? 0 then Undef else
  do (res, intermediate) <- rd cb d (last_active_block w) len;
  if negb (res =? 0) then Done (d, w, res)
  else if list_eq_dec Z.eq_dec intermediate buffer then Done (d, w, 0)
  else
    do m <- NEXT_BLOCK (last_marker w) MAX_BLOCKS_IN_PAGE;
    do b <- NEXT_BLOCK (last_active_block w) (blocks_in_page w);
    do (d', r) <- wr cb d b m buffer;
    Done (d', mkWl (blocks_in_page w) b m, r).

(** wearleveling.c:103-125: the loop from [i] with [n] steps of fuel. *)
Fixpoint search_loop (d : Dev) (blocks : Z) (n : nat) (i last : Z) : outcome (Z * Z) :=
  match n with
  | O => Timeout
  | S n' =>
      if i <? blocks then
        do (err, marker) <- rm cb d i;
        if negb (err =? 0) then Done (err, last)
        else do nx <- NEXT_BLOCK last MAX_BLOCKS_IN_PAGE;
             if negb (marker =? nx) then Done (i - 1, last)
             else search_loop d blocks n' (i + 1) marker
      else Done (0, last)
  end.

(** wearleveling.c:93-126. *)
Definition search_last (d : Dev) (blocks : Z) : outcome (Z * Z) :=
  do (err, last) <- rm cb d 0;
  if negb (err =? 0) then Done (err, last)
  else search_loop d blocks (S (Z.to_nat blocks)) 1 last.

(** wearleveling.c:75-84. *)
Definition wl_init (d : Dev) (blocks : Z) : outcome wlm :=
  if MAX_BLOCKS_IN_PAGE <=? blocks then Abort else
  do (r, last) <- search_last d blocks;
  Done (mkWl blocks (wrap 64 r) last).

End Wear.
