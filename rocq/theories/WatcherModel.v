(** Model of gel/data_structures/watcher.c.

    The memory is one region of bytes and [current] an offset into it, 0 standing for NULL.  [old] is
    the block owned by the watcher (the array of the struct, or the malloc'd block).  A callback is a
    number, 0 for NULL; what the callbacks do to the memory is the section variable [eff] (callback,
    memory address, data); they do not use the watcher list.  The functions that call back return the
    list of the calls they made, with the watched bytes at the moment of the call.  [I] and [L] are the bits of int and (unsigned) long. *)
From Verif Require Import Base TimeModel.

(** watcher.h:38-63. *)
Record watcher := mkWatcher {
  old : list Z; current : Z; size : Z; cb : Z; data : Z; timestamp : Z; delay : Z; moved : Z }.

Definition set_old (x : watcher) (v : list Z) : watcher :=
  mkWatcher v (current x) (size x) (cb x) (data x) (timestamp x) (delay x) (moved x).
Definition set_moved (x : watcher) (v : Z) : watcher :=
  mkWatcher (old x) (current x) (size x) (cb x) (data x) (timestamp x) (delay x) v.
Definition set_timestamp (x : watcher) (v : Z) : watcher :=
  mkWatcher (old x) (current x) (size x) (cb x) (data x) v (delay x) (moved x).

Section Watcher.
Variables I L : Z.
Variable eff : Z -> Z -> Z -> list Z -> list Z.
(** The value of GEL_MALLOC_AVAILABLE, whether malloc succeeds, and GEL_STATIC_BLOCK_SIZE. *)
Variable malloc_available : bool.
Variable malloc_ok : bool.
Variable block_size : Z.

Fixpoint bytes_eqb (a b : list Z) : bool :=
  match a, b with
  | [], [] => true
  | x :: a', y :: b' => (x =? y) && bytes_eqb a' b'
  | _, _ => false
  end.

(** The memcmp(old, current, size) of the loops: whether the two differ. *)
Definition differs (x : watcher) (m : list Z) : outcome bool :=
  do o <- zread (old x) 0 (size x);
  do c <- zread m (current x) (size x);
  Done (negb (bytes_eqb o c)).

(** The memcpy(old, current, size) of the loops. *)
Definition save (x : watcher) (m : list Z) : outcome watcher :=
  do c <- zread m (current x) (size x);
  do o <- zwrite (old x) 0 c;
  Done (set_old x o).

(** Callback, its two arguments, and the bytes it finds at the first one. *)
Definition call_event : Type := Z * Z * Z * list Z.

(** list[i].cb(list[i].current, list[i].data). *)
Definition call (x : watcher) (m : list Z) : outcome (list Z * call_event) :=
  if cb x =? 0 then Undef else
  do seen <- zread m (current x) (size x);
  Done (eff (cb x) (current x) (data x) m, (cb x, current x, data x, seen)).

(** watcher.c:8-20.  The malloc'd block is taken to hold zeroes before the copy. *)
Fixpoint watcher_list_init (l : list watcher) (m : list Z) : outcome (list watcher) :=
  match l with
  | [] => Undef
  | x :: l' =>
      if current x =? 0 then Done l else
      do x <- if malloc_available
              then (if malloc_ok then Done (set_old x (repeat 0 (Z.to_nat (size x)))) else Undef)
              else (if size x <=? block_size then Done x else Abort);
      do x <- save x m;
      do l' <- watcher_list_init l' m;
      Done (x :: l')
  end.

(** watcher.c:23-36. *)
Fixpoint watcher_check_for_changes (l : list watcher) (m : list Z) : outcome Z :=
  match l with
  | [] => Undef
  | x :: l' =>
      if current x =? 0 then Done 0 else
      do d <- differs x m;
      if d then Done 1 else watcher_check_for_changes l' m
  end.

(** watcher.c:39-53. *)
Fixpoint watcher_clear_changes (l : list watcher) (m : list Z) (now : Z) : outcome (list watcher) :=
  match l with
  | [] => Undef
  | x :: l' =>
      if current x =? 0 then Done l else
      do d <- differs x m;
      do x <- if d : bool
              then save (if 0 <? delay x then set_moved (set_timestamp x now) 0 else x) m
              else Done x;
      do l' <- watcher_clear_changes l' m now;
      Done (x :: l')
  end.

(** watcher.c:66-68. *)
Definition watcher_trigger_cb (l : list watcher) (m : list Z) (index : Z) : outcome (list Z * list call_event) :=
  do x <- zget l index;
  do (m, c) <- call x m;
  Done (m, [c]).

(** watcher.c:71-78; watcher_trigger_all_cb (56-63) is the same text. *)
Fixpoint watcher_trigger_all (l : list watcher) (m : list Z) : outcome (list Z * list call_event) :=
  match l with
  | [] => Undef
  | x :: l' =>
      if current x =? 0 then Done (m, []) else
      do (m, c) <- call x m;
      do (m, cs) <- watcher_trigger_all l' m;
      Done (m, c :: cs)
  end.

(** The body of the loop of watcher_process_changes, watcher.c:86-102: the watcher, the memory, the
    calls, and whether res is set. *)
Definition process_one (x : watcher) (m : list Z) (now : Z) : outcome (watcher * list Z * list call_event * bool) :=
  do d <- differs x m;
  if d : bool then
    do (x, m, cs) <-
      (if 0 <? delay x then Done (set_moved (set_timestamp x now) 1, m, [])
       else do (m, c) <- call (set_moved x 0) m; Done (set_moved x 0, m, [c]));
    do x <- save x m;
    Done (x, m, cs, true)
  else if moved x =? 0 then Done (x, m, [], false)
  else if is_expired I L L (timestamp x) now (delay x) then
    do (m, c) <- call (set_moved x 0) m;
    Done (set_moved x 0, m, [c], false)
  else Done (x, m, [], false).

(** watcher.c:81-108. *)
Fixpoint watcher_process_changes (l : list watcher) (m : list Z) (now : Z)
  : outcome (list watcher * list Z * list call_event * Z) :=
  match l with
  | [] => Undef
  | x :: l' =>
      if current x =? 0 then Done (l, m, [], 0) else
      do (x, m, cs, changed) <- process_one x m now;
      do (l', m, cs', res) <- watcher_process_changes l' m now;
      Done (x :: l', m, cs ++ cs', if changed then 1 else res)
  end.

(** watcher.h:16-26: the elements of the array have [elem] bytes each; [reduce] tells whether
    GEL_WATCHER_REDUCE_RAM_FOOTPRINT is defined, which makes [size] a uint8_t and [delay] a uint16_t (49-60).  The
    arguments are values, the macros put parentheses around them. *)
Definition WATCHER_DELAYED_ARRAY (reduce : bool) (ptr elem num cb data delay : Z) : watcher :=
  mkWatcher (if malloc_available then [] else repeat 0 (Z.to_nat block_size)) ptr
    (wrap (if reduce then 8 else 64) (wrap 64 (elem * num))) cb data 0 (wrap (if reduce then 16 else L) delay) 0.
Definition WATCHER_ARRAY (reduce : bool) (ptr elem num cb data : Z) : watcher :=
  mkWatcher (if malloc_available then [] else repeat 0 (Z.to_nat block_size)) ptr
    (wrap (if reduce then 8 else 64) (wrap 64 (elem * num))) cb data 0 0 0.

(** watcher.h:28-30. *)
Definition WATCHER (reduce : bool) (ptr elem cb data : Z) : watcher := WATCHER_ARRAY reduce ptr elem 1 cb data.
Definition WATCHER_DELAYED (reduce : bool) (ptr elem cb data delay : Z) : watcher := WATCHER_DELAYED_ARRAY reduce ptr elem 1 cb data delay.
Definition WATCHER_NULL (reduce : bool) : watcher := WATCHER reduce 0 1 0 0.

End Watcher.
