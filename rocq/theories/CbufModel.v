(** Model of gel/collections/circular_buffer.c (sequential semantics).

    Simplifications: the element type GEL_CBUF_TYPE is a type parameter; the struct's
    [buffer] pointer is the region itself (a list of [bufsize] cells); NULL [cbuf]
    and NULL [buffer] are modelled in [CbufNullModel] on top of this file;
    size_t is 64 bits, int is 32 bits; conversions to int wrap as in gcc. *)
From Verif Require Import Base.

Section Cbuf.
Context {A : Type}.

(** circular_buffer.h:10-16, struct circular_buf_t. *)
Record cbuf := mkCbuf { buffer : list A; bufsize : Z; head : Z; tail : Z }.

Definition with_head (c : cbuf) (h : Z) : cbuf := mkCbuf (buffer c) (bufsize c) h (tail c).
Definition with_tail (c : cbuf) (t : Z) : cbuf := mkCbuf (buffer c) (bufsize c) (head c) t.
Definition with_buffer (c : cbuf) (b : list A) : cbuf := mkCbuf b (bufsize c) (head c) (tail c).

(** circular_buffer.c:93-98. *)
Definition is_circular_buf_empty (c : cbuf) : bool := head c =? tail c.

(** circular_buffer.c:100-105 (size_t arithmetic). *)
Definition is_circular_buf_full (c : cbuf) : bool :=
  (wrap 64 (head c + 1)) mod (bufsize c) =? tail c.

(** circular_buffer.c:13-23; [step] is an int, converted to size_t by the addition. *)
Definition advance_pointer (c : cbuf) (step : Z) : cbuf :=
  if is_circular_buf_full c || (step =? 0) then c
  else with_head c ((wrap 64 (head c + wrap 64 step)) mod bufsize c).

(** circular_buffer.c:25-29. *)
Definition retreat_pointer (c : cbuf) (step : Z) : cbuf :=
  with_tail c ((wrap 64 (tail c + wrap 64 step)) mod bufsize c).

(** circular_buffer.c:81-87. *)
Definition circular_buf_reset (c : cbuf) : cbuf := mkCbuf (buffer c) (bufsize c) 0 0.

(** circular_buffer.c:70-79; [None] stands for the returned error 1.  [size] is
    the value passed by the caller; the region must have that many cells. *)
Definition circular_buf_init (region : list A) (size : Z) : option cbuf :=
  if size <=? 0 then None else Some (circular_buf_reset (mkCbuf region size 0 0)).

(** circular_buffer.c:107-124 ([tail] and [head] are copied into ints). *)
Definition circular_buf_size (c : cbuf) : Z :=
  let t := swrap 32 (tail c) in
  let h := swrap 32 (head c) in
  if negb (is_circular_buf_full c) then
    if t <=? h then wrap 64 (h - t)
    else wrap 64 (bufsize c + h - t)
  else bufsize c.

(** circular_buffer.c:126-131. *)
Definition circular_buf_capacity (c : cbuf) : Z := wrap 64 (bufsize c - 1).

(** circular_buffer.c:138-151; result is the return code. *)
Definition circular_buf_putc (c : cbuf) (data : A) : outcome (cbuf * Z) :=
  if negb (is_circular_buf_full c) then
    do b <- zset (buffer c) (head c) data;
    Done (advance_pointer (with_buffer c b) 1, 0)
  else Done (c, -1).

(** circular_buffer.c:161-177, the while loop of circular_buf_puts: [h] and [t] are
    the local copies of head and tail, [t] is never refreshed; [chunk] is an int;
    [data] is what is left of the caller's array. *)
Fixpoint puts_loop (fuel : nat) (c : cbuf) (h t : Z) (data : list A) (len written : Z)
  : outcome (cbuf * Z) :=
  if negb (is_circular_buf_full c) && (0 <? len) then
    match fuel with
    | O => Timeout
    | S fuel' =>
      let chunk := swrap 32 (
        if t <=? h then
          if t =? 0 then
            if wrap 64 (wrap 64 (bufsize c - h) - 1) <? len then wrap 64 (wrap 64 (bufsize c - h) - 1) else len
          else
            if wrap 64 (bufsize c - h) <? len then wrap 64 (bufsize c - h) else len
        else
          if wrap 64 (t - h) <? len then wrap 64 (wrap 64 (t - h) - 1) else len) in
      do src <- zread data 0 chunk;
      do b <- zwrite (buffer c) h src;
      let c' := advance_pointer (with_buffer c b) chunk in
      puts_loop fuel' c' (head c') t (skipn (Z.to_nat chunk) data)
        (wrap 64 (len - wrap 64 chunk)) (swrap 32 (written + chunk))
    end
  else Done (c, written).

(** circular_buffer.c:153-180.  The fuel bounds the number of iterations; it is
    proved sufficient (every iteration copies at least one element). *)
Definition circular_buf_puts (c : cbuf) (data : list A) (len : Z) : outcome (cbuf * Z) :=
  puts_loop (Z.to_nat (bufsize c)) c (head c) (tail c) data len 0.

(** circular_buffer.c:187-200; result: code and the delivered element. *)
Definition circular_buf_getc (c : cbuf) : outcome (cbuf * (Z * option A)) :=
  if is_circular_buf_empty c then Done (c, (-1, None))
  else
    do a <- zget (buffer c) (tail c);
    Done (retreat_pointer c 1, (0, Some a)).

(** circular_buffer.c:41-61, the while loop of _circular_buf_get: [h], [t] are int
    copies; [present] tells whether the destination pointer is non-NULL; [acc]
    collects what was copied to the destination. *)
Fixpoint get_loop (fuel : nat) (c : cbuf) (h t len : Z) (present consume : bool)
         (acc : list A) (rd : Z) : outcome (cbuf * (Z * list A)) :=
  if 0 <? len then
    match fuel with
    | O => Timeout
    | S fuel' =>
      let chunk0 := if t <? h then wrap 64 (h - t) else wrap 64 (bufsize c - wrap 64 t) in
      let chunk := if len <? chunk0 then len else chunk0 in
      do dst <- (if present then zread (buffer c) t chunk else Done []);
      let rd' := swrap 32 (rd + chunk) in
      let len' := wrap 64 (len - chunk) in
      if consume then
        let c' := retreat_pointer c (swrap 32 chunk) in
        get_loop fuel' c' h (swrap 32 (tail c')) len' present consume (acc ++ dst) rd'
      else
        get_loop fuel' c h (swrap 32 ((wrap 64 (wrap 64 t + chunk)) mod bufsize c))
                 len' present consume (acc ++ dst) rd'
    end
  else Done (c, (rd, acc)).

(** circular_buffer.c:31-64; [len] is the size_t parameter.  Fuel as above. *)
Definition circular_buf_get (c : cbuf) (len : Z) (present consume : bool)
  : outcome (cbuf * (Z * list A)) :=
  let size := circular_buf_size c in
  let len' := if len <? size then len else size in
  get_loop (Z.to_nat (bufsize c)) c (swrap 32 (head c)) (swrap 32 (tail c)) len' present consume [] 0.

(** circular_buffer.c:202-204, 206-208, 210-212: the int length is converted to
    size_t by the call. *)
Definition circular_buf_peek (c : cbuf) (len : Z) := circular_buf_get c (wrap 64 len) true false.
Definition circular_buf_gets (c : cbuf) (len : Z) := circular_buf_get c (wrap 64 len) true true.
Definition circular_buf_drop (c : cbuf) (len : Z) := circular_buf_get c (wrap 64 len) false true.

End Cbuf.
Arguments cbuf : clear implicits.
