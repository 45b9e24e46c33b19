(** Model of gel/collections/circular_buffer.c with NULL pointers: a NULL [cbuf], and a structure whose
    [buffer] is NULL, as in a zeroed structure that has not been initialised.  The bodies behind the tests
    are those of [CbufModel]; dividing by a [bufsize] of 0 is undefined. *)
From Verif Require Import Base CbufModel.

Section CbufNull.
Context {A : Type}.

(** circular_buffer.h:10-16; [None] is a NULL buffer. *)
Record raw := mkRaw { r_buffer : option (list A); r_bufsize : Z; r_head : Z; r_tail : Z }.

(** A structure of zeros. *)
Definition raw_zero : raw := mkRaw None 0 0 0.

Definition body (r : raw) : cbuf A :=
  mkCbuf (match r_buffer r with Some b => b | None => [] end) (r_bufsize r) (r_head r) (r_tail r).
Definition attach (c : cbuf A) : raw := mkRaw (Some (buffer c)) (bufsize c) (head c) (tail c).

(** circular_buffer.c:81-87. *)
Definition n_reset (p : option raw) : option raw :=
  match p with None => None | Some r => Some (mkRaw (r_buffer r) (r_bufsize r) 0 0) end.

(** circular_buffer.c:70-79. *)
Definition n_init (p : option raw) (b : option (list A)) (size : Z) : outcome (option raw * Z) :=
  match b with
  | None => Done (p, 1)
  | Some _ =>
      if size <=? 0 then Done (p, 1) else
      match p with
      | None => Undef
      | Some r => Done (n_reset (Some (mkRaw b size (r_head r) (r_tail r))), 0)
      end
  end.

(** circular_buffer.c:93-98. *)
Definition n_empty (p : option raw) : bool :=
  match p with None => true | Some r => is_circular_buf_empty (body r) end.

(** circular_buffer.c:100-105. *)
Definition n_full (p : option raw) : outcome bool :=
  match p with
  | None => Done false
  | Some r => if r_bufsize r =? 0 then Undef else Done (is_circular_buf_full (body r))
  end.

(** circular_buffer.c:107-124. *)
Definition n_size (p : option raw) : outcome Z :=
  match p with
  | None => Done 0
  | Some r => do _ <- n_full p; Done (circular_buf_size (body r))
  end.

(** circular_buffer.c:126-131. *)
Definition n_capacity (p : option raw) : Z :=
  match p with None => 0 | Some r => circular_buf_capacity (body r) end.

(** The test !(cbuf && cbuf->buffer) of lines 34, 141, 156 and 188. *)
Definition absent (p : option raw) : bool :=
  match p with Some r => match r_buffer r with Some _ => false | None => true end | None => true end.

(** What follows the test, on a structure with a buffer. *)
Definition present_ {R} (p : option raw) (f : cbuf A -> outcome (cbuf A * R)) : outcome (option raw * R) :=
  match p with
  | None => Undef
  | Some r => do (c, x) <- f (body r); Done (Some (attach c), x)
  end.

(** circular_buffer.c:138-151. *)
Definition n_putc (p : option raw) (a : A) : outcome (option raw * Z) :=
  if absent p then Done (p, -1) else
  do _ <- n_full p;
  present_ p (fun c => circular_buf_putc c a).

(** circular_buffer.c:153-180. *)
Definition n_puts (p : option raw) (data : list A) (len : Z) : outcome (option raw * Z) :=
  if absent p then Done (p, -1) else
  do _ <- n_full p;
  present_ p (fun c => circular_buf_puts c data len).

(** circular_buffer.c:187-200; retreat_pointer divides by bufsize (line 26). *)
Definition n_getc (p : option raw) : outcome (option raw * (Z * option A)) :=
  if absent p then Done (p, (-1, None)) else
  if n_empty p then Done (p, (-1, None)) else
  match p with
  | Some r => if r_bufsize r =? 0 then Undef else present_ p circular_buf_getc
  | None => Undef
  end.

(** circular_buffer.c:31-64: the size is taken (line 33) before the test (34). *)
Definition n_get (p : option raw) (len : Z) (dest consume : bool) : outcome (option raw * (Z * list A)) :=
  do size <- n_size p;
  if absent p then Done (p, (-1, [])) else
  present_ p (fun c => circular_buf_get c len dest consume).

(** circular_buffer.c:202-212. *)
Definition n_peek (p : option raw) (len : Z) := n_get p (wrap 64 len) true false.
Definition n_gets (p : option raw) (len : Z) := n_get p (wrap 64 len) true true.
Definition n_drop (p : option raw) (len : Z) := n_get p (wrap 64 len) false true.

End CbufNull.
Arguments raw : clear implicits.
