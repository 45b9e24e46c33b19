(** Histories of calls, with initialisations, on a structure that may be absent or not initialised. *)
From Verif Require Import Base CbufModel CbufSpec CbufSystem CbufNullModel CbufNullSpec.

Section CbufNullSystem.
Context {A : Type}.

Definition n_step (p : option (raw A)) (o : nop A) : outcome (option (raw A) * out A) :=
  match o with
  | Init b n => do (p', r) <- n_init p b n; Done (p', (r, []))
  | Call (Putc a) => do (p', r) <- n_putc p a; Done (p', (r, []))
  | Call Getc => do (p', (r, d)) <- n_getc p; Done (p', (r, match d with Some a => [a] | None => [] end))
  | Call Reset => Done (n_reset p, (0, []))
  | Call IsEmpty => Done (p, (b2z (n_empty p), []))
  | Call IsFull => do f <- n_full p; Done (p, (b2z f, []))
  | Call Capacity => Done (p, (n_capacity p, []))
  | Call Size => do n <- n_size p; Done (p, (n, []))
  | Call (Puts data len) => do (p', r) <- n_puts p data len; Done (p', (r, []))
  | Call (Gets len) => n_gets p len
  | Call (Peek len) => n_peek p len
  | Call (Drop len) => n_drop p len
  end.

Fixpoint n_run (p : option (raw A)) (h : list (nop A)) : outcome (option (raw A) * list (out A)) :=
  match h with
  | [] => Done (p, [])
  | o :: h' => do (p', r) <- n_step p o; do (p'', rs) <- n_run p' h'; Done (p'', r :: rs)
  end.

(** The life of a buffer: [None] until an initialisation succeeds, then the buffer of [CbufModel], replaced by each further successful initialisation. *)
Definition life_step (c : option (cbuf A)) (o : nop A) : outcome (option (cbuf A) * out A) :=
  match o with
  | Init (Some b) n => match circular_buf_init b n with Some c' => Done (Some c', (0, [])) | None => Done (c, (1, [])) end
  | Init None n => Done (c, (1, []))
  | Call o =>
      match c with
      | Some c => do (c', r) <- cbuf_step c o; Done (Some c', r)
      | None => match blank_answer o with Some r => Done (None, r) | None => Undef end
      end
  end.

Fixpoint life (c : option (cbuf A)) (h : list (nop A)) : outcome (list (out A)) :=
  match h with
  | [] => Done []
  | o :: h' => do (c', r) <- life_step c o; do rs <- life c' h'; Done (r :: rs)
  end.

End CbufNullSystem.
