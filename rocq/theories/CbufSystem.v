(** A history of user calls executed by the model (glue between the call syntax of
    [CbufSpec] and the functions of [CbufModel]). *)
From Verif Require Import Base CbufModel CbufSpec.

Section CbufSystem.
Context {A : Type}.

Definition pure_res {S} (s : S) (z : Z) : outcome (S * (out A)) := Done (s, (z, [])).

Definition cbuf_step (c : cbuf A) (o : op A) : outcome (cbuf A * out A) :=
  match o with
  | Putc a => do (c', r) <- circular_buf_putc c a; Done (c', (r, []))
  | Getc => do (c', (r, d)) <- circular_buf_getc c;
            Done (c', (r, match d with Some a => [a] | None => [] end))
  | Reset => pure_res (circular_buf_reset c) 0
  | IsEmpty => pure_res c (b2z (is_circular_buf_empty c))
  | IsFull => pure_res c (b2z (is_circular_buf_full c))
  | Capacity => pure_res c (circular_buf_capacity c)
  | Size => pure_res c (circular_buf_size c)
  | Puts data len => do (c', r) <- circular_buf_puts c data len; Done (c', (r, []))
  | Gets len => circular_buf_gets c len
  | Peek len => circular_buf_peek c len
  | Drop len => circular_buf_drop c len
  end.

(** Outputs and final state of a history. *)
Fixpoint cbuf_run (c : cbuf A) (ops : list (op A)) : outcome (cbuf A * list (out A)) :=
  match ops with
  | [] => Done (c, [])
  | o :: rest =>
      do (c', r) <- cbuf_step c o;
      do (c'', rs) <- cbuf_run c' rest;
      Done (c'', r :: rs)
  end.

End CbufSystem.
