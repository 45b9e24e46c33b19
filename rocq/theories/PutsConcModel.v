(** circular_buf_puts (gel/collections/circular_buffer.c:153-180) executed while a
    consumer thread calls circular_buf_getc.

    The loop body of puts is one producer step ([puts_iter]); a whole getc is one
    consumer step.  Every interleaving of these steps is a possible execution of the two
    threads, so a schedule found here is a real one. *)
From Verif Require Import Base CbufModel.

Section PutsConc.
Context {A : Type}.

(** Local variables of circular_buf_puts; [ret] is set when the call has returned. *)
Record puts_local := mkPuts {
  lhead : Z; ltail : Z; ldata : list A; llen : Z; lwritten : Z; lret : option Z }.

(** circular_buffer.c:159-160: entry of the call. *)
Definition puts_start (c : cbuf A) (data : list A) (len : Z) : puts_local :=
  mkPuts (head c) (tail c) data len 0 None.

(** circular_buffer.c:161-177, one evaluation of the loop condition and, if it holds,
    one execution of the body; otherwise line 179 returns. *)
Definition puts_iter (c : cbuf A) (l : puts_local) : outcome (cbuf A * puts_local) :=
  match lret l with
  | Some _ => Done (c, l)
  | None =>
    if negb (is_circular_buf_full c) && (0 <? llen l) then
      let h := lhead l in let t := ltail l in let len := llen l in
      let chunk := swrap 32 (
        if t <=? h then
          if t =? 0 then
            if wrap 64 (wrap 64 (bufsize c - h) - 1) <? len then wrap 64 (wrap 64 (bufsize c - h) - 1) else len
          else
            if wrap 64 (bufsize c - h) <? len then wrap 64 (bufsize c - h) else len
        else
          if wrap 64 (t - h) <? len then wrap 64 (wrap 64 (t - h) - 1) else len) in
      do src <- zread (ldata l) 0 chunk;
      do b <- zwrite (buffer c) h src;
      let c' := advance_pointer (with_buffer c b) chunk in
      Done (c', mkPuts (head c') t (skipn (Z.to_nat chunk) (ldata l))
                       (wrap 64 (len - wrap 64 chunk)) (swrap 32 (lwritten l + chunk)) None)
    else Done (c, mkPuts (lhead l) (ltail l) (ldata l) (llen l) (lwritten l) (Some (lwritten l)))
  end.

(** A schedule: [true] is a step of the producer, [false] one getc by the consumer. *)
Fixpoint puts_sched (c : cbuf A) (l : puts_local) (sch : list bool)
  : outcome (cbuf A * puts_local) :=
  match sch with
  | [] => Done (c, l)
  | true :: rest => do (c', l') <- puts_iter c l; puts_sched c' l' rest
  | false :: rest => do (c', _) <- circular_buf_getc c; puts_sched c' l rest
  end.

End PutsConc.
Arguments puts_local : clear implicits.
