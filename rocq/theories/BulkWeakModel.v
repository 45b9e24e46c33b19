(** Model of all calls of gel/collections/circular_buffer.c that a producer core (circular_buf_putc,
    circular_buf_puts) and a consumer core (circular_buf_getc, circular_buf_gets, circular_buf_peek,
    circular_buf_drop) may make, on hardware whose cores delay their stores.

    The positions in the functions and what a step does are those of [BulkModel], with the same
    simplifications; the queues of pending stores and the orders in which they may reach the memory
    are those of [WeakModel].  A step takes its loads from what its core sees: the memory with the
    core's own pending stores on top.  Its store, if any, enters the core's queue. *)
From Verif Require Import Base CbufModel CbufSpec WeakModel BulkModel BulkSpec BulkSystem.

Section BulkWeak.
Context {A : Type}.

(** What a core with the pending stores [q], oldest first, sees. *)
Definition seen (q : list (store A)) (m : cbuf A) : cbuf A := fold_left (fun m x => perform x m) q m.

(** The store of a step: circular_buffer.c:145 and 18 for putc, 172 and 18 for puts. *)
Definition pstore (c : cbuf A) (pc : ppc A) : list (store A) :=
  match pc with
  | PCell1 a h => [SCell h a]
  | PHead1 _ h => [SHead (after c h 1)]
  | UCopy l chunk i =>
      if i <? chunk then match zget (u_data l) i with Done a => [SCell (u_head l + i) a] | _ => [] end else []
  | USet1 _ chunk h => [SHead (after c h chunk)]
  | _ => []
  end.

(** circular_buffer.c:26, reached from 197 (getc) and from 58 (_circular_buf_get). *)
Definition cstore (c : cbuf A) (pc : cpc A) : list (store A) :=
  match pc with
  | CTail1 _ t => [STail (after c t 1)]
  | GAdv1 _ _ chunk t => [STail (after c t (swrap 32 chunk))]
  | _ => []
  end.

(** The memory, the pending stores, the two threads; [arrived] and [freed] count how far the head and
    the tail in the memory have moved, [wrong] records an access out of bounds. *)
Record wsys := mkWsys {
  memory : cbuf A; p_queue : list (store A); c_queue : list (store A);
  w_producer : thread A (ppc A); w_consumer : thread A (cpc A);
  arrived : Z; freed : Z; wrong : bool }.

Definition p_view (s : wsys) : cbuf A := seen (p_queue s) (memory s).
Definition c_view (s : wsys) : cbuf A := seen (c_queue s) (memory s).

(** How far an index has moved. *)
Definition distance (c : cbuf A) (from to : Z) : Z := (to - from) mod bufsize c.

(** The [began] of a call is the number of elements of the other thread whose index store had
    reached the memory when it was made.  A puts is made for no more than the room its core sees. *)
Inductive wstep (ord : order) (s : wsys) : wsys -> Prop :=
| wp_call : forall o pc, running (w_producer s) = None -> pcall (p_view s) o pc ->
    wstep ord s (mkWsys (memory s) (p_queue s) (c_queue s)
      (mkThread (returned (w_producer s)) (Some (o, pc)) (freed s) 0) (w_consumer s) (arrived s) (freed s) (wrong s))
| wp_step : forall o pc, running (w_producer s) = Some (o, pc) ->
    let m := pnext (p_view s) pc in
    wstep ord s (mkWsys (memory s) (p_queue s ++ pstore (p_view s) pc) (c_queue s)
      (moved (w_producer s) o m) (w_consumer s) (arrived s) (freed s) (wrong s || is_bad m))
| wc_call : forall o pc, running (w_consumer s) = None -> ccall (c_view s) o pc ->
    wstep ord s (mkWsys (memory s) (p_queue s) (c_queue s) (w_producer s)
      (mkThread (returned (w_consumer s)) (Some (o, pc)) (arrived s) 0) (arrived s) (freed s) (wrong s))
| wc_step : forall o pc, running (w_consumer s) = Some (o, pc) ->
    let m := cnext (c_view s) pc in
    wstep ord s (mkWsys (memory s) (p_queue s) (c_queue s ++ cstore (c_view s) pc)
      (w_producer s) (moved (w_consumer s) o m) (arrived s) (freed s) (wrong s || is_bad m))
| wp_land : forall i q m, drain ord (p_queue s) i (memory s) = (q, m) ->
    wstep ord s (mkWsys m q (c_queue s) (w_producer s) (w_consumer s)
      (arrived s + distance m (head (memory s)) (head m)) (freed s) (wrong s))
| wc_land : forall i q m, drain ord (c_queue s) i (memory s) = (q, m) ->
    wstep ord s (mkWsys m (p_queue s) q (w_producer s) (w_consumer s)
      (arrived s) (freed s + distance m (tail (memory s)) (tail m)) (wrong s)).

Definition wstart (c : cbuf A) : wsys := mkWsys c [] [] idle idle 0 0 false.

Inductive wreachable (ord : order) (c : cbuf A) : wsys -> Prop :=
| wr_start : wreachable ord c (wstart c)
| wr_step : forall s s', wreachable ord c s -> wstep ord s s' -> wreachable ord c s'.

(** The same calls, results and position. *)
Definition alike {PC} (t u : thread A PC) : Prop :=
  map fst (returned t) = map fst (returned u) /\ running t = running u /\ steps t = steps u.

End BulkWeak.
Arguments wsys : clear implicits.
