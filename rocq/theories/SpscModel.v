(** Concurrent model of gel/collections/circular_buffer.c with one producer thread
    calling circular_buf_putc and one consumer thread calling circular_buf_getc.

    Granularity: every load or store of a shared location (head, tail, one buffer cell)
    is one atomic step; steps of the two threads interleave arbitrarily (sequential
    consistency).  [bufsize] never changes and is read without a step.  size_t is 64
    bits.  The final re-load of head/tail in advance_pointer/retreat_pointer only
    produces an ignored return value and is left out. *)
From Verif Require Import Base CbufModel CbufSpec.

Section Spsc.
Context {A : Type}.

(** Position of the producer inside circular_buf_putc (circular_buffer.c:138-151). *)
Inductive ppc :=
| PIdle                      (* not inside a call *)
| PFull0 (a : A)             (* 144 -> 104: about to load head *)
| PFull1 (a : A) (h : Z)     (* 104: about to load tail and compare *)
| PCell0 (a : A)             (* 145: about to load head *)
| PCell1 (a : A) (h : Z)     (* 145: about to store buffer[h] *)
| PAdv0 (a : A)              (* 146 -> 14 -> 104: about to load head *)
| PAdv1 (a : A) (h : Z)      (* 104: about to load tail and compare *)
| PHead0 (a : A)             (* 18: about to load head *)
| PHead1 (a : A) (h : Z).    (* 18: about to store head *)

(** Position of the consumer inside circular_buf_getc (circular_buffer.c:187-200). *)
Inductive cpc :=
| CIdle
| CEmpty0                    (* 191 -> 97: about to load head *)
| CEmpty1 (h : Z)            (* 97: about to load tail and compare *)
| CCell0                     (* 195: about to load tail *)
| CCell1 (t : Z)             (* 195: about to load buffer[t] *)
| CTail0 (v : A)             (* 197 -> 26: about to load tail *)
| CTail1 (v : A) (t : Z).    (* 26: about to store tail *)

(** [lin] is a ghost log: every call together with its result, entered at the moment
    it takes effect.  [pret] and [cret] are the results actually returned to the two
    threads, in program order. [bad] records an out-of-bounds access. *)
Record sys := mkSys {
  sh : cbuf A; pp : ppc; cp : cpc;
  pret : list (op A * out A); cret : list (op A * out A);
  lin : list (op A * out A); bad : bool }.

Definition nxt (c : cbuf A) (i : Z) : Z := (wrap 64 (i + 1)) mod bufsize c.

(** One step of the producer; in [PIdle] it starts a call with an arbitrary value. *)
Inductive pstep : sys -> sys -> Prop :=
| ps_call : forall s a, pp s = PIdle ->
    pstep s (mkSys (sh s) (PFull0 a) (cp s) (pret s) (cret s) (lin s) (bad s))
| ps_full0 : forall s a, pp s = PFull0 a ->
    pstep s (mkSys (sh s) (PFull1 a (head (sh s))) (cp s) (pret s) (cret s) (lin s) (bad s))
| ps_full1_full : forall s a h, pp s = PFull1 a h -> nxt (sh s) h = tail (sh s) ->
    pstep s (mkSys (sh s) PIdle (cp s) (pret s ++ [(Putc a, (-1, []))]) (cret s)
                   (lin s ++ [(Putc a, (-1, []))]) (bad s))
| ps_full1_room : forall s a h, pp s = PFull1 a h -> nxt (sh s) h <> tail (sh s) ->
    pstep s (mkSys (sh s) (PCell0 a) (cp s) (pret s) (cret s) (lin s) (bad s))
| ps_cell0 : forall s a, pp s = PCell0 a ->
    pstep s (mkSys (sh s) (PCell1 a (head (sh s))) (cp s) (pret s) (cret s) (lin s) (bad s))
| ps_cell1 : forall s a h b, pp s = PCell1 a h -> zset (buffer (sh s)) h a = Done b ->
    pstep s (mkSys (with_buffer (sh s) b) (PAdv0 a) (cp s) (pret s) (cret s) (lin s) (bad s))
| ps_cell1_oob : forall s a h, pp s = PCell1 a h -> zset (buffer (sh s)) h a = Undef ->
    pstep s (mkSys (sh s) (PAdv0 a) (cp s) (pret s) (cret s) (lin s) true)
| ps_adv0 : forall s a, pp s = PAdv0 a ->
    pstep s (mkSys (sh s) (PAdv1 a (head (sh s))) (cp s) (pret s) (cret s) (lin s) (bad s))
| ps_adv1_full : forall s a h, pp s = PAdv1 a h -> nxt (sh s) h = tail (sh s) ->
    (* advance_pointer gives up: putc returns 0 although head did not move *)
    pstep s (mkSys (sh s) PIdle (cp s) (pret s ++ [(Putc a, (0, []))]) (cret s) (lin s) (bad s))
| ps_adv1_room : forall s a h, pp s = PAdv1 a h -> nxt (sh s) h <> tail (sh s) ->
    pstep s (mkSys (sh s) (PHead0 a) (cp s) (pret s) (cret s) (lin s) (bad s))
| ps_head0 : forall s a, pp s = PHead0 a ->
    pstep s (mkSys (sh s) (PHead1 a (head (sh s))) (cp s) (pret s) (cret s) (lin s) (bad s))
| ps_head1 : forall s a h, pp s = PHead1 a h ->
    pstep s (mkSys (with_head (sh s) (nxt (sh s) h)) PIdle (cp s)
                   (pret s ++ [(Putc a, (0, []))]) (cret s) (lin s ++ [(Putc a, (0, []))]) (bad s)).

(** One step of the consumer.  A getc that finds the buffer empty takes effect when it
    loads head. *)
Inductive cstep : sys -> sys -> Prop :=
| cs_call : forall s, cp s = CIdle ->
    cstep s (mkSys (sh s) (pp s) CEmpty0 (pret s) (cret s) (lin s) (bad s))
| cs_empty0 : forall s, cp s = CEmpty0 ->
    cstep s (mkSys (sh s) (pp s) (CEmpty1 (head (sh s))) (pret s) (cret s)
                   (if head (sh s) =? tail (sh s) then lin s ++ [(Getc, (-1, []))] else lin s) (bad s))
| cs_empty1_empty : forall s h, cp s = CEmpty1 h -> h = tail (sh s) ->
    cstep s (mkSys (sh s) (pp s) CIdle (pret s) (cret s ++ [(Getc, (-1, []))]) (lin s) (bad s))
| cs_empty1_some : forall s h, cp s = CEmpty1 h -> h <> tail (sh s) ->
    cstep s (mkSys (sh s) (pp s) CCell0 (pret s) (cret s) (lin s) (bad s))
| cs_cell0 : forall s, cp s = CCell0 ->
    cstep s (mkSys (sh s) (pp s) (CCell1 (tail (sh s))) (pret s) (cret s) (lin s) (bad s))
| cs_cell1 : forall s t v, cp s = CCell1 t -> zget (buffer (sh s)) t = Done v ->
    cstep s (mkSys (sh s) (pp s) (CTail0 v) (pret s) (cret s) (lin s) (bad s))
| cs_cell1_oob : forall s t, cp s = CCell1 t -> zget (buffer (sh s)) t = Undef ->
    cstep s (mkSys (sh s) (pp s) CIdle (pret s) (cret s) (lin s) true)
| cs_tail0 : forall s v, cp s = CTail0 v ->
    cstep s (mkSys (sh s) (pp s) (CTail1 v (tail (sh s))) (pret s) (cret s) (lin s) (bad s))
| cs_tail1 : forall s v t, cp s = CTail1 v t ->
    cstep s (mkSys (with_tail (sh s) (nxt (sh s) t)) (pp s) CIdle (pret s)
                   (cret s ++ [(Getc, (0, [v]))]) (lin s ++ [(Getc, (0, [v]))]) (bad s)).

Definition init_sys (c : cbuf A) : sys := mkSys c PIdle CIdle [] [] [] false.

Inductive reachable (c : cbuf A) : sys -> Prop :=
| r_init : reachable c (init_sys c)
| r_prod : forall s s', reachable c s -> pstep s s' -> reachable c s'
| r_cons : forall s s', reachable c s -> cstep s s' -> reachable c s'.

End Spsc.
Arguments ppc : clear implicits.
Arguments cpc : clear implicits.
Arguments sys : clear implicits.
