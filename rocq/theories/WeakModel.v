(** Model of gel/collections/circular_buffer.c with one producer core calling
    circular_buf_putc and one consumer core calling circular_buf_getc, on hardware whose
    cores delay their stores.

    The positions inside the two functions are those of [SpscModel].  A store first
    enters the storing core's own queue of pending stores; it reaches the memory later, at a
    time chosen by the schedule.  A load sees the newest pending store of its own core to
    that location, and the memory otherwise.  The code has no barrier and none of the
    fields is volatile or atomic (circular_buffer.h:10-16), so nothing forces a store out.
    Loads are performed in program order.  As in [SpscModel], [bufsize] never changes and
    is read without a step, size_t is 64 bits, and the re-load at the end of
    advance_pointer/retreat_pointer (its value is ignored) is left out. *)
From Verif Require Import Base CbufModel CbufSpec SpscModel.

(** In which order the pending stores of one core may reach the memory: in program order
    (x86); stores to cells early, but an index (head, tail) only after everything stored
    before it (a release store); or in any order that keeps two stores to the same
    location apart (ARM, RISC-V without barriers). *)
Inductive order := InOrder | IndexLast | AnyOrder.

Section Weak.
Context {A : Type}.

(** A pending store to a field of the struct or to a cell of the region. *)
Inductive store := SHead (h : Z) | STail (t : Z) | SCell (i : Z) (a : A).

Definition same_place (x y : store) : bool :=
  match x, y with
  | SHead _, SHead _ | STail _, STail _ => true
  | SCell i _, SCell j _ => i =? j
  | _, _ => false
  end.

Definition is_index (x : store) : bool := match x with SCell _ _ => false | _ => true end.

(** May [x] reach the memory while the stores [older] of the same core are pending? *)
Definition may_go (ord : order) (older : list store) (x : store) : bool :=
  match ord with
  | InOrder => match older with [] => true | _ => false end
  | IndexLast => negb (existsb (same_place x) older) &&
                 (negb (is_index x) || match older with [] => true | _ => false end)
  | AnyOrder => negb (existsb (same_place x) older)
  end.

(** The store [x] reaches the memory. *)
Definition perform (x : store) (m : cbuf A) : cbuf A :=
  match x with
  | SHead h => with_head m h
  | STail t => with_tail m t
  | SCell i a => match zset (buffer m) i a with Done b => with_buffer m b | _ => m end
  end.

(** Loads by a core whose pending stores are [q], oldest first. *)
Fixpoint load_head (q : list store) (d : Z) : Z :=
  match q with [] => d | SHead h :: r => load_head r h | _ :: r => load_head r d end.
Fixpoint load_tail (q : list store) (d : Z) : Z :=
  match q with [] => d | STail t :: r => load_tail r t | _ :: r => load_tail r d end.
Fixpoint load_cell (q : list store) (i : Z) (d : outcome A) : outcome A :=
  match q with
  | [] => d
  | SCell j a :: r => load_cell r i (if i =? j then Done a else d)
  | _ :: r => load_cell r i d
  end.

(** [wret_p] and [wret_c] are the results returned to the two threads, in program order;
    [wbad] records an out-of-bounds access. *)
Record weak := mkWeak {
  mem : cbuf A; pq : list store; cq : list store; wp : ppc A; wc : cpc A;
  wret_p : list (op A * out A); wret_c : list (op A * out A); wbad : bool }.

(** The producer takes a step without returning / returns [r] from a putc of [a]. *)
Definition p_at (s : weak) (p : ppc A) : weak :=
  mkWeak (mem s) (pq s) (cq s) p (wc s) (wret_p s) (wret_c s) (wbad s).
Definition p_store (s : weak) (x : store) : weak :=
  mkWeak (mem s) (pq s ++ [x]) (cq s) (wp s) (wc s) (wret_p s) (wret_c s) (wbad s).
Definition p_ret (s : weak) (a : A) (r : Z) : weak :=
  mkWeak (mem s) (pq s) (cq s) PIdle (wc s) (wret_p s ++ [(Putc a, (r, []))]) (wret_c s) (wbad s).
Definition c_at (s : weak) (c : cpc A) : weak :=
  mkWeak (mem s) (pq s) (cq s) (wp s) c (wret_p s) (wret_c s) (wbad s).
Definition c_store (s : weak) (x : store) : weak :=
  mkWeak (mem s) (pq s) (cq s ++ [x]) (wp s) (wc s) (wret_p s) (wret_c s) (wbad s).
Definition c_ret (s : weak) (o : out A) : weak :=
  mkWeak (mem s) (pq s) (cq s) (wp s) CIdle (wret_p s) (wret_c s ++ [(Getc, o)]) (wbad s).
Definition w_bad (s : weak) : weak :=
  mkWeak (mem s) (pq s) (cq s) (wp s) (wc s) (wret_p s) (wret_c s) true.

(** What the two cores see. *)
Definition p_head (s : weak) : Z := load_head (pq s) (head (mem s)).
Definition p_tail (s : weak) : Z := load_tail (pq s) (tail (mem s)).
Definition c_head (s : weak) : Z := load_head (cq s) (head (mem s)).
Definition c_tail (s : weak) : Z := load_tail (cq s) (tail (mem s)).
Definition c_cell (s : weak) (i : Z) : outcome A := load_cell (cq s) i (zget (buffer (mem s)) i).

(** circular_buffer.c:138-151 (circular_buf_putc), 100-105 (is_circular_buf_full) and 13-23
    (advance_pointer), one load or store per step; an idle producer calls putc with [a0]. *)
Definition prod_move (s : weak) (a0 : A) : weak :=
  match wp s with
  | PIdle => p_at s (PFull0 a0)
  | PFull0 a => p_at s (PFull1 a (p_head s))
  | PFull1 a h => if nxt (mem s) h =? p_tail s then p_ret s a (-1) else p_at s (PCell0 a)
  | PCell0 a => p_at s (PCell1 a (p_head s))
  | PCell1 a h =>
      match zset (buffer (mem s)) h a with
      | Done _ => p_at (p_store s (SCell h a)) (PAdv0 a)
      | _ => p_at (w_bad s) (PAdv0 a)
      end
  | PAdv0 a => p_at s (PAdv1 a (p_head s))
  | PAdv1 a h => if nxt (mem s) h =? p_tail s then p_ret s a 0 else p_at s (PHead0 a)
  | PHead0 a => p_at s (PHead1 a (p_head s))
  | PHead1 a h => p_ret (p_store s (SHead (nxt (mem s) h))) a 0
  end.

(** circular_buffer.c:187-200 (circular_buf_getc), 93-98 (is_circular_buf_empty) and 25-29
    (retreat_pointer); an idle consumer calls getc. *)
Definition cons_move (s : weak) : weak :=
  match wc s with
  | CIdle => c_at s CEmpty0
  | CEmpty0 => c_at s (CEmpty1 (c_head s))
  | CEmpty1 h => if h =? c_tail s then c_ret s (-1, []) else c_at s CCell0
  | CCell0 => c_at s (CCell1 (c_tail s))
  | CCell1 t =>
      match c_cell s t with
      | Done v => c_at s (CTail0 v)
      | _ => c_at (w_bad s) CIdle
      end
  | CTail0 v => c_at s (CTail1 v (c_tail s))
  | CTail1 v t => c_ret (c_store s (STail (nxt (mem s) t))) (0, [v])
  end.

(** The [i]-th pending store of [q] reaches the memory, if the order allows it. *)
Definition drain (ord : order) (q : list store) (i : nat) (m : cbuf A) : list store * cbuf A :=
  match nth_error q i with
  | Some x => if may_go ord (firstn i q) x then (firstn i q ++ skipn (S i) q, perform x m) else (q, m)
  | None => (q, m)
  end.

(** What happens next: a step of a core, or one of its stores reaching the memory. *)
Inductive move := Produce (a : A) | Consume | DrainP (i : nat) | DrainC (i : nat).

Definition step (ord : order) (s : weak) (m : move) : weak :=
  match m with
  | Produce a => prod_move s a
  | Consume => cons_move s
  | DrainP i =>
      let (q, c) := drain ord (pq s) i (mem s) in
      mkWeak c q (cq s) (wp s) (wc s) (wret_p s) (wret_c s) (wbad s)
  | DrainC i =>
      let (q, c) := drain ord (cq s) i (mem s) in
      mkWeak c (pq s) q (wp s) (wc s) (wret_p s) (wret_c s) (wbad s)
  end.

Definition weak_init (c : cbuf A) : weak := mkWeak c [] [] PIdle CIdle [] [] false.

Definition weak_run (ord : order) (c : cbuf A) (sch : list move) : weak :=
  fold_left (step ord) sch (weak_init c).

End Weak.
Arguments store : clear implicits.
Arguments weak : clear implicits.
Arguments move : clear implicits.
