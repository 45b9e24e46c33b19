(** Model of circular_buf_putc and circular_buf_getc (gel/collections/circular_buffer.c) on hardware whose
    cores delay their stores and also perform loads early (ARM, RISC-V).

    The steps and the delayed stores are those of [WeakModel].  A load performed early gives what the
    location held at some earlier moment, but never something older than what an earlier load of the same
    location by the same core gave (coherence).  Only loads of locations the other core writes
    matter: the tail for the producer, the head and the cells for the consumer.  A load is performed at the
    latest at its place in the program, so stores do not overtake older loads. *)
From Verif Require Import Base CbufModel SpscModel WeakModel.

Section Load.
Context {A : Type}.

(** [past]: all states of the memory so far, oldest first, the last one the present.  [tail_at], [head_at],
    [cell_at]: the moments at which the last load of the tail by the producer, and of the head and of a
    cell by the consumer, was performed. *)
Record lsys := mkLsys {
  core : weak A; past : list (cbuf A); tail_at : nat; head_at : nat; cell_at : Z -> nat }.

(** The memory at the moment [t]. *)
Definition back (s : lsys) (t : nat) : cbuf A := nth t (past s) (mem (core s)).

(** The moment chosen for a load ([None]: now) that must not be performed before [lo]. *)
Definition moment (s : lsys) (lo : nat) (t : option nat) : nat :=
  let now := (length (past s) - 1)%nat in
  match t with Some t => Nat.max lo (Nat.min t now) | None => now end.

Definition with_mem (s : weak A) (m : cbuf A) : weak A :=
  mkWeak m (pq s) (cq s) (wp s) (wc s) (wret_p s) (wret_c s) (wbad s).

(** A step of the producer; the loads of the tail are those of is_circular_buf_full (circular_buffer.c:104),
    called from 140 and 16. *)
Definition l_produce (s : lsys) (a : A) (t : option nat) : lsys :=
  let c := core s in
  match wp c with
  | PFull1 _ _ | PAdv1 _ _ =>
      let u := moment s (tail_at s) t in
      mkLsys (with_mem (prod_move (with_mem c (with_tail (mem c) (tail (back s u)))) a) (mem c))
        (past s) u (head_at s) (cell_at s)
  | _ => mkLsys (prod_move c a) (past s) (tail_at s) (head_at s) (cell_at s)
  end.

(** A step of the consumer; it loads the head in is_circular_buf_empty (circular_buffer.c:97, called from
    191) and a cell in line 195.  With a [barrier] between the two the cell is not loaded before the
    head; the code has none. *)
Definition l_consume (barrier : bool) (s : lsys) (t : option nat) : lsys :=
  let c := core s in
  match wc c with
  | CEmpty0 =>
      let u := moment s (head_at s) t in
      mkLsys (with_mem (cons_move (with_mem c (with_head (mem c) (head (back s u))))) (mem c))
        (past s) (tail_at s) u (cell_at s)
  | CCell1 i =>
      let u := moment s (Nat.max (cell_at s i) (if barrier then head_at s else 0)) t in
      mkLsys (with_mem (cons_move (with_mem c (with_buffer (mem c) (buffer (back s u))))) (mem c))
        (past s) (tail_at s) (head_at s) (fun j => if j =? i then u else cell_at s j)
  | _ => mkLsys (cons_move c) (past s) (tail_at s) (head_at s) (cell_at s)
  end.

(** A pending store reaches the memory: a new moment. *)
Definition l_drain (ord : order) (s : lsys) (m : move A) : lsys :=
  let c := step ord (core s) m in
  mkLsys c (past s ++ [mem c]) (tail_at s) (head_at s) (cell_at s).

Inductive lmove := LProduce (a : A) (t : option nat) | LConsume (t : option nat) | LDrainP (i : nat) | LDrainC (i : nat).

Definition lstep (barrier : bool) (ord : order) (s : lsys) (m : lmove) : lsys :=
  match m with
  | LProduce a t => l_produce s a t
  | LConsume t => l_consume barrier s t
  | LDrainP i => l_drain ord s (DrainP i)
  | LDrainC i => l_drain ord s (DrainC i)
  end.

Definition load_init (c : cbuf A) : lsys := mkLsys (weak_init c) [c] 0 0 (fun _ => 0%nat).

Definition load_run (barrier : bool) (ord : order) (c : cbuf A) (sch : list lmove) : lsys :=
  fold_left (lstep barrier ord) sch (load_init c).

(** Every cell load of the schedule is performed at its place in the program or after the head load. *)
Fixpoint cells_in_place (ord : order) (s : lsys) (sch : list lmove) : Prop :=
  match sch with
  | [] => True
  | m :: rest =>
      (forall i t, wc (core s) = CCell1 i -> m = LConsume (Some t) -> (head_at s <= t)%nat) /\
      cells_in_place ord (lstep false ord s m) rest
  end.

(** The same schedule with every load performed at its place in the program. *)
Definition in_place (m : move A) : lmove :=
  match m with
  | Produce a => LProduce a None
  | Consume => LConsume None
  | DrainP i => LDrainP i
  | DrainC i => LDrainC i
  end.

End Load.
Arguments lsys : clear implicits.
Arguments lmove : clear implicits.
