(** Model of enqueue and dequeue of gel/collections/queue.h (QUEUE_DEFINITION) called by two threads, or by a
    thread and an interrupt handler: one access to the shared structure per step.

    Simplifications: sequential consistency; the loads of [write_idx - read_idx] are made from left to right
    (each thread changes one of the two only, so the order of its own loads makes no difference); copying an
    item is one step. *)
From Verif Require Import Base QueueModel.

Section QueueConc.
Context {A : Type}.

(** Positions in enqueue, queue.h:43-54, with the local values. *)
Inductive ppos :=
| PIdle
| PLoadR (a : A) (w : Z)      (* line 44: write_idx loaded *)
| PLoadW (a : A)              (* line 51: not full *)
| PStoreW (a : A) (w : Z)     (* line 51: write_idx loaded *)
| PCell (a : A) (i : Z).      (* line 52 *)

(** Positions in dequeue, queue.h:56-69; [dest]: p_item_out is not NULL (it is in drop, queue.h:71-73). *)
Inductive cpos :=
| CIdle
| CLoadR (dest : bool) (w : Z)     (* line 57: write_idx loaded *)
| CLoadI (dest : bool)             (* line 64: not empty *)
| CStoreR (dest : bool) (r : Z)    (* line 64: read_idx loaded *)
| CCell (dest : bool) (i : Z).     (* lines 65-66 *)

(** The structure, the two threads, and what is recorded: the calls that returned (newest last) and the
    numbers of items found by the calls that went on. *)
Record qstate := mkQs {
  shared : queue A; pp : ppos; cp : cpos;
  pret : list (A * Z); cret : list (Z * option A); pseen : list Z; cseen : list Z }.

(** A step of the enqueuing thread; [a] is the item of the call it starts when it is idle. *)
Definition pstep (a : A) (s : qstate) : outcome qstate :=
  let q := shared s in
  match pp s with
  | PIdle => Done (mkQs q (PLoadR a (write_idx q)) (cp s) (pret s) (cret s) (pseen s) (cseen s))
  | PLoadR b w =>
      let elements_in := wrap 16 (w - read_idx q) in
      if elements_in =? capacity q
      then Done (mkQs q PIdle (cp s) (pret s ++ [(b, 1)]) (cret s) (pseen s) (cseen s))
      else Done (mkQs q (PLoadW b) (cp s) (pret s) (cret s) (pseen s ++ [elements_in]) (cseen s))
  | PLoadW b => Done (mkQs q (PStoreW b (write_idx q)) (cp s) (pret s) (cret s) (pseen s) (cseen s))
  | PStoreW b w =>
      Done (mkQs (mkQueue (read_idx q) (wrap 16 (w + 1)) (items q))
                 (PCell b (wrap 16 (Z.land w (wrap 64 (capacity q - 1)))))
                 (cp s) (pret s) (cret s) (pseen s) (cseen s))
  | PCell b i =>
      do its <- zset (items q) i b;
      Done (mkQs (mkQueue (read_idx q) (write_idx q) its) PIdle (cp s) (pret s ++ [(b, 0)]) (cret s) (pseen s) (cseen s))
  end.

(** A step of the dequeuing thread; [dest] belongs to the call it starts when it is idle. *)
Definition cstep (dest : bool) (s : qstate) : outcome qstate :=
  let q := shared s in
  match cp s with
  | CIdle => Done (mkQs q (pp s) (CLoadR dest (write_idx q)) (pret s) (cret s) (pseen s) (cseen s))
  | CLoadR d w =>
      let elements_in := wrap 16 (w - read_idx q) in
      if elements_in =? 0
      then Done (mkQs q (pp s) CIdle (pret s) (cret s ++ [(1, None)]) (pseen s) (cseen s))
      else Done (mkQs q (pp s) (CLoadI d) (pret s) (cret s) (pseen s) (cseen s ++ [elements_in]))
  | CLoadI d => Done (mkQs q (pp s) (CStoreR d (read_idx q)) (pret s) (cret s) (pseen s) (cseen s))
  | CStoreR d r =>
      Done (mkQs (mkQueue (wrap 16 (r + 1)) (write_idx q) (items q)) (pp s)
                 (CCell d (wrap 16 (Z.land r (wrap 64 (capacity q - 1)))))
                 (pret s) (cret s) (pseen s) (cseen s))
  | CCell d i =>
      if d then
        do x <- zget (items q) i;
        Done (mkQs q (pp s) CIdle (pret s) (cret s ++ [(0, Some x)]) (pseen s) (cseen s))
      else Done (mkQs q (pp s) CIdle (pret s) (cret s ++ [(0, None)]) (pseen s) (cseen s))
  end.

End QueueConc.
Arguments qstate : clear implicits.
Arguments ppos : clear implicits.
