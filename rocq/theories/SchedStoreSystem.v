(** Schedules in a wear leveled memory: the entries are serialized one after the other into a buffer
    (scheduler.c:247-257), which is written (wearleveling.c); to load them, the buffer is read and deserialized
    (scheduler.c:260-272). *)
From Verif Require Import Base SchedulerModel SchedulerSpec WearModel WearSpec WearSystem SchedStoreSpec.

Fixpoint pack_table (buf : list Z) (off : Z) (s : list entry) : outcome (list Z) :=
  match s with
  | [] => Done buf
  | e :: s' => do (buf, n) <- scheduler_entry_serialize buf off e; pack_table buf (off + n) s'
  end.

Fixpoint unpack_table (buf : list Z) (off : Z) (n : nat) : outcome (list entry) :=
  match n with
  | O => Done []
  | S n' => do (e, k) <- scheduler_entry_deserialize buf off; do s <- unpack_table buf (off + k) n'; Done (e :: s)
  end.

Definition store_exec (N : Z) (st : wsys) (o : store_op) : outcome wsys :=
  let (d, w) := st in
  match o with
  | Save buf s => do x <- pack_table buf 0 s; do (d', w', r) <- wl_write good d w x; Done (d', w')
  | Restart => do w' <- wl_init good d N; Done (d, w')
  | TornSave buf s g =>
      do x <- pack_table buf 0 s; do (d', _, _) <- wl_write (torn g) d w x; do w' <- wl_init good d' N; Done (d', w')
  end.

Fixpoint store_run (N : Z) (st : wsys) (h : list store_op) : outcome wsys :=
  match h with [] => Done st | o :: h' => do st' <- store_exec N st o; store_run N st' h' end.

(** Initialisation, a history, and loading [n] entries. *)
Definition store_load (n : nat) (N : Z) (d : device) (h : list store_op) : outcome (Z * list entry) :=
  do st <- wstart N d; do (d', w) <- store_run N st h;
  do (r, x) <- wl_read good d' w (11 * Z.of_nat n);
  do s <- unpack_table x 0 n; Done (r, s).

Definition store_op_ok (n : nat) (o : store_op) : Prop :=
  match o with
  | Save buf s => length s = n /\ Forall entry_ok s /\ zlen buf = 11 * Z.of_nat n
  | Restart => True
  | TornSave buf s g => length s = n /\ Forall entry_ok s /\ zlen buf = 11 * Z.of_nat n /\ zlen g = 11 * Z.of_nat n
  end.
