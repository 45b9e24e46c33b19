(** Properties C155-C156: the circular buffer shared by two cores that also perform loads early. *)
From Verif Require Import Base CbufModel CbufSpec SpscModel SpscSpec WeakModel WeakSpec LoadModel LoadProofs.

(** C155: if a getc loads its cell no earlier than the head it tested (a load barrier between
    the two), loads of the indices may be as early as coherence allows: for every
    schedule the delivered values are a prefix of the accepted ones, what is missing fits in the buffer, and no access
    leaves the region. *)
Theorem early_loads_fifo : forall (A : Type) (region : list A) c0 ord sch, 1 <= zlen region < 2 ^ 64 ->
  circular_buf_init region (zlen region) = Some c0 -> ord <> AnyOrder ->
  let s := core (load_run true ord c0 sch) in
  fifo_so_far (zlen region - 1) (wret_p s) (wret_c s) /\ wbad s = false.
Proof. exact @load_fifo_l. Qed.
Print Assumptions early_loads_fifo.

(** C155: the cell a getc is about to load has not changed since the moment at which its head was loaded. *)
Theorem early_loads_stable : forall (A : Type) (region : list A) c0 ord sch j t, 1 <= zlen region < 2 ^ 64 ->
  circular_buf_init region (zlen region) = Some c0 -> ord <> AnyOrder ->
  let s := load_run true ord c0 sch in
  wc (core s) = CCell1 j -> (head_at s <= t < length (past s))%nat ->
  zget (buffer (back s t)) j = zget (buffer (mem (core s))) j.
Proof. exact @load_stable_l. Qed.
Print Assumptions early_loads_stable.

(** C155: schedules whose loads are all performed in place are those of C148-C150. *)
Theorem early_loads_in_place : forall (A : Type) barrier ord (c : cbuf A) sch,
  core (load_run barrier ord c (map in_place sch)) = weak_run ord c sch.
Proof. exact @in_place_l. Qed.
Print Assumptions early_loads_in_place.

(** A putc / getc from beginning to end, with the moment of its loads of the tail / of the head and of the cell. *)
Definition lputc (a : Z) (t : option nat) : list (lmove Z) := repeat (LProduce a t) 9.
Definition lgetc (th tc : option nat) : list (lmove Z) := repeat (LConsume th) 4 ++ repeat (LConsume tc) 3.

(** The second getc works with the head of moment 4, loaded while six moments have passed, and its cell is loaded
    at that moment too; a third getc finds the buffer empty with the same old head, although a value has arrived; a
    putc is refused because of the old tail. *)
Example early_loads_example :
  let s := load_run true InOrder (mkCbuf [0; 0; 0] 3 0 0)
    (lputc 1 None ++ lputc 2 None ++ repeat (LDrainP 0) 4 ++ lgetc None None ++ [LDrainC 0] ++
     repeat (LProduce 3 (Some 0%nat)) 3 ++
     lputc 3 None ++ repeat (LDrainP 0) 2 ++ lgetc (Some 4%nat) (Some 4%nat) ++ repeat (LConsume (Some 4%nat)) 3) in
  wret_p (core s) = [(Putc 1, (0, [])); (Putc 2, (0, [])); (Putc 3, (-1, [])); (Putc 3, (0, []))] /\
  wret_c (core s) = [(Getc, (0, [1])); (Getc, (0, [2])); (Getc, (-1, []))] /\
  head_at s = 4%nat /\ length (past s) = 8%nat.
Proof. vm_compute. repeat split. Qed.

(** At the cell load of the second getc. *)
Example early_loads_stable_example :
  let s := load_run true InOrder (mkCbuf [0; 0; 0] 3 0 0)
    (lputc 1 None ++ lputc 2 None ++ repeat (LDrainP 0) 4 ++ lgetc None None ++ [LDrainC 0] ++ lputc 3 None ++
     repeat (LDrainP 0) 2 ++ repeat (LConsume (Some 4%nat)) 4) in
  wc (core s) = CCell1 1 /\ (head_at s <= 5 < length (past s))%nat /\ zget (buffer (back s 5)) 1 = Done 2.
Proof. vm_compute. repeat split; auto. Qed.

(** C156 refuted: the code has no such barrier.  Even if stores reach the memory in program order, a getc can
    load its cell before the head: it returns success and delivers what the cell held before the putc. *)
Theorem early_cell_load_refuted : exists (region : list Z) c0 sch,
  circular_buf_init region (zlen region) = Some c0 /\
  let s := core (load_run false InOrder c0 sch) in
  wret_p s = [(Putc 5, (0, []))] /\ wret_c s = [(Getc, (0, [0]))] /\
  ~ fifo_so_far (zlen region - 1) (wret_p s) (wret_c s).
Proof.
  exists [0; 0]. eexists. exists (lputc 5 None ++ repeat (LDrainP 0) 2 ++ lgetc None (Some 0%nat)).
  split; [reflexivity|]. vm_compute. repeat split.
  intros (fl & E & _). discriminate.
Qed.
Print Assumptions early_cell_load_refuted.

(** C156, true variant: a run in which every cell load happens to be performed in place needs no barrier.  Missing
    for the full claim: cell loads before the head load (refuted above). *)
Theorem early_cell_load_partial : forall (A : Type) (region : list A) c0 ord sch, 1 <= zlen region < 2 ^ 64 ->
  circular_buf_init region (zlen region) = Some c0 -> ord <> AnyOrder ->
  cells_in_place ord (load_init c0) sch ->
  let s := core (load_run false ord c0 sch) in
  fifo_so_far (zlen region - 1) (wret_p s) (wret_c s) /\ wbad s = false.
Proof. exact @cells_in_place_l. Qed.
Print Assumptions early_cell_load_partial.

(** The first getc takes an old head, found when nothing had arrived; the second takes a head that is old by the time
    its cell is loaded in place. *)
Example early_cell_load_example :
  let c := mkCbuf [0; 0; 0] 3 0 0 in
  let sch := lputc 1 None ++ repeat (LDrainP 0) 2 ++ repeat (LConsume (Some 1%nat)) 3 ++ lputc 2 None ++
             repeat (LDrainP 0) 2 ++ lgetc (Some 2%nat) None in
  cells_in_place InOrder (load_init c) sch /\
  wret_c (core (load_run false InOrder c sch)) = [(Getc, (-1, [])); (Getc, (0, [1]))].
Proof. vm_compute. repeat split; discriminate. Qed.
