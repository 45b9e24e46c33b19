(** Properties C153 and C154: all calls of the circular buffer shared by two cores that delay their stores. *)
From Verif Require Import Base CbufModel CbufSpec CbufSystem WeakModel BulkModel BulkSpec BulkSystem BulkWeakModel BulkWeakProofs.

(** C153: for every interleaving of putc and puts with getc, gets, peek and drop, and every way in which the stores
    reach the memory that lets no index overtake what was stored before it: there is one stream of elements (those of the
    finished producer calls, followed by some of the running one); the consumer has been given consecutive parts
    of the part whose head has arrived in memory; a puts stores everything, a putc fails only if the buffer was full
    as far as the tail in memory tells, a read returns at least what had arrived when it was called; nothing is
    overwritten and no access leaves the region. *)
Theorem weak_bulk_fifo : forall (A : Type) (region : list A) c ord s, 1 <= zlen region <= INT_MAX ->
  circular_buf_init region (zlen region) = Some c -> ord <> AnyOrder -> wreachable ord c s ->
  wrong s = false /\
  exists w, let stream := sent (returned (w_producer s)) ++ firstn w (pending (w_producer s)) in
    produced (zlen region - 1) 0 (returned (w_producer s)) /\
    consumed (firstn (Z.to_nat (arrived s)) stream) 0 (returned (w_consumer s)) /\
    0 <= freed s /\ freed s <= taken (returned (w_consumer s)) + leaving (w_consumer s) /\
    taken (returned (w_consumer s)) <= arrived s <= zlen stream /\ zlen stream <= freed s + (zlen region - 1) /\
    (p_queue s = [] -> arrived s = zlen stream) /\ (c_queue s = [] -> taken (returned (w_consumer s)) <= freed s).
Proof.
  intros A region c ord s Hn Hi Ho R. destruct (wreachable_inv (zlen region) Hn ord region c s Ho eq_refl Hi R) as (pub & T & I).
  exact (wfifo_l _ Hn s pub T I).
Qed.
Print Assumptions weak_bulk_fifo.

(** C153: while the consumer is about to load a cell, no store to that cell is pending or about to be made. *)
Theorem weak_bulk_race_free : forall (A : Type) (region : list A) c ord s, 1 <= zlen region <= INT_MAX ->
  circular_buf_init region (zlen region) = Some c -> ord <> AnyOrder -> wreachable ord c s ->
  forall oc cc j, running (w_consumer s) = Some (oc, cc) -> reads cc = Some j ->
  (forall a, ~ In (SCell j a) (p_queue s)) /\ (forall o pc, running (w_producer s) = Some (o, pc) -> writes pc <> Some j).
Proof.
  intros A region c ord s Hn Hi Ho R oc cc j. destruct (wreachable_inv (zlen region) Hn ord region c s Ho eq_refl Hi R) as (pub & T & I).
  exact (wrace_l _ Hn s pub T oc cc j I).
Qed.
Print Assumptions weak_bulk_race_free.

(** C153: a call returns after a number of its own steps bounded by its length, whenever the stores arrive. *)
Theorem weak_bulk_wait_free : forall (A : Type) (region : list A) c ord s, 1 <= zlen region <= INT_MAX ->
  circular_buf_init region (zlen region) = Some c -> ord <> AnyOrder -> wreachable ord c s ->
  (forall o pc, running (w_producer s) = Some (o, pc) -> steps (w_producer s) < 9 * asked o + 4) /\
  (forall o pc, running (w_consumer s) = Some (o, pc) -> steps (w_consumer s) < 6 * asked o + 7).
Proof.
  intros A region c ord s Hn Hi Ho R. destruct (wreachable_inv (zlen region) Hn ord region c s Ho eq_refl Hi R) as (pub & T & I).
  exact (wsteps_l _ Hn s pub T I).
Qed.
Print Assumptions weak_bulk_wait_free.

(** C153: once both cores are between calls and their stores have arrived, the memory is an ordinary buffer with the
    elements sent and not taken: every further history of calls gives the results of a FIFO. *)
Theorem weak_bulk_quiet : forall (A : Type) (region : list A) c ord s, 1 <= zlen region <= INT_MAX ->
  circular_buf_init region (zlen region) = Some c -> ord <> AnyOrder -> wreachable ord c s ->
  p_queue s = [] -> c_queue s = [] -> running (w_producer s) = None -> running (w_consumer s) = None ->
  let content := skipn (Z.to_nat (taken (returned (w_consumer s)))) (sent (returned (w_producer s))) in
  forall ops, all_sane (zlen region - 1) content ops ->
  exists c', cbuf_run (memory s) ops = Done (c', fifo_run (zlen region - 1) content ops).
Proof.
  intros A region c ord s Hn Hi Ho R. destruct (wreachable_inv (zlen region) Hn ord region c s Ho eq_refl Hi R) as (pub & T & I).
  exact (wquiet_l _ Hn s pub T I).
Qed.
Print Assumptions weak_bulk_quiet.

(** The system contains the one of C121: whatever happens with immediate stores happens here as well. *)
Theorem weak_bulk_covers : forall (A : Type) ord (c : cbuf A) s, reachable c s ->
  exists u, wreachable ord c u /\ memory u = sh s /\ p_queue u = [] /\ c_queue u = [] /\
    alike (producer s) (w_producer u) /\ alike (consumer s) (w_consumer u) /\ wrong u = bad s.
Proof. exact @covers_l. Qed.
Print Assumptions weak_bulk_covers.

(** A puts of 3 has returned; its cells have arrived, the second before the first, and its head; a gets of 2 has returned
    [1; 2], its tail is pending, so the producer sees no room; a getc is about to load the third cell. *)
Definition four : cbuf Z := mkCbuf [0; 0; 0; 0] 4 0 0.
Example weak_bulk_example : exists s, circular_buf_init [0; 0; 0; 0] (zlen [0; 0; 0; 0]) = Some four /\ wreachable IndexLast four s /\
  returned (w_producer s) = [(Puts [1; 2; 3] 3, (3, []), 0); (Putc 4, (-1, []), 0)] /\
  returned (w_consumer s) = [(Gets 2, (2, [1; 2]), 3)] /\ c_queue s = [STail 2] /\ p_queue s = [] /\ arrived s = 3 /\ freed s = 0 /\
  running (w_consumer s) = Some (Getc, CCell1 2).
Proof.
  destruct (wexec IndexLast (wstart four) ([PBegin (Puts [1; 2; 3] 3)] ++ repeat PMove 15 ++ [PLand 1; PLand 0; PLand 0; PLand 0; CBegin (Gets 2)] ++ repeat CMove 14 ++
    [PBegin (Putc 4); PMove; PMove; CBegin Getc] ++ repeat CMove 3)) as [s|] eqn:E; [|vm_compute in E; discriminate E].
  exists s. split; [reflexivity|]. split; [exact (wexec_reachable _ _ _ _ _ (wr_start _ _) E)|]. vm_compute in E. injection E as <-.
  repeat split.
Qed.

(** Without the condition on the order it is false: the head of a puts arrives before its cells, and gets returns what the cells
    held before. *)
Theorem weak_bulk_reordered_refuted : exists (c : cbuf Z) s, circular_buf_init [0; 0; 0; 0] (zlen [0; 0; 0; 0]) = Some c /\
  wreachable AnyOrder c s /\
  returned (w_producer s) = [(Puts [1; 2; 3] 3, (3, []), 0)] /\ returned (w_consumer s) = [(Gets 3, (3, [1; 0; 3]), 3)].
Proof.
  exists four. destruct (wexec AnyOrder (wstart four) ([PBegin (Puts [1; 2; 3] 3)] ++ repeat PMove 15 ++ [PLand 0; PLand 2; PLand 1; CBegin (Gets 3)] ++ repeat CMove 15))
    as [s|] eqn:E; [|vm_compute in E; discriminate E].
  exists s. split; [reflexivity|]. split; [exact (wexec_reachable _ _ _ _ _ (wr_start _ _) E)|]. vm_compute in E. injection E as <-. repeat split.
Qed.
Print Assumptions weak_bulk_reordered_refuted.

(** C154 refuted: with stores in program order too, a gets called after a puts has returned may find nothing, and a putc called after
    everything has been taken may be refused. *)
Theorem delayed_bulk_refuted : exists (c : cbuf Z) s, circular_buf_init [0; 0; 0; 0] (zlen [0; 0; 0; 0]) = Some c /\
  wreachable InOrder c s /\
  returned (w_producer s) = [(Puts [1; 2; 3] 3, (3, []), 0); (Putc 4, (-1, []), 0)] /\
  returned (w_consumer s) = [(Gets 3, (0, []), 0); (Gets 3, (3, [1; 2; 3]), 3)].
Proof.
  exists four. destruct (wexec InOrder (wstart four) ([PBegin (Puts [1; 2; 3] 3)] ++ repeat PMove 15 ++ [CBegin (Gets 3)] ++ repeat CMove 7 ++
    repeat (PLand 0) 4 ++ [CBegin (Gets 3)] ++ repeat CMove 15 ++ [PBegin (Putc 4); PMove; PMove])) as [s|] eqn:E; [|vm_compute in E; discriminate E].
  exists s. split; [reflexivity|]. split; [exact (wexec_reachable _ _ _ _ _ (wr_start _ _) E)|]. vm_compute in E. injection E as <-. repeat split.
Qed.
Print Assumptions delayed_bulk_refuted.

(** C154, true variant: once the stores of the other core have arrived, calls count all of its finished calls ([arrived] and [freed] are what
    [weak_bulk_fifo] measures a call by).  Missing for the full claim: calls made while such stores are pending (refuted above). *)
Theorem delayed_bulk_partial : forall (A : Type) (region : list A) c ord s, 1 <= zlen region <= INT_MAX ->
  circular_buf_init region (zlen region) = Some c -> ord <> AnyOrder -> wreachable ord c s ->
  (p_queue s = [] -> running (w_producer s) = None -> arrived s = zlen (sent (returned (w_producer s)))) /\
  (c_queue s = [] -> running (w_consumer s) = None -> freed s = taken (returned (w_consumer s))).
Proof.
  intros A region c ord s Hn Hi Ho R. destruct (weak_bulk_fifo A region c ord s Hn Hi Ho R) as (_ & w & _ & _ & H0 & H1 & H2 & H3 & H4 & H5).
  split; intros Q E.
  - rewrite (H4 Q). unfold pending. rewrite E. now rewrite firstn_nil, app_nil_r.
  - specialize (H5 Q). unfold leaving in H1. rewrite E in H1. lia.
Qed.
Print Assumptions delayed_bulk_partial.
