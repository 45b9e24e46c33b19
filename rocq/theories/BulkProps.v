(** Properties C121 to C123: all calls of the circular buffer shared by a producer and a consumer thread. *)
From Verif Require Import Base CbufModel CbufSpec BulkModel BulkSpec BulkSystem BulkProofs BulkSoloProofs CbufSystem.

(** C121: in every reachable state of every interleaving of putc and puts with getc, gets, peek and drop there is one
    stream of elements (those of the finished producer calls, followed by some of the running one) of which the consumer
    has been given consecutive parts in order; puts stores everything that fits when it is called, putc fails only on a
    full buffer, a read returns at least what was there when it was called, and nothing is overwritten. *)
Theorem bulk_fifo : forall (A : Type) (region : list A) c s, 1 <= zlen region <= INT_MAX ->
  circular_buf_init region (zlen region) = Some c -> reachable c s ->
  bad s = false /\
  exists w, let stream := sent (returned (producer s)) ++ firstn w (pending (producer s)) in
    produced (zlen region - 1) 0 (returned (producer s)) /\ consumed stream 0 (returned (consumer s)) /\
    taken (returned (consumer s)) <= zlen stream <= taken (returned (consumer s)) + leaving (consumer s) + (zlen region - 1).
Proof. intros A region c s Hn Hi R. apply fifo_l; [exact Hn|]. now apply (reachable_inv (zlen region) Hn region c s eq_refl). Qed.
Print Assumptions bulk_fifo.

(** C122: the threads are never about to access the same cell. *)
Theorem bulk_race_free : forall (A : Type) (region : list A) c s, 1 <= zlen region <= INT_MAX ->
  circular_buf_init region (zlen region) = Some c -> reachable c s ->
  forall o1 pc o2 cc i j, running (producer s) = Some (o1, pc) -> running (consumer s) = Some (o2, cc) ->
  writes pc = Some i -> reads cc = Some j -> i <> j.
Proof. intros A region c s Hn Hi R o1 pc o2 cc i j. apply race_l with (1 := Hn). now apply (reachable_inv (zlen region) Hn region c s eq_refl). Qed.
Print Assumptions bulk_race_free.

(** C122: these are all the accesses.  A step of the producer changes no other cell; a step of the consumer depends on no
    other cell and changes none. *)
Theorem bulk_stores : forall (A : Type) (c : cbuf A) pc j, writes pc <> Some j ->
  match pnext c pc with Go c' _ | Ret c' _ _ => zget (buffer c') j = zget (buffer c) j | Bad => True end.
Proof. exact @stores_l. Qed.
Print Assumptions bulk_stores.

Theorem bulk_loads : forall (A : Type) (c : cbuf A) b cc, (forall j, reads cc = Some j -> zget b j = zget (buffer c) j) ->
  cnext (with_buffer c b) cc =
    match cnext c cc with Go c' cc' => Go (with_buffer c' b) cc' | Ret c' r d => Ret (with_buffer c' b) r d | Bad => Bad end.
Proof. exact @loads_l. Qed.
Print Assumptions bulk_loads.

Example bulk_cells_example : let c := mkCbuf [0; 0; 0; 0] 4 1 3 in let l := mkPuts 1 3 [8; 9] 2 0 in
  pnext c (UCopy l 2 1) = Go (mkCbuf [0; 0; 9; 0] 4 1 3) (UCopy l 2 2) /\ writes (UCopy l 2 1) = Some 2 /\
  cnext (mkCbuf [0; 0; 0; 7] 4 1 3) (CCell1 3) = Go (mkCbuf [0; 0; 0; 7] 4 1 3) (CTail0 7) /\ reads (@CCell1 Z 3) = Some 3.
Proof. repeat split. Qed.

(** C124: a call that no step of the other thread interrupts does what it does in the sequential model, in every state. *)
Theorem bulk_alone : forall (A : Type) (c : cbuf A) o c' r d, shared_call o -> cbuf_step c o = Done (c', (r, d)) -> solo c o (c', (r, d)).
Proof. exact @solo_l. Qed.
Print Assumptions bulk_alone.

Example bulk_alone_example : let c := mkCbuf [1; 2; 3; 0] 4 3 0 in
  cbuf_step c (Gets 4) = Done (mkCbuf [1; 2; 3; 0] 4 3 0, (4, [1; 2; 3; 0])) /\
  cbuf_step (mkCbuf [1; 2; 3; 0] 4 3 2) (Puts [4; 5] 2) = Done (mkCbuf [5; 2; 3; 4] 4 1 2, (2, [])) /\
  prun 21 (mkCbuf [1; 2; 3; 0] 4 3 2) (UHead0 [4; 5] 2) = Go (mkCbuf [5; 2; 3; 4] 4 1 2) (ULoop1 (mkPuts 1 2 [] 0 2) 1) /\
  prun 22 (mkCbuf [1; 2; 3; 0] 4 3 2) (UHead0 [4; 5] 2) = Ret (mkCbuf [5; 2; 3; 4] 4 1 2) 2 [].
Proof. repeat split; vm_compute; reflexivity. Qed.

(** C123: a call returns after a number of its own steps bounded by its length, whatever the other thread does. *)
Theorem bulk_wait_free : forall (A : Type) (region : list A) c s, 1 <= zlen region <= INT_MAX ->
  circular_buf_init region (zlen region) = Some c -> reachable c s ->
  (forall o pc, running (producer s) = Some (o, pc) -> steps (producer s) < 9 * asked o + 4) /\
  (forall o pc, running (consumer s) = Some (o, pc) -> steps (consumer s) < 6 * asked o + 7).
Proof. intros A region c s Hn Hi R. apply steps_l with (1 := Hn). now apply (reachable_inv (zlen region) Hn region c s eq_refl). Qed.
Print Assumptions bulk_wait_free.

(** On a region of 4 cells: a puts of 3 and a gets of 2 have returned; a puts of 2 has published its first element, which
    a running gets is about to copy from cell 3 while the second one is about to be stored in cell 0. *)
Example bulk_example : exists c s, circular_buf_init [0; 0; 0; 0] (zlen [0; 0; 0; 0]) = Some c /\ reachable c s /\
  returned (producer s) = [(Puts [1; 2; 3] 3, (3, []), 0)] /\ returned (consumer s) = [(Gets 2, (2, [1; 2]), 3)] /\
  (exists pc cc, running (producer s) = Some (Puts [4; 5] 2, pc) /\ running (consumer s) = Some (Gets 3, cc) /\
    writes pc = Some 0 /\ reads cc = Some 3) /\
  steps (producer s) = 13 /\ steps (consumer s) = 8.
Proof.
  exists (mkCbuf [0; 0; 0; 0] 4 0 0).
  destruct (exec (start (mkCbuf [0; 0; 0; 0] 4 0 0)) ([PCall (Puts [1; 2; 3] 3)] ++ repeat PStep 15 ++ [CCall (Gets 2)] ++ repeat CStep 14 ++
    [PCall (Puts [4; 5] 2); CCall (Gets 3)] ++ repeat PStep 13 ++ repeat CStep 8)) as [s|] eqn:E; [|vm_compute in E; discriminate E].
  exists s. split; [reflexivity|]. split; [exact (exec_reachable _ _ _ _ (r_start _) E)|]. vm_compute in E. injection E as <-.
  repeat split. do 2 eexists. repeat split.
Qed.
