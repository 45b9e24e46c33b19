(** Properties C148-C150: the circular buffer shared by two cores that delay their stores. *)
From Verif Require Import Base CbufModel CbufSpec CbufSystem SpscModel SpscSpec WeakModel WeakSpec
  WeakProofs WeakFenceProofs.

(** C148: if the stores of a core reach the memory in program order, or at least no index
    before what was stored ahead of it, then for every schedule the delivered values are a prefix of
    the accepted ones, what is missing fits in the buffer, and no access leaves the region. *)
Theorem weak_fifo : forall (A : Type) (region : list A) c0 ord sch, 1 <= zlen region < 2 ^ 64 ->
  circular_buf_init region (zlen region) = Some c0 -> ord <> AnyOrder ->
  let s := weak_run ord c0 sch in
  fifo_so_far (zlen region - 1) (wret_p s) (wret_c s) /\ wbad s = false.
Proof. exact @weak_fifo_l. Qed.
Print Assumptions weak_fifo.

(** C148: while the consumer is about to load a cell, no store to that cell is pending or
    about to be made. *)
Theorem weak_race_free : forall (A : Type) (region : list A) c0 ord sch j, 1 <= zlen region < 2 ^ 64 ->
  circular_buf_init region (zlen region) = Some c0 -> ord <> AnyOrder ->
  let s := weak_run ord c0 sch in
  wc s = CCell1 j ->
  (forall a, ~ In (SCell j a) (pq s)) /\ (forall a, wp s <> PCell1 a j).
Proof. exact @weak_race_free_l. Qed.
Print Assumptions weak_race_free.

(** C148: once both cores have drained their stores and the producer is between calls, the memory
    is an ordinary buffer holding the values under way: every further history of calls (by either core) gives
    the results of a FIFO. *)
Theorem weak_quiet : forall (A : Type) (region : list A) c0 ord sch, 1 <= zlen region <= INT_MAX ->
  circular_buf_init region (zlen region) = Some c0 -> ord <> AnyOrder ->
  let s := weak_run ord c0 sch in
  pq s = [] -> cq s = [] -> wp s = PIdle ->
  exists in_flight, accepted (wret_p s) = delivered (wret_c s) ++ in_flight /\
    forall ops, all_sane (zlen region - 1) in_flight ops ->
      exists c, cbuf_run (mem s) ops = Done (c, fifo_run (zlen region - 1) in_flight ops).
Proof. exact @weak_quiet_l. Qed.
Print Assumptions weak_quiet.

(** A putc of [a] from beginning to end / a getc. *)
Definition putc_steps (a : Z) : list (move Z) := repeat (Produce a) 9.
Definition getc_steps : list (move Z) := repeat Consume 7.

(** Both queues hold stores; the getc of the second value is about to load its cell. *)
Example weak_example :
  let sch := putc_steps 5 ++ putc_steps 6 ++ [DrainP 0; DrainP 0] ++ getc_steps ++ [DrainP 0; DrainP 0] ++
             putc_steps 7 ++ repeat Consume 4 in
  let s := weak_run InOrder (mkCbuf [0; 0; 0; 0] 4 0 0) sch in
  wret_p s = [(Putc 5, (0, [])); (Putc 6, (0, [])); (Putc 7, (0, []))] /\
  wret_c s = [(Getc, (0, [5]))] /\ pq s = [SCell 2 7; SHead 3] /\ cq s = [STail 1] /\ wc s = CCell1 1.
Proof. vm_compute. repeat split. Qed.

(** C150 refuted: if the stores of a core to different locations may overtake each other, the
    head can reach the consumer before the cell does, and getc delivers what the cell held before. *)
Theorem reordered_stores_fifo_refuted : exists (region : list Z) c0 sch,
  circular_buf_init region (zlen region) = Some c0 /\
  let s := weak_run AnyOrder c0 sch in
  wret_p s = [(Putc 5, (0, []))] /\ wret_c s = [(Getc, (0, [0]))] /\
  ~ fifo_so_far (zlen region - 1) (wret_p s) (wret_c s).
Proof.
  exists [0; 0]. eexists. exists (putc_steps 5 ++ [DrainP 1] ++ getc_steps).
  split; [reflexivity|]. vm_compute. repeat split.
  intros (fl & E & _). discriminate.
Qed.
Print Assumptions reordered_stores_fifo_refuted.

(** C150, true variant: it is enough that an index store waits for the cell stores before it (a
    release store); the cell stores may be performed in any order. Missing for the full claim: hardware that lets the
    index store overtake them (refuted above). *)
Theorem reordered_stores_fifo_partial : forall (A : Type) (region : list A) c0 sch, 1 <= zlen region < 2 ^ 64 ->
  circular_buf_init region (zlen region) = Some c0 ->
  let s := weak_run IndexLast c0 sch in
  fifo_so_far (zlen region - 1) (wret_p s) (wret_c s) /\ wbad s = false.
Proof. intros A region c0 sch Hn E. apply (@weak_fifo_l A region c0 IndexLast sch Hn E). discriminate. Qed.
Print Assumptions reordered_stores_fifo_partial.

(** The second cell store overtakes the first head. *)
Example reordered_example :
  let s := weak_run IndexLast (mkCbuf [0; 0; 0] 3 0 0) (putc_steps 5 ++ putc_steps 6 ++ [DrainP 2]) in
  pq s = [SCell 0 5; SHead 1; SHead 2] /\ buffer (mem s) = [0; 6; 0].
Proof. vm_compute. repeat split. Qed.

(** Follows every candidate for a sequential order, call by call: the next call is the next one of one of the
    two threads, and its result is that of the FIFO. *)
Ltac walk_linearization :=
  match goal with
  | Hl : fifo_run _ _ (map fst ?l) = map snd ?l, Ho : Forall _ ?l |- _ =>
      destruct l as [|[[] ?] ?];
      [cbn in *; discriminate|..];
      let Hk := fresh in inversion_clear Ho as [|? ? Hk ?];
      cbn [is_put is_get fst snd map filter] in *;
      try (exfalso; destruct Hk; discriminate); clear Hk
  | H : (_, _) :: _ = _ :: _ |- _ => injection H; clear H; intros; subst
  | H : (_, _) :: _ = [] |- _ => discriminate H
  | H : fifo_run _ _ (_ :: _) = _ :: _ |- _ =>
      cbn in H; first [discriminate H | injection H; clear H; intros; subst]
  end.

(** C149 refuted: even with stores in program order, a putc can be refused for lack of room while at the same
    time a getc finds nothing, although one value is under way and only one of two places is taken: no sequential order of the calls
    explains these answers. *)
Theorem delayed_stores_linearizable_refuted : exists (region : list Z) c0 sch,
  circular_buf_init region (zlen region) = Some c0 /\
  let s := weak_run InOrder c0 sch in
  wret_p s = [(Putc 1, (0, [])); (Putc 2, (0, [])); (Putc 3, (-1, []))] /\
  wret_c s = [(Getc, (0, [1])); (Getc, (-1, []))] /\
  ~ linearizable (zlen region - 1) (wret_p s) (wret_c s).
Proof.
  exists [0; 0; 0]. eexists.
  exists (putc_steps 1 ++ [DrainP 0; DrainP 0] ++ putc_steps 2 ++ repeat (Produce 3) 3 ++ getc_steps ++ repeat Consume 3).
  split; [reflexivity|]. vm_compute zlen.
  match goal with |- let s := ?x in _ => let v := eval vm_compute in x in change x with v end.
  cbn [wret_p wret_c]. split; [reflexivity|]. split; [reflexivity|].
  intros (l & extra & Hl & Ho & Hp & Hg & Hx). unfold legal_history in Hl. unfold only_putc_getc in Ho. change (3 - 1) with 2 in Hl.
  assert (He : extra = [] \/ exists e, extra = [e])
    by (destruct extra as [|e [|]]; cbn in Hx; [auto|eauto|lia]).
  clear Hx. destruct He as [->|[e ->]]; cbn [app] in Hg; repeat walk_linearization.
Qed.
Print Assumptions delayed_stores_linearizable_refuted.

(** C149, true variant: with a barrier between calls (a core starts a call only once its own stores have reached the
    memory) the answers, including the failures, are those of some sequential order of the calls. Missing for the
    full claim: cores that begin the next call while stores of the last one are pending (refuted above). *)
Theorem delayed_stores_linearizable_partial : forall (A : Type) (region : list A) c0 ord sch,
  1 <= zlen region < 2 ^ 64 ->
  circular_buf_init region (zlen region) = Some c0 -> ord <> AnyOrder ->
  fenced ord (weak_init c0) sch ->
  let s := weak_run ord c0 sch in
  linearizable (zlen region - 1) (wret_p s) (wret_c s).
Proof. exact @weak_fenced_l. Qed.
Print Assumptions delayed_stores_linearizable_partial.

(** Stores are pending during calls and between them. *)
Example fenced_example :
  let sch := putc_steps 1 ++ [DrainP 0; DrainP 0] ++ putc_steps 2 ++ getc_steps ++ [DrainP 0; DrainC 0] ++
             [DrainP 0] ++ repeat (Produce 3) 3 in
  let c := mkCbuf [0; 0; 0] 3 0 0 in
  fenced InOrder (weak_init c) sch /\ wret_c (weak_run InOrder c sch) = [(Getc, (0, [1]))].
Proof. vm_compute. repeat split; intros; discriminate. Qed.

(** C149: without barriers too, a putc is refused exactly if n-1 values more were accepted than the producer can
    know to be delivered (a delivery whose tail is pending is one it cannot know about). *)
Theorem delayed_stores_putc_answer_partial : forall (A : Type) (region : list A) c0 ord sch a0 a h,
  1 <= zlen region < 2 ^ 64 ->
  circular_buf_init region (zlen region) = Some c0 -> ord <> AnyOrder ->
  let s := weak_run ord c0 sch in
  wp s = PFull1 a h ->
  wret_p (step ord s (Produce a0)) =
    if zlen (accepted (wret_p s)) - known_delivered s =? zlen region - 1
    then wret_p s ++ [(Putc a, (-1, []))] else wret_p s.
Proof. exact @putc_answer_l. Qed.
Print Assumptions delayed_stores_putc_answer_partial.

(** C149: a getc fails exactly if, when it looked at the head, the values it could know to be accepted were all
    delivered, whatever the others do before it returns. *)
Theorem delayed_stores_getc_answer_partial : forall (A : Type) (region : list A) c0 ord sch others,
  1 <= zlen region < 2 ^ 64 ->
  circular_buf_init region (zlen region) = Some c0 -> ord <> AnyOrder ->
  let s := weak_run ord c0 sch in
  wc s = CEmpty0 -> Forall not_consumer others ->
  wret_c (weak_run ord c0 (sch ++ [Consume] ++ others ++ [Consume])) =
    if known_accepted s =? zlen (delivered (wret_c s))
    then wret_c s ++ [(Getc, (-1, []))] else wret_c s.
Proof. exact @getc_answer_l. Qed.
Print Assumptions delayed_stores_getc_answer_partial.

Example answers_example :
  let c := mkCbuf [0; 0; 0] 3 0 0 in
  let s := weak_run InOrder c (putc_steps 1 ++ [DrainP 0; DrainP 0] ++ putc_steps 2 ++ repeat (Produce 3) 2 ++
                               getc_steps ++ [Consume]) in
  wp s = PFull1 3 2 /\ wc s = CEmpty0 /\ known_accepted s = 1 /\ known_delivered s = 0 /\
  accepted (wret_p s) = [1; 2] /\ delivered (wret_c s) = [1].
Proof. vm_compute. repeat split. Qed.
