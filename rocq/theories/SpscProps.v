(** Properties C06 and C07: the circular buffer shared by one producer and one consumer. *)
From Verif Require Import Base CbufModel CbufSpec CbufSystem CbufProofs SpscModel SpscSpec SpscProofs
  PutsConcModel PutsConcProofs.

(** C06: in every reachable state of every interleaving, the delivered values are a
    prefix of the accepted ones and what is missing fits in the buffer. *)
Theorem spsc_fifo : forall (A : Type) (region : list A) c0 s, 1 <= zlen region < 2 ^ 64 ->
  circular_buf_init region (zlen region) = Some c0 -> reachable c0 s ->
  exists in_flight, accepted (pret s) = delivered (cret s) ++ in_flight /\
    stored in_flight <= zlen region - 1.
Proof. exact @spsc_fifo_l. Qed.
Print Assumptions spsc_fifo.

(** C06: the results returned to both threads, including the failures (-1), are those
    of some sequential order of the calls on a FIFO of capacity n-1, and no access leaves
    the region. *)
Theorem spsc_linearizable : forall (A : Type) (region : list A) c0 s, 1 <= zlen region < 2 ^ 64 ->
  circular_buf_init region (zlen region) = Some c0 -> reachable c0 s ->
  linearizable (zlen region - 1) (pret s) (cret s) /\ bad s = false.
Proof. exact @spsc_linearizable_l. Qed.
Print Assumptions spsc_linearizable.

(** C06: the threads are never about to access the same cell. *)
Theorem spsc_race_free : forall (A : Type) (region : list A) c0 s, 1 <= zlen region < 2 ^ 64 ->
  circular_buf_init region (zlen region) = Some c0 -> reachable c0 s ->
  forall a i j, pp s = PCell1 a i -> cp s = CCell1 j -> i <> j.
Proof. exact @spsc_race_free_l. Qed.
Print Assumptions spsc_race_free.

(** A reachable state in which the consumer already received 5 while the producer is
    about to store a second value. *)
Example spsc_reachable_example : exists c0 s,
  circular_buf_init [0; 0] (zlen [0; 0]) = Some c0 /\ reachable c0 s /\
  pret s = [(Putc 5, (0, []))] /\ cret s = [(Getc, (0, [5]))] /\ pp s = PCell1 6 1.
Proof.
  pose (c0 := mkCbuf [0; 0] 2 0 0).
  pose proof (r_init c0) as R.
  assert (D01 : 0 <> 1) by discriminate. assert (D10 : 1 <> 0) by discriminate.
  eassert (R1 : reachable c0 _) by (eapply r_prod; [exact R|eapply ps_call with (a := 5); reflexivity]); vm_compute in R1.
  eassert (R2 : reachable c0 _) by (eapply r_prod; [exact R1|eapply ps_full0 with (a := 5); reflexivity]); vm_compute in R2.
  eassert (R3 : reachable c0 _) by (eapply r_prod; [exact R2|eapply ps_full1_room with (a := 5); [reflexivity|exact D10]]); vm_compute in R3.
  eassert (R4 : reachable c0 _) by (eapply r_prod; [exact R3|eapply ps_cell0 with (a := 5); reflexivity]); vm_compute in R4.
  eassert (R5 : reachable c0 _) by (eapply r_prod; [exact R4|eapply ps_cell1 with (a := 5); reflexivity]); vm_compute in R5.
  eassert (R6 : reachable c0 _) by (eapply r_prod; [exact R5|eapply ps_adv0 with (a := 5); reflexivity]); vm_compute in R6.
  eassert (R7 : reachable c0 _) by (eapply r_prod; [exact R6|eapply ps_adv1_room with (a := 5); [reflexivity|exact D10]]); vm_compute in R7.
  eassert (R8 : reachable c0 _) by (eapply r_prod; [exact R7|eapply ps_head0 with (a := 5); reflexivity]); vm_compute in R8.
  eassert (R9 : reachable c0 _) by (eapply r_prod; [exact R8|eapply ps_head1 with (a := 5); reflexivity]); vm_compute in R9.
  eassert (Q1 : reachable c0 _) by (eapply r_cons; [exact R9|eapply cs_call; reflexivity]); vm_compute in Q1.
  eassert (Q2 : reachable c0 _) by (eapply r_cons; [exact Q1|eapply cs_empty0; reflexivity]); vm_compute in Q2.
  eassert (Q3 : reachable c0 _) by (eapply r_cons; [exact Q2|eapply cs_empty1_some; [reflexivity|exact D10]]); vm_compute in Q3.
  eassert (Q4 : reachable c0 _) by (eapply r_cons; [exact Q3|eapply cs_cell0; reflexivity]); vm_compute in Q4.
  eassert (Q5 : reachable c0 _) by (eapply r_cons; [exact Q4|eapply cs_cell1; reflexivity]); vm_compute in Q5.
  eassert (Q6 : reachable c0 _) by (eapply r_cons; [exact Q5|eapply cs_tail0 with (v := 5); reflexivity]); vm_compute in Q6.
  eassert (Q7 : reachable c0 _) by (eapply r_prod; [exact Q6|eapply ps_call with (a := 6); reflexivity]); vm_compute in Q7.
  eassert (Q8 : reachable c0 _) by (eapply r_prod; [exact Q7|eapply ps_full0 with (a := 6); reflexivity]); vm_compute in Q8.
  eassert (Q9 : reachable c0 _) by (eapply r_cons; [exact Q8|eapply cs_tail1 with (v := 5); reflexivity]); vm_compute in Q9.
  eassert (Q10 : reachable c0 _) by (eapply r_prod; [exact Q9|eapply ps_full1_room with (a := 6); [reflexivity|exact D01]]); vm_compute in Q10.
  eassert (Q11 : reachable c0 _) by (eapply r_prod; [exact Q10|eapply ps_cell0 with (a := 6); reflexivity]); vm_compute in Q11.
  exists c0. eexists. split; [reflexivity|]. split; [exact Q11|]. repeat split.
Qed.

(** C07 refuted: on a region of 3 cells, after one getc interferes with a puts, the
    producer never returns from that puts, whatever both threads do afterwards. *)
Theorem spsc_puts_terminates_refuted :
  exists (region : list Z) c0 c1 c2 r l2,
    circular_buf_init region (zlen region) = Some c0 /\
    circular_buf_putc c0 1 = Done (c1, r) /\
    puts_sched c1 (puts_start c1 [2; 3; 4] 3) [true; false] = Done (c2, l2) /\
    forall sch, exists c' l', puts_sched c2 l2 sch = Done (c', l') /\ lret l' = None.
Proof.
  exists [0; 0; 0]. do 5 eexists.
  split; [reflexivity|]. split; [vm_compute; reflexivity|]. split; [vm_compute; reflexivity|].
  intros sch. apply stuck_forever. constructor; [constructor|..]; vm_compute; repeat split;
  try reflexivity; intros; discriminate.
Qed.
Print Assumptions spsc_puts_terminates_refuted.

(** C07, true variant: without interference puts returns. Missing for the full claim:
    interference by the consumer (refuted above). *)
Theorem spsc_puts_terminates_partial : forall (A : Type) (region : list A) c0 ops c outs data len,
  1 <= zlen region <= INT_MAX -> circular_buf_init region (zlen region) = Some c0 ->
  Forall legal ops -> cbuf_run c0 ops = Done (c, outs) ->
  0 <= len < 2 ^ 64 -> len <= zlen data ->
  exists k c' l' r, puts_sched c (puts_start c data len) (repeat true k) = Done (c', l') /\ lret l' = Some r.
Proof. exact @puts_alone_terminates_l. Qed.
Print Assumptions spsc_puts_terminates_partial.
