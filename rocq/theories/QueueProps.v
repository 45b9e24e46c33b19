(** Properties C08-C10: the typed queue. *)
From Verif Require Import Base QueueModel QueueSpec QueueSystem QueueProofs.

(** C08: for every capacity 2^k, k = 0..15, and every history, however long, the
    results are those of a FIFO of that capacity. *)
Theorem queue_fifo : forall (A : Type) (q : queue A) (ops : list (qop A)) (k : Z),
  0 <= k <= 15 -> zlen (items q) = 2 ^ k ->
  exists q', queue_run (queue_init q) ops = Done (q', snd (qspec_run (2 ^ k) [] ops)).
Proof.
  intros A q ops k Hk E. rewrite <- E. apply queue_fifo_l. now exists k.
Qed.
Print Assumptions queue_fifo.

(** Two cells: full, wrap-around and empty occur. *)
Example queue_fifo_example :
  zlen (items (mkQueue 5 9 [0; 0])) = 2 ^ 1 /\
  snd (qspec_run (2 ^ 1) [] [Enqueue 1; Enqueue 2; Enqueue 3; IsFull; Dequeue; Enqueue 4; Drop; Dequeue; Dequeue; IsEmpty])
  = [(0, []); (0, []); (1, []); (1, []); (0, [1]); (0, []); (0, []); (0, [4]); (1, []); (1, [])].
Proof. split; reflexivity. Qed.

(** C09 refuted: after 65536 items went through, a queue holding one item reports
    2^64 - 65535 items. *)
Theorem queue_count_refuted :
  exists (q q' : queue Z) (ops : list (qop Z)) rs,
    queue_run (queue_init q) ops = Done (q', rs) /\
    fst (qspec_run (zlen (items q)) [] ops) = [1] /\ zlen (items q) = 1 /\
    queue_count q' = 2 ^ 64 - 65535.
Proof.
  set (ops := concat (repeat [Enqueue 0; Drop] (Z.to_nat 65535)) ++ [Enqueue 1]).
  destruct (queue_count_exact_l (mkQueue 0 0 [0]) ops) as (q' & E & H).
  { exists 0. split; [lia|reflexivity]. }
  exists (mkQueue 0 0 [0]), q', ops, (snd (qspec_run (zlen [0]) [] ops)).
  split; [exact E|]. split; [vm_compute; reflexivity|]. split; [reflexivity|].
  rewrite H. vm_compute. reflexivity.
Qed.
Print Assumptions queue_count_refuted.

(** C09, exact value in every reachable state: the number of queued items, except that
    it is off by 2^64 - 65536 while the 16-bit write counter has wrapped and the read
    counter has not. *)
Theorem queue_count_exact_partial : forall (A : Type) (q : queue A) (ops : list (qop A)) (k : Z),
  0 <= k <= 15 -> zlen (items q) = 2 ^ k ->
  let l := fst (qspec_run (2 ^ k) [] ops) in
  let rs := snd (qspec_run (2 ^ k) [] ops) in
  exists q', queue_run (queue_init q) ops = Done (q', rs) /\
    queue_count q' =
      if (total removed ops rs) mod 65536 <=? (total accepted ops rs) mod 65536
      then queued l else 2 ^ 64 - 65536 + queued l.
Proof.
  intros A q ops k Hk E. rewrite <- E. apply queue_count_exact_l. now exists k.
Qed.
Print Assumptions queue_count_exact_partial.

(** C09 holds as long as fewer than 65536 items have ever been accepted. *)
Theorem queue_count_short_partial : forall (A : Type) (q : queue A) (ops : list (qop A)) (k : Z),
  0 <= k <= 15 -> zlen (items q) = 2 ^ k ->
  let rs := snd (qspec_run (2 ^ k) [] ops) in
  total accepted ops rs < 65536 ->
  exists q', queue_run (queue_init q) ops = Done (q', rs) /\
    queue_count q' = queued (fst (qspec_run (2 ^ k) [] ops)).
Proof.
  intros A q ops k Hk E. rewrite <- E. apply queue_count_short_l. now exists k.
Qed.
Print Assumptions queue_count_short_partial.

(** C10 refuted: with three slots the second item overwrites the first. *)
Theorem queue_any_capacity_refuted :
  exists (q q' : queue Z) (ops : list (qop Z)) rs,
    zlen (items q) = 3 /\
    queue_run (queue_init q) ops = Done (q', rs) /\
    snd (qspec_run 3 [] ops) = [(0, []); (0, []); (0, [1])] /\
    rs = [(0, []); (0, []); (0, [2])].
Proof.
  exists (mkQueue 0 0 [0; 0; 0]). exists (mkQueue 1 2 [2; 0; 0]).
  exists [Enqueue 1; Enqueue 2; Dequeue]. eexists.
  repeat split; vm_compute; reflexivity.
Qed.
Print Assumptions queue_any_capacity_refuted.

(** C10, exact: the capacities for which every history is FIFO are exactly 1, 2, 4, ...,
    32768 (for an item type with at least two values). *)
Theorem queue_capacities_partial : forall (A : Type) (x y : A) (q : queue A),
  x <> y -> 1 <= zlen (items q) < 2 ^ 64 ->
  ((forall ops, exists q', queue_run (queue_init q) ops =
                           Done (q', snd (qspec_run (zlen (items q)) [] ops)))
   <-> exists k, 0 <= k <= 15 /\ zlen (items q) = 2 ^ k).
Proof.
  intros A x y q Hxy Hc. split.
  - intros Hall.
    assert (Hdec : {k | 0 <= k <= 15 /\ zlen (items q) = 2 ^ k} +
                   {~ exists k, 0 <= k <= 15 /\ zlen (items q) = 2 ^ k}).
    { destruct (Z.eq_dec (zlen (items q)) (2 ^ Z.log2 (zlen (items q)))) as [E|E].
      - destruct (Z_le_gt_dec (Z.log2 (zlen (items q))) 15) as [H|H].
        + left. exists (Z.log2 (zlen (items q))). pose proof (Z.log2_nonneg (zlen (items q))). auto.
        + right. intros (k & Hk & Ek). rewrite Ek, Z.log2_pow2 in H; lia.
      - right. intros (k & Hk & Ek). apply E. rewrite Ek, Z.log2_pow2; [reflexivity|lia]. }
    destruct Hdec as [[k H]|Hno]; [now exists k|].
    destruct (queue_only_pow2_l q x y Hxy Hc Hno) as (ops & Hops).
    destruct (Hall ops) as (q' & E). exfalso. exact (Hops _ _ E eq_refl).
  - intros Hp ops. apply queue_fifo_l. exact Hp.
Qed.
Print Assumptions queue_capacities_partial.
