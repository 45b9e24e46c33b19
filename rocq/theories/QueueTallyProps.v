(** The count of a typed queue and the calls that follow. *)
From Verif Require Import Base QueueModel QueueConcModel QueueConcSpec QueueConcSystem QueueAskModel QueueTallyModel QueueTallySpec QueueTallyProofs.

Theorem tally_sequential : forall (A : Type) (q : queue A), queue_count q = asked_count (write_idx q) (read_idx q).
Proof. reflexivity. Qed.
Print Assumptions tally_sequential.

(** C213, dequeuing thread: it asks for the count at [s], between two calls; the enqueuing thread runs meanwhile;
    write_idx is loaded at [x] and read_idx at [y].  The count is that of [x], except that 2^64 - 2^16 is added where
    write_idx has wrapped and read_idx has not; its low 16 bits are right, and as many of the thread's next calls (returned
    when the queue is at [z]) succeed, whatever the enqueuing thread does. *)
Theorem queue_tally_dequeue : forall (A : Type) (k : Z) (m : mode) (q : queue A) s x y,
  0 <= k <= 15 -> zlen (items q) = 2 ^ k -> qsteps m q s -> cp s = CIdle ->
  moves true false s x -> moves true false s y ->
  let w := write_idx (shared x) in let r := read_idx (shared y) in
  asked_count w r = published x - claimed x + (if w <? r then 2 ^ 64 - 2 ^ 16 else 0) /\
  wrap 16 (asked_count w r) = published x - claimed x /\
  forall z, moves true true x z -> next_succeed fst (wrap 16 (asked_count w r)) (cret s) (cret z).
Proof. intros A k m q s x y Hk Hc. exact (tally_dequeue_l k (2 ^ k) Hk eq_refl m q s x y Hc). Qed.
Print Assumptions queue_tally_dequeue.

(** C213, enqueuing thread: the capacity less the count is the number of its next calls that succeed. *)
Theorem queue_tally_enqueue : forall (A : Type) (k : Z) (m : mode) (q : queue A) s x y,
  0 <= k <= 15 -> zlen (items q) = 2 ^ k -> qsteps m q s -> pp s = PIdle ->
  moves false true s x -> moves false true s y ->
  let w := write_idx (shared y) in let r := read_idx (shared x) in
  asked_count w r = published x - claimed x + (if w <? r then 2 ^ 64 - 2 ^ 16 else 0) /\
  wrap 16 (asked_count w r) = published x - claimed x /\
  forall z, moves true true x z -> next_succeed snd (2 ^ k - wrap 16 (asked_count w r)) (pret s) (pret z).
Proof. intros A k m q s x y Hk Hc. exact (tally_enqueue_l k (2 ^ k) Hk eq_refl m q s x y Hc). Qed.
Print Assumptions queue_tally_enqueue.

Definition put : list (Z + bool) := repeat (inl 7) 5.
Definition get : list (Z + bool) := repeat (inr true) 5.

(** Four cells, three items: the count is 3; of the next five calls of the dequeuing thread three succeed and no more,
    of the next calls of the enqueuing thread one. *)
Definition after (s : qstate Z) (sch : list (Z + bool)) : qstate Z := match qsched Threads s sch with Done s' => s' | _ => s end.
Definition s0 : qstate Z := qstart (mkQueue 0 0 [0; 0; 0; 0]).
Definition s3 : qstate Z := after s0 (put ++ put ++ put).

Example queue_tally_case :
  qsched Threads s0 (put ++ put ++ put) = Done s3 /\ cp s3 = CIdle /\ pp s3 = PIdle /\ cret s3 = [] /\
  asked_count (write_idx (shared s3)) (read_idx (shared s3)) = 3 /\
  map fst (cret (after s3 (get ++ get ++ get ++ [inr true; inr true]))) = [0; 0; 0; 1] /\
  map snd (pret (after s3 (put ++ [inl 7; inl 7]))) = [0; 0; 0; 0; 1].
Proof. do 6 (split; [vm_compute; reflexivity|]). vm_compute. reflexivity. Qed.

(** write_idx has wrapped: two items, counted as 2^64 - 2^16 + 2. *)
Example queue_tally_wrapped : asked_count 1 65535 = 2 + (2 ^ 64 - 2 ^ 16) /\ wrap 16 (asked_count 1 65535) = 2.
Proof. vm_compute. auto. Qed.
