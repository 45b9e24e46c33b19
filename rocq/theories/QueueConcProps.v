(** The typed queue shared by an enqueuing and a dequeuing thread or interrupt handler. *)
From Verif Require Import Base QueueModel QueueConcModel QueueConcSpec QueueConcSystem QueueConcProofs.

(** C172: in every interleaving no access leaves the array, and the indices always describe between 0 and NUM_ITEMS items: those published by enqueue and not claimed by dequeue. *)
Theorem queue_threads_counts : forall (A : Type) (k : Z) (m : mode) (q : queue A) s,
  0 <= k <= 15 -> zlen (items q) = 2 ^ k -> qsteps m q s ->
  0 <= published s - claimed s <= 2 ^ k /\
  (forall a, exists s', pstep a s = Done s') /\ (forall d, exists s', cstep d s = Done s').
Proof. intros A k m q s Hk Hq H. exact (counts_l k (2 ^ k) Hk eq_refl m q s Hq H). Qed.
Print Assumptions queue_threads_counts.

(** C172: a call that is not interrupted is the call of [QueueModel]. *)
Theorem queue_threads_alone : forall (A : Type) (s : qstate A),
  (forall a q' r, pp s = PIdle -> queue_enqueue (shared s) a = Done (q', r) ->
     exists n s', p_alone n a s = Done s' /\ shared s' = q' /\ pp s' = PIdle /\ pret s' = pret s ++ [(a, r)] /\ cp s' = cp s /\ cret s' = cret s) /\
  (forall d q' r x, cp s = CIdle -> queue_dequeue (shared s) d = Done (q', (r, x)) ->
     exists n s', c_alone n d s = Done s' /\ shared s' = q' /\ cp s' = CIdle /\ cret s' = cret s ++ [(r, x)] /\ pp s' = pp s /\ pret s' = pret s).
Proof. exact (@alone_l). Qed.
Print Assumptions queue_threads_alone.

(** C173 fails, even when one side is an interrupt handler: enqueue publishes the index before the item is in place, ... *)
Theorem queue_threads_enqueue_refuted :
  exists (q : queue Z) s, zlen (items q) = 4 /\ qsteps DequeueHandler q s /\
    accepted (pret s) = [7] /\ removals (cret s) = [Some 0].
Proof.
  set (q := mkQueue 0 0 [0; 0; 0; 0]). exists q.
  destruct (qsched DequeueHandler (qstart q) (repeat (inl 7) 4 ++ repeat (inr true) 5 ++ [inl 7])) as [s| | |] eqn:E; [|vm_compute in E; discriminate..].
  exists s. split; [reflexivity|]. split; [apply (qsched_steps _ _ _ _ _ (qs_start _ q) E)|].
  vm_compute in E. injection E as <-. split; reflexivity.
Qed.
Print Assumptions queue_threads_enqueue_refuted.

(** ... and dequeue gives the cell back before it has read it. *)
Theorem queue_threads_dequeue_refuted :
  exists (q : queue Z) s, zlen (items q) = 2 /\ qsteps EnqueueHandler q s /\
    accepted (pret s) = [1; 2; 3] /\ removals (cret s) = [Some 3].
Proof.
  set (q := mkQueue 0 0 [0; 0]). exists q.
  destruct (qsched EnqueueHandler (qstart q) (repeat (inl 1) 5 ++ repeat (inl 2) 5 ++ repeat (inr true) 4 ++ repeat (inl 3) 5 ++ [inr true])) as [s| | |] eqn:E; [|vm_compute in E; discriminate..].
  exists s. split; [reflexivity|]. split; [apply (qsched_steps _ _ _ _ _ (qs_start _ q) E)|].
  vm_compute in E. injection E as <-. split; reflexivity.
Qed.
Print Assumptions queue_threads_dequeue_refuted.

(** C173, what holds: the k-th removal takes the k-th accepted item if enqueue only goes on with at least two free cells (or dequeue is the handler) and dequeue only with at least two items (or enqueue is the handler). *)
Theorem queue_threads_partial : forall (A : Type) (k : Z) (m : mode) (q : queue A) s,
  0 <= k <= 15 -> zlen (items q) = 2 ^ k -> qsteps m q s ->
  m = DequeueHandler \/ Forall (fun n => n <= 2 ^ k - 2) (pseen s) ->
  m = EnqueueHandler \/ Forall (fun n => 2 <= n) (cseen s) ->
  faithful (accepted (pret s)) (removals (cret s)).
Proof. intros A k m q s Hk Hq H MP MC. exact (k_faith _ s (faithful_l k (2 ^ k) Hk eq_refl m q s Hq H MP MC)). Qed.
Print Assumptions queue_threads_partial.

(** A case with overlapping calls that meets the hypotheses: an enqueue is interrupted between its two stores by a whole dequeue. *)
Example queue_threads_case :
  exists (q : queue Z) s, zlen (items q) = 2 ^ 2 /\ qsteps Threads q s /\
    Forall (fun n => n <= 2 ^ 2 - 2) (pseen s) /\ Forall (fun n => 2 <= n) (cseen s) /\
    accepted (pret s) = [1; 2; 3] /\ removals (cret s) = [Some 1].
Proof.
  set (q := mkQueue 0 0 [0; 0; 0; 0]). exists q.
  destruct (qsched Threads (qstart q) (repeat (inl 1) 5 ++ repeat (inl 2) 5 ++ repeat (inl 3) 4 ++ repeat (inr true) 5 ++ [inl 3])) as [s| | |] eqn:E; [|vm_compute in E; discriminate..].
  exists s. split; [reflexivity|]. split; [apply (qsched_steps _ _ _ _ _ (qs_start _ q) E)|].
  vm_compute in E. injection E as <-. split; [|split; [|split; reflexivity]]; repeat constructor; discriminate.
Qed.
