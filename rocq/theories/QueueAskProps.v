(** Property C207: a thread that asks the typed queue first is not surprised by its next call. *)
From Verif Require Import Base QueueModel QueueConcModel QueueConcSpec QueueConcSystem QueueConcProofs QueueAskModel QueueAskProofs.

(** The queries of [QueueModel] are these with both loads at one moment. *)
Theorem asked_sequential : forall (A : Type) (q : queue A),
  queue_is_empty q = asked_empty (write_idx q) (read_idx q) /\
  queue_is_full q = asked_full (zlen (items q)) (write_idx q) (read_idx q).
Proof. intros A q. split; reflexivity. Qed.
Print Assumptions asked_sequential.

(** C207, dequeuing thread: it asks is_empty at [s], between two calls; the enqueuing thread runs meanwhile; write_idx is
    loaded at [x] and read_idx at [y].  The answer is right at [x]; if it is "not empty", the thread's first call to return
    after that (the queue being at [z] then or later) returned success, whatever the enqueuing thread did. *)
Theorem queue_ask_dequeue : forall (A : Type) (k : Z) (m : mode) (q : queue A) s x y,
  0 <= k <= 15 -> zlen (items q) = 2 ^ k -> qsteps m q s -> cp s = CIdle ->
  moves true false s x -> moves true false s y ->
  asked_empty (write_idx (shared x)) (read_idx (shared y)) = (published x =? claimed x) /\
  (forall z, asked_empty (write_idx (shared x)) (read_idx (shared y)) = false ->
     moves true true x z -> zlen (cret s) < zlen (cret z) -> exists o l, cret z = cret s ++ (0, o) :: l).
Proof. intros A k m q s x y Hk Hc. exact (ask_dequeue_l k (2 ^ k) Hk eq_refl m q s x y Hc). Qed.
Print Assumptions queue_ask_dequeue.

(** C207, enqueuing thread: it asks is_full; read_idx is loaded at [x] and write_idx at [y]. *)
Theorem queue_ask_enqueue : forall (A : Type) (k : Z) (m : mode) (q : queue A) s x y,
  0 <= k <= 15 -> zlen (items q) = 2 ^ k -> qsteps m q s -> pp s = PIdle ->
  moves false true s x -> moves false true s y ->
  asked_full (2 ^ k) (write_idx (shared y)) (read_idx (shared x)) = (published x - claimed x =? 2 ^ k) /\
  (forall z, asked_full (2 ^ k) (write_idx (shared y)) (read_idx (shared x)) = false ->
     moves true true x z -> zlen (pret s) < zlen (pret z) -> exists a l, pret z = pret s ++ (a, 0) :: l).
Proof. intros A k m q s x y Hk Hc. exact (ask_enqueue_l k (2 ^ k) Hk eq_refl m q s x y Hc). Qed.
Print Assumptions queue_ask_enqueue.

Definition put1 : list (Z + bool) := repeat (inl 7) 5.
Definition get1 : list (Z + bool) := repeat (inr true) 5.

Lemma qsched_moves : forall (sch : list (Z + bool)) s z, qsched Threads s sch = Done z -> moves true true s z.
Proof.
  assert (T : forall s s1 z : qstate Z, moves true true s s1 -> moves true true s1 z -> moves true true s z).
  { intros s s1 z H1 H2. induction H2 as [|a b c H _ IH E|a b c H _ IH E]; [exact H1|..].
    - exact (m_enqueue true true s a b c H IH E).
    - exact (m_dequeue true true s a b c H IH E). }
  induction sch as [|[a|d] sch IH]; intros s z E; cbn [qsched may_p may_c] in E.
  - injection E as <-. apply m_here.
  - destruct (pstep a s) as [s1| | |] eqn:E1; try discriminate. apply (T s s1 z); [|exact (IH s1 z E)].
    exact (m_enqueue true true s s s1 a eq_refl (m_here _ _ _) E1).
  - destruct (cstep d s) as [s1| | |] eqn:E1; try discriminate. apply (T s s1 z); [|exact (IH s1 z E)].
    exact (m_dequeue true true s s s1 d eq_refl (m_here _ _ _) E1).
Qed.

(** Two cells, one item: the dequeuing thread is told "not empty", the enqueuing thread fills the queue during the call
    that follows, and the call succeeds; then the queue is not full, and the next enqueue succeeds too. *)
Example queue_ask_case :
  exists s z : qstate Z,
    qsched Threads (qstart (mkQueue 0 0 [0; 0])) put1 = Done s /\ cp s = CIdle /\ pp s = PIdle /\
    asked_empty (write_idx (shared s)) (read_idx (shared s)) = false /\
    asked_full 2 (write_idx (shared s)) (read_idx (shared s)) = false /\
    qsched Threads s (inr true :: put1 ++ get1) = Done z /\ moves true true s z /\
    cret s = [] /\ cret z = [(0, Some 7)] /\ pret z = [(7, 0); (7, 0)].
Proof.
  eexists. eexists. split; [vm_compute; reflexivity|]. do 4 (split; [vm_compute; reflexivity|]).
  assert (E : forall s : qstate Z, forall z, qsched Threads s (inr true :: put1 ++ get1) = Done z -> qsched Threads s (inr true :: put1 ++ get1) = Done z /\ moves true true s z).
  { intros s z E. split; [exact E|]. exact (qsched_moves _ _ _ E). }
  match goal with |- ?a /\ ?b /\ ?c => assert (X : a /\ b); [apply E; vm_compute; reflexivity|] end.
  split; [exact (proj1 X)|]. split; [exact (proj2 X)|]. vm_compute. auto.
Qed.

(** Without asking first the next call may find the queue empty. *)
Example queue_ask_not : exists s : qstate Z,
  qsched Threads (qstart (mkQueue 0 0 [0; 0])) (repeat (inr true) 2) = Done s /\ cret s = [(1, None)].
Proof. eexists. vm_compute. auto. Qed.
