(** Queries of a typed queue made by a third thread. *)
From Verif Require Import Base QueueModel QueueConcModel QueueConcSpec QueueConcSystem QueueAskModel QueueWatchSpec QueueWatchProofs.

(** The states after each step of a schedule: [inl a] a step of the enqueuing thread, [inr d] of the dequeuing one. *)
Fixpoint states (s : qstate Z) (sch : list (Z + bool)) : list (qstate Z) :=
  match sch with
  | [] => []
  | o :: sch' => match (match o with inl a => pstep a s | inr d => cstep d s end) with Done s' => s' :: states s' sch' | _ => [] end
  end.

Lemma states_run : forall sch s, run_of true true s (states s sch).
Proof.
  induction sch as [|[a|d] sch IH]; intros s; cbn [states run_of]; [exact I|..].
  - destruct (pstep a s) as [s1| | |] eqn:E; try exact I. split; [left; eauto|apply IH].
  - destruct (cstep d s) as [s1| | |] eqn:E; try exact I. split; [right; eauto|apply IH].
Qed.

Lemma last_default : forall (l : list (qstate Z)) a d, last (a :: l) d = last (a :: l) a.
Proof. induction l as [|b l IH]; intros a d; [reflexivity|]. change (last (b :: l) d = last (b :: l) a). rewrite (IH b d), (IH b a). reflexivity. Qed.

Lemma states_reach : forall q sch s, qsteps Threads q s -> qsteps Threads q (last (states s sch) s).
Proof.
  intros q. induction sch as [|[a|d] sch IH]; intros s R; cbn [states]; [exact R|..].
  - destruct (pstep a s) as [s1| | |] eqn:E; try exact R. assert (R1 : qsteps Threads q s1) by (apply (qs_enqueue Threads q s s1 a R); [discriminate|exact E]).
    specialize (IH s1 R1). destruct (states s1 sch) as [|b l]; [exact R1|]. change (qsteps Threads q (last (b :: l) s)). rewrite last_default. rewrite last_default in IH. exact IH.
  - destruct (cstep d s) as [s1| | |] eqn:E; try exact R. assert (R1 : qsteps Threads q s1) by (apply (qs_dequeue Threads q s s1 d R); [discriminate|exact E]).
    specialize (IH s1 R1). destruct (states s1 sch) as [|b l]; [exact R1|]. change (qsteps Threads q (last (b :: l) s)). rewrite last_default. rewrite last_default in IH. exact IH.
Qed.

Definition put : list (Z + bool) := repeat (inl 7) 5.
Definition get : list (Z + bool) := repeat (inr true) 5.
Definition q2 : queue Z := mkQueue 0 0 [0; 0].
Definition s0 : qstate Z := qstart q2.
Definition s1 : qstate Z := last (states s0 put) s0.

(** C212 is false while both threads run: a third thread may be told that the queue is empty although there was always
    an item in it, and that it is full although there was never more than one item in a queue of two.  [s] is the moment
    of the first load, [y] that of the second. *)
Theorem queue_watch_refuted :
  (exists (q : queue Z) s l y, zlen (items q) = 2 ^ 1 /\ qsteps Threads q s /\ run_of true true s l /\ In y l /\
     asked_empty (write_idx (shared s)) (read_idx (shared y)) = true /\ always (fun e => 1 <= e) (s :: l)) /\
  (exists (q : queue Z) s l y, zlen (items q) = 2 ^ 1 /\ qsteps Threads q s /\ run_of true true s l /\ In y l /\
     asked_full 2 (write_idx (shared y)) (read_idx (shared s)) = true /\ always (fun e => e <= 1) (s :: l)).
Proof.
  assert (B : forall (P : Z -> bool) (Q : Z -> Prop) (l : list (qstate Z)), (forall e, P e = true -> Q e) -> forallb (fun s => P (held s)) l = true -> always Q l).
  { intros P Q l HP H s Hin. apply HP. rewrite forallb_forall in H. exact (H s Hin). }
  split.
  - exists q2, s1, (states s1 (put ++ get)), (last (states s1 (put ++ get)) s1). split; [reflexivity|].
    split; [apply states_reach, qs_start|]. split; [apply states_run|]. split; [vm_compute; tauto|]. split; [vm_compute; reflexivity|].
    apply (B (fun e => 1 <=? e)); [intros e; apply Z.leb_le|vm_compute; reflexivity].
  - exists q2, s0, (states s0 (put ++ get ++ put)), (last (states s0 (put ++ get ++ put)) s0). split; [reflexivity|].
    split; [apply qs_start|]. split; [apply states_run|]. split; [vm_compute; tauto|]. split; [vm_compute; reflexivity|].
    apply (B (fun e => e <=? 1)); [intros e; apply Z.leb_le|vm_compute; reflexivity].
Qed.
Print Assumptions queue_watch_refuted.

(** C212 when only one of the two threads makes steps during the query: the answers are right at some moment of it. *)
Theorem queue_watch_one_partial : forall (A : Type) k m (q : queue A) s l, 0 <= k <= 15 -> zlen (items q) = 2 ^ k -> qsteps m q s ->
  run_of true false s l \/ run_of false true s l ->
  forall x y, In x (s :: l) -> In y (s :: l) ->
  sometime (fun e => asked_empty (write_idx (shared x)) (read_idx (shared y)) = (e =? 0)) (s :: l) /\
  sometime (fun e => asked_full (2 ^ k) (write_idx (shared x)) (read_idx (shared y)) = (e =? 2 ^ k)) (s :: l).
Proof. intros A k m q s l Hk. exact (one_l k (2 ^ k) Hk eq_refl m q s l). Qed.
Print Assumptions queue_watch_one_partial.

(** C212 while both threads run: the answers "not empty" and "not full" were right at some moment of the query. *)
Theorem queue_watch_both_partial : forall (A : Type) k m (q : queue A) s l, 0 <= k <= 15 -> zlen (items q) = 2 ^ k -> qsteps m q s ->
  run_of true true s l -> forall x y, In x (s :: l) -> In y (s :: l) ->
  (asked_empty (write_idx (shared x)) (read_idx (shared y)) = false -> sometime (fun e => e <> 0) (s :: l)) /\
  (asked_full (2 ^ k) (write_idx (shared x)) (read_idx (shared y)) = false -> sometime (fun e => e <> 2 ^ k) (s :: l)).
Proof. intros A k m q s l Hk. exact (both_l k (2 ^ k) Hk eq_refl m q s l). Qed.
Print Assumptions queue_watch_both_partial.

(** A query while an enqueue runs: the answers before and after write_idx is stored differ, and both are right once. *)
Example queue_watch_case :
  let l := states s0 put in run_of true false s0 l /\
  map (fun x => asked_empty (write_idx (shared x)) (read_idx (shared s0))) (s0 :: l) = [true; true; true; true; false; false] /\
  map held (s0 :: l) = [0; 0; 0; 0; 1; 1].
Proof.
  cbv zeta. split; [|vm_compute; auto]. assert (G : forall n s, run_of true false s (states s (repeat (inl 7) n))); [|apply G].
  induction n as [|n IH]; intros s; cbn [repeat states run_of]; [exact I|]. destruct (pstep 7 s) as [z| | |] eqn:E; try exact I. split; [left; eauto|apply IH].
Qed.
