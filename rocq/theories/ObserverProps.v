(** Property C206: queries of the circular buffer while producer and consumer run. *)
From Verif Require Import Base CbufModel CbufSpec SpscModel SpscSpec ObserverModel ObserverSpec ObserverProofs.

(** The queries of [CbufModel] are these with all loads at one moment. *)
Theorem observed_sequential : forall (A : Type) (c : cbuf A),
  is_circular_buf_empty c = observed_empty (head c) (tail c) /\
  is_circular_buf_full c = observed_full (bufsize c) (head c) (tail c) /\
  circular_buf_size c = observed_size (bufsize c) (tail c) (head c) (head c) (tail c).
Proof. intros A c. repeat split. Qed.
Print Assumptions observed_sequential.

Definition put (a : Z) : list (option Z) := repeat (Some a) 9.
Definition get : list (option Z) := repeat None 7.

(** C206 is false for a third thread: it may be told that the buffer is empty although there was always an element in
    it, that it is full although there was never more than one of two elements in it, and that there are three elements
    although there were never more than two.  [s] is the moment of the first load, the last of [l] that of the others. *)
Theorem observer_refuted :
  (exists (region : list Z) c0 s l y, circular_buf_init region (zlen region) = Some c0 /\ reachable c0 s /\
     run_of both s l /\ In y l /\ observed_empty (head (sh s)) (tail (sh y)) = true /\
     always (fun e => 1 <= e) (s :: l)) /\
  (exists (region : list Z) c0 s l y, circular_buf_init region (zlen region) = Some c0 /\ reachable c0 s /\
     run_of both s l /\ In y l /\ observed_full (zlen region) (head (sh s)) (tail (sh y)) = true /\
     always (fun e => e <= 1 < zlen region - 1) (s :: l)) /\
  (exists (region : list Z) c0 s l y, circular_buf_init region (zlen region) = Some c0 /\ reachable c0 s /\
     run_of both s l /\ In y l /\
     observed_size (zlen region) (tail (sh s)) (head (sh y)) (head (sh y)) (tail (sh y)) = 3 /\
     always (fun e => e <= 2) (s :: l)).
Proof.
  assert (B : forall (P : Z -> bool) (Q : Z -> Prop) (l : list (sys Z)), (forall e, P e = true -> Q e) -> forallb (fun s => P (elements s)) l = true -> always Q l).
  { intros P Q l HP H s Hin. apply HP. rewrite forallb_forall in H. exact (H s Hin). }
  split; [|split].
  - exists [0; 0; 0], (mkCbuf [0; 0; 0] 3 0 0).
    set (s := last (states (init_sys (mkCbuf [0; 0; 0] 3 0 0)) (put 5)) (init_sys (mkCbuf [0; 0; 0] 3 0 0))).
    exists s, (states s (put 6 ++ get)), (last (states s (put 6 ++ get)) s). split; [reflexivity|].
    split; [apply states_reach, r_init|]. split; [apply states_run|]. split; [vm_compute; tauto|]. split; [vm_compute; reflexivity|].
    apply (B (fun e => 1 <=? e)); [intros e; apply Z.leb_le|vm_compute; reflexivity].
  - exists [0; 0; 0], (mkCbuf [0; 0; 0] 3 0 0).
    set (s := init_sys (mkCbuf [0; 0; 0] 3 0 0)).
    exists s, (states s (put 6 ++ get)), (last (states s (put 6 ++ get)) s). split; [reflexivity|].
    split; [apply r_init|]. split; [apply states_run|]. split; [vm_compute; tauto|]. split; [vm_compute; reflexivity|].
    apply (B (fun e => e <=? 1)); [intros e H; apply Z.leb_le in H; split; [exact H|reflexivity]|vm_compute; reflexivity].
  - exists [0; 0; 0; 0], (mkCbuf [0; 0; 0; 0] 4 0 0).
    set (s := last (states (init_sys (mkCbuf [0; 0; 0; 0] 4 0 0)) (put 5)) (init_sys (mkCbuf [0; 0; 0; 0] 4 0 0))).
    exists s, (states s (put 6 ++ get ++ put 7)), (last (states s (put 6 ++ get ++ put 7)) s). split; [reflexivity|].
    split; [apply states_reach, r_init|]. split; [apply states_run|]. split; [vm_compute; tauto|]. split; [vm_compute; reflexivity|].
    apply (B (fun e => e <=? 2)); [intros e; apply Z.leb_le|vm_compute; reflexivity].
Qed.
Print Assumptions observer_refuted.

(** C206 for the consumer thread (only the producer moves meanwhile) and the producer thread: at whichever moments the
    loads happen, the answers are those of one moment [x] or [y] of the call; only a full buffer makes the size one too
    large (C02). *)
Theorem observer_own_partial : forall (A : Type) (region : list A) c0 s l, 1 <= zlen region <= INT_MAX ->
  circular_buf_init region (zlen region) = Some c0 -> reachable c0 s ->
  run_of (@pstep A) s l \/ run_of (@cstep A) s l ->
  (forall x y, In x (s :: l) -> In y (s :: l) ->
     sometime (fun e => observed_empty (head (sh x)) (tail (sh y)) = (e =? 0)) (s :: l) /\
     sometime (fun e => observed_full (zlen region) (head (sh x)) (tail (sh y)) = (e =? zlen region - 1)) (s :: l)) /\
  (forall a b c d, In a (s :: l) -> In b (s :: l) -> In c (s :: l) -> In d (s :: l) ->
     let r := observed_size (zlen region) (tail (sh a)) (head (sh b)) (head (sh c)) (tail (sh d)) in
     sometime (fun e => r = e \/ (r = zlen region /\ e = zlen region - 1)) (s :: l)).
Proof.
  intros A region c0 s l Hn Hi R Hr. assert (HN : 1 <= zlen region < 2 ^ 64) by (unfold INT_MAX in Hn; lia). split.
  - intros x y Hx Hy. destruct Hr as [Hr|Hr].
    + destruct (consumer_l region c0 HN Hi s l R Hr x y Hx Hy) as [E F]. split; exists x; split; assumption.
    + destruct (producer_l region c0 HN Hi s l R Hr x y Hx Hy) as [E F]. split; exists y; split; assumption.
  - intros a b c d Ha Hb Hc Hd r. destruct Hr as [Hr|Hr].
    + destruct (consumer_size_l region c0 HN Hi s l R (proj2 Hn) Hr a b c d Ha Hb Hc Hd) as [E|[E F]];
        [exists b|exists c]; split; auto.
    + destruct (producer_size_l region c0 HN Hi s l R (proj2 Hn) Hr a b c d Ha Hb Hc Hd) as [E|[E F]];
        [exists a|exists d]; split; auto.
Qed.
Print Assumptions observer_own_partial.

(** C206 for any thread: the answers "not empty" and "not full" were right at some moment, and the size is never greater
    than the region. *)
Theorem observer_any_partial : forall (A : Type) (region : list A) c0 s l, 1 <= zlen region <= INT_MAX ->
  circular_buf_init region (zlen region) = Some c0 -> reachable c0 s -> run_of both s l ->
  (forall x y, In x (s :: l) -> In y (s :: l) ->
     (observed_empty (head (sh x)) (tail (sh y)) = false -> sometime (fun e => e <> 0) (s :: l)) /\
     (observed_full (zlen region) (head (sh x)) (tail (sh y)) = false -> sometime (fun e => e <> zlen region - 1) (s :: l))) /\
  (forall a b c d, In a (s :: l) -> In b (s :: l) -> In c (s :: l) -> In d (s :: l) ->
     0 <= observed_size (zlen region) (tail (sh a)) (head (sh b)) (head (sh c)) (tail (sh d)) <= zlen region).
Proof.
  intros A region c0 s l Hn Hi R Hr. assert (HN : 1 <= zlen region < 2 ^ 64) by (unfold INT_MAX in Hn; lia).
  assert (W : forall k, ~ always (fun e => e = k) (s :: l) -> sometime (fun e => e <> k) (s :: l)).
  { intros k H. destruct (not_always (fun e => e =? k) (s :: l)) as (x & Hx & E).
    - intros Ha. apply H. intros x Hx. apply Z.eqb_eq. exact (Ha x Hx).
    - exists x. split; [exact Hx|]. apply Z.eqb_neq. exact E. }
  split.
  - intros x y Hx Hy. destruct (anyone_l region c0 HN Hi s l R Hr x y Hx Hy) as [E F].
    split; intros H; apply W; auto.
  - intros a b c d Ha Hb Hc Hd. exact (in_range_l region c0 HN Hi s l R (proj2 Hn) Hr a b c d Ha Hb Hc Hd).
Qed.
Print Assumptions observer_any_partial.

(** The consumer asks while a putc runs: the answers before and after its end differ, and both are right once. *)
Example observer_case :
  let s := init_sys (mkCbuf [0; 0; 0] 3 0 0) in let l := states s (put 6) in
  run_of (@pstep Z) s l /\
  map (fun x => observed_empty (head (sh x)) (tail (sh s))) (s :: l) = repeat true 9 ++ [false] /\
  map elements (s :: l) = repeat 0 9 ++ [1].
Proof.
  cbv zeta. split; [|vm_compute; auto]. unfold put. generalize 9%nat. intros k. generalize (init_sys (mkCbuf [0; 0; 0] 3 0 0)).
  induction k as [|k IH]; intros s; [exact I|]. cbn [repeat states run_of]. split; [apply pgo_step|apply IH].
Qed.
