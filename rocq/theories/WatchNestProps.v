(** Theorems about watcher lists whose callbacks use the list (gel/data_structures/watcher.c). *)
From Verif Require Import Base TimeModel WatcherModel WatcherSpec WatcherSystem WatchNestModel WatchNestSpec WatchNestProofs.

(** C159: with callbacks that leave the memory alone and process the list again, at the same time (those of immediate
    watchers excepted), the list ends up as, and the calls begin in the order of, the processing whose callbacks do
    nothing.  Callbacks are not nested deeper than there are watchers. *)
Theorem watch_nested_same : forall I L m now, 0 < L -> forall behave z rest, current z = 0 ->
  forall ws, Forall (ready (zlen m)) ws -> Forall (fun x => 0 <= delay x < 2 ^ (L - 1)) ws ->
  Forall (fun x => visits (0 <? delay x) now m (behave (cb x) (current x) (data x) m)) ws ->
  forall fuel, (length ws <= fuel)%nat -> exists l cs res res',
    watcher_process_changes I L (fun _ _ _ m => m) (ws ++ z :: rest) m now = Done (l, m, cs, res) /\
    process_changes I L behave fuel (ws ++ z :: rest) m now = Done (l, m, cs, res') /\
    (res' = 0 \/ res' = 1 /\ res = 1 /\ Exists (stale m) ws).
Proof. exact same_l. Qed.
Print Assumptions watch_nested_same.

(** C159: with callbacks that process the list at any time, and clear and check it, every watcher is called at most
    once in one processing, nested ones included. *)
Theorem watch_nested_once : forall I L behave m z rest, current z = 0 -> forall ws now fuel,
  Forall (fun x => ready (zlen m) x /\ observes (0 <? delay x) m (behave (cb x) (current x) (data x) m)) ws ->
  (length ws <= fuel)%nat ->
  exists ws' cs res idx, process_changes I L behave fuel (ws ++ z :: rest) m now = Done (ws' ++ z :: rest, m, cs, res) /\
    Forall2 same_static ws ws' /\ NoDup idx /\ Forall2 (fun i c => exists x, nth_error ws i = Some x /\ c = call_of m x) idx cs.
Proof. exact once_l. Qed.
Print Assumptions watch_nested_once.

(** C159: callbacks that only write the memory. *)
Theorem watch_nested_plain : forall I L behave eff, (forall c a d m, behave c a d m = Return (eff c a d m)) ->
  forall fuel l m now, process_changes I L behave (S fuel) l m now
  = (do (l, m, cs, res) <- watcher_process_changes I L eff l m now; Done (l, m, cs, res)).
Proof. exact plain_l. Qed.
Print Assumptions watch_nested_plain.

(** C159: what a callback does with its list when the callbacks called by that only write the memory. *)
Theorem watch_nested_calls : forall I L behave eff, (forall c a d m, behave c a d m = Return (eff c a d m)) ->
  forall fuel b l cs, run I L behave (S (S fuel)) b l cs = (do (l, m, c) <- plain_body I L eff b l; Done (l, m, cs ++ c)).
Proof. exact calls_l. Qed.
Print Assumptions watch_nested_calls.

(** Callback 7 processes the list again at time 110, callback 8 does nothing. *)
Definition sample_behave (now c _ _ : Z) (m : list Z) : body :=
  if c =? 7 then Process m now (fun m _ => Check m (fun m _ => Return m)) else Return m.

(** Two delayed watchers with a change noticed at 100, one immediate with a change. *)
Definition sample_list : list watcher :=
  [mkWatcher [5; 6] 1 2 7 0 100 10 1; mkWatcher [7] 3 1 7 1 100 5 1; mkWatcher [0] 4 1 8 2 0 0 0; mkWatcher [] 0 0 0 0 0 0 0].
Definition sample_memory : list Z := [0; 5; 6; 7; 8].

Example watch_nested_example :
  Forall (fun x => ready (zlen sample_memory) x /\ 0 <= delay x < 2 ^ (64 - 1) /\
                   visits (0 <? delay x) 110 sample_memory (sample_behave 110 (cb x) (current x) (data x) sample_memory)) (firstn 3 sample_list) /\
  process_changes 32 64 (sample_behave 110) 3 sample_list sample_memory 110
  = Done ([mkWatcher [5; 6] 1 2 7 0 100 10 0; mkWatcher [7] 3 1 7 1 100 5 0; mkWatcher [8] 4 1 8 2 0 0 0; mkWatcher [] 0 0 0 0 0 0 0],
          sample_memory, [(7, 1, 0, [5; 6]); (7, 3, 1, [7]); (8, 4, 2, [8])], 0).
Proof.
  split; [|vm_compute; reflexivity].
  repeat constructor; try discriminate; try (vm_compute; reflexivity); try (vm_compute; discriminate); cbn; auto.
Qed.

(** Processing at a later time and clearing: the watcher whose delay has not passed yet is called within the callback of
    the first. *)
Definition sample_later (c _ _ : Z) (m : list Z) : body :=
  if c =? 7 then Process m 200 (fun m _ => Clear m 201 (fun m => Return m)) else Return m.

Example watch_nested_once_example :
  let ws := [mkWatcher [5; 6] 1 2 7 0 100 10 1; mkWatcher [7] 3 1 7 1 105 50 1; mkWatcher [0] 4 1 8 2 0 0 0] in
  Forall (fun x => ready (zlen sample_memory) x /\ observes (0 <? delay x) sample_memory (sample_later (cb x) (current x) (data x) sample_memory)) ws /\
  exists l, process_changes 32 64 sample_later 3 (ws ++ [mkWatcher [] 0 0 0 0 0 0 0]) sample_memory 110
  = Done (l, sample_memory, [(7, 1, 0, [5; 6]); (7, 3, 1, [7]); (8, 4, 2, [8])], 0).
Proof.
  cbv zeta. split; [|eexists; vm_compute; reflexivity].
  repeat constructor; try discriminate; try (vm_compute; reflexivity); try (vm_compute; discriminate); cbn; auto.
Qed.

(** C160 is false: an immediate watcher whose callback processes the list.  The bytes are remembered only when the callback
    has returned, so the same change is found again, and so on without end. *)
Theorem watch_nested_ends_refuted : exists I L behave l m now, 
  Forall (ready (zlen m)) (removelast l) /\ current (last l (mkWatcher [] 1 0 0 0 0 0 0)) = 0 /\
  (forall c a d m, exists now, behave c a d m = Process m now (fun m _ => Return m)) /\
  forall fuel, process_changes I L behave fuel l m now = Timeout.
Proof.
  exists 32, 64, (fun _ _ _ m => Process m 0 (fun m _ => Return m)),
    [mkWatcher [0] 1 1 7 0 0 0 0; mkWatcher [] 0 0 0 0 0 0 0], [0; 5], 0.
  assert (Hr : ready (zlen [0; 5]) (mkWatcher [0] 1 1 7 0 0 0 0)) by (unfold ready, fits, roomy; cbn; lia).
  split; [constructor; [exact Hr|constructor]|]. split; [reflexivity|]. split; [intros; eexists; reflexivity|].
  intros fuel. apply (endless_l 32 64 _ (mkWatcher [0] 1 1 7 0 0 0 0) [0; 5] Hr) with (a := []).
  - vm_compute. discriminate.
  - reflexivity.
  - do 2 eexists. reflexivity.
  - constructor.
  - constructor.
  - repeat split.
  - reflexivity.
Qed.
Print Assumptions watch_nested_ends_refuted.

(** C160 fails wherever the first watcher with news is an immediate one whose callback begins with processing the list. *)
Theorem watch_nested_endless_refuted : forall I L behave x m, ready (zlen m) x -> stale m x -> delay x = 0 ->
  processes_first (behave (cb x) (current x) (data x) m) m ->
  forall fuel a b now, Forall (ready (zlen m)) a -> Forall (idle m) a ->
  process_changes I L behave fuel (a ++ x :: b) m now = Timeout.
Proof.
  intros I L behave x m H1 H2 H3 H4 fuel a b now H5 H6.
  exact (endless_l I L behave x m H1 H2 H3 H4 fuel a b [] now H5 H6 x (static_refl x) eq_refl).
Qed.
Print Assumptions watch_nested_endless_refuted.

(** C160 where the callbacks of immediate watchers do not process the list and none writes the memory or triggers.  Missing:
    the others; it is false for immediate ones. *)
Theorem watch_nested_ends_partial : forall I L behave m z rest, current z = 0 -> forall ws now fuel,
  Forall (fun x => ready (zlen m) x /\ observes (0 <? delay x) m (behave (cb x) (current x) (data x) m)) ws ->
  (length ws <= fuel)%nat ->
  exists l cs res, process_changes I L behave fuel (ws ++ z :: rest) m now = Done (l, m, cs, res).
Proof.
  intros I L behave m z rest Hz ws now fuel Hws Hf.
  destruct (once_l I L behave m z rest Hz ws now fuel Hws Hf) as (ws' & cs & res & idx & E & _). eauto.
Qed.
Print Assumptions watch_nested_ends_partial.

(** C161 is false: the processing in the callback of the first watcher reports the change of the second, the outer one finds
    none. *)
Theorem watch_nested_result_refuted : exists behave ws z m now l cs, current z = 0 /\ Forall (ready (zlen m)) ws /\
  Forall (fun x => visits (0 <? delay x) now m (behave (cb x) (current x) (data x) m)) ws /\
  Exists (stale m) ws /\ process_changes 32 64 behave 3 (ws ++ [z]) m now = Done (l, m, cs, 0).
Proof.
  exists (sample_behave 110), (firstn 3 sample_list), (mkWatcher [] 0 0 0 0 0 0 0), sample_memory, 110. do 2 eexists.
  split; [reflexivity|].
  split; [repeat constructor; try discriminate; vm_compute; try reflexivity; discriminate|].
  split; [repeat constructor; cbn; auto|].
  split; [|vm_compute; reflexivity].
  apply Exists_cons_tl, Exists_cons_tl, Exists_cons_hd. vm_compute. discriminate.
Qed.
Print Assumptions watch_nested_result_refuted.

(** C161: the result 1 is right.  Missing: the result 0, which is right when no callback uses the list ([watch_nested_plain],
    C90). *)
Theorem watch_nested_result_partial : forall I L m now, 0 < L -> forall behave z rest, current z = 0 ->
  forall ws, Forall (ready (zlen m)) ws -> Forall (fun x => 0 <= delay x < 2 ^ (L - 1)) ws ->
  Forall (fun x => visits (0 <? delay x) now m (behave (cb x) (current x) (data x) m)) ws ->
  forall fuel, (length ws <= fuel)%nat -> exists l cs res,
    process_changes I L behave fuel (ws ++ z :: rest) m now = Done (l, m, cs, res) /\
    (res = 0 \/ res = 1) /\ (res = 1 -> Exists (stale m) ws).
Proof.
  intros I L m now HL behave z rest Hz ws H1 H2 H3 fuel Hf.
  destruct (same_l I L m now HL behave z rest Hz ws H1 H2 H3 fuel Hf) as (l & cs & res & res' & _ & E & Hr).
  exists l, cs, res'. split; [exact E|]. destruct Hr as [->|(-> & _ & Hr)]; split; auto. discriminate.
Qed.
Print Assumptions watch_nested_result_partial.
