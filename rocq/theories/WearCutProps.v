(** Theorems about power failures that damage markers (gel/wearleveling/wearleveling.c). *)
From Verif Require Import Base WearModel WearSpec WearSystem WearCutSpec WearCutSystem WearCutProofs.

(** C164: whatever power failures leave in the blocks being written and in their markers, the data of the last complete
    write are read, or what is in the block of an interrupted one if its marker got its final value; as long as the last
    block is not active when the device starts again. *)
Theorem wear_cut : forall N B, 0 < N < 256 -> 0 < B < 2 ^ 64 ->
  forall c d h, 0 <= c < 256 -> dev_ok N B d -> erased c d -> Forall (kop_ok B) h ->
  let d0 := nth 0 (blocks d) [] in
  starts_ok N c (d0, 0) h ->
  kread B N d h = Done (0, fst (kstate c d0 h)).
Proof. exact wear_cut_l. Qed.
Print Assumptions wear_cut.

(** Four erased blocks.  A write is interrupted with a wrong marker, then one with the old marker, a third with data and
    marker complete. *)
Definition dev4 : device := mkDev [255; 255; 255; 255] [[0; 0]; [0; 0]; [0; 0]; [0; 0]] [].
Definition cut_history : list kop :=
  [KWrite [1; 1]; KCut [2; 2] [2; 1] 77; KCut [3; 3] [3; 0] 255; KCut [4; 4] [4; 4] 1; KWrite [5; 5]; KWrite [6; 6]; KRestart; KWrite [7; 7]].
Example wear_cut_example :
  dev_ok 4 2 dev4 /\ erased 255 dev4 /\ Forall (kop_ok 2) cut_history /\ starts_ok 4 255 ([0; 0], 0) cut_history /\
  kread 2 4 dev4 cut_history = Done (0, [7; 7]) /\
  kread 2 4 dev4 (firstn 3 cut_history) = Done (0, [1; 1]) /\ kread 2 4 dev4 (firstn 4 cut_history) = Done (0, [4; 4]).
Proof.
  split; [split; [reflexivity|]; split; [repeat constructor; lia|]; split; [reflexivity|repeat constructor]|].
  split; [repeat constructor|]. split; [repeat constructor; cbn; lia|].
  split; [repeat split; vm_compute; discriminate|]. repeat split; vm_compute; reflexivity.
Qed.

(** C165 is false: a device that stores the marker before the data. *)
Theorem wear_any_order_refuted : exists N B c d h x g m, 0 < N < 256 /\ 0 <= c < 256 /\ dev_ok N B d /\ erased c d /\
  Forall (kop_ok B) (h ++ [KCut x g m]) /\ starts_ok N c (nth 0 (blocks d) [], 0) (h ++ [KCut x g m]) /\
  exists old r, kread B N d h = Done (0, old) /\ kread B N d (h ++ [KCut x g m]) = Done (0, r) /\ r <> old /\ r <> x.
Proof.
  exists 4, 2, 255, dev4, [KWrite [1; 1]], [2; 2], [2; 0], 1. split; [lia|]. split; [lia|].
  split; [apply wear_cut_example|]. split; [apply wear_cut_example|]. split; [repeat constructor; cbn; lia|].
  split; [repeat split; vm_compute; discriminate|]. exists [1; 1], [2; 0].
  split; [vm_compute; reflexivity|]. split; [vm_compute; reflexivity|]. split; discriminate.
Qed.
Print Assumptions wear_any_order_refuted.

(** C165 for devices that store the marker after the data, even if the marker passes through other values.  Missing: the
    others, for which it is false, and starts with the last block active. *)
Theorem wear_any_order_partial : forall N B, 0 < N < 256 -> 0 < B < 2 ^ 64 ->
  forall c d h x g m, 0 <= c < 256 -> dev_ok N B d -> erased c d -> Forall (kop_ok B) (h ++ [KCut x g m]) ->
  let d0 := nth 0 (blocks d) [] in
  starts_ok N c (d0, 0) (h ++ [KCut x g m]) -> in_order c (kstate c d0 h) x g m ->
  exists old, kread B N d h = Done (0, old) /\
    (kread B N d (h ++ [KCut x g m]) = Done (0, old) \/ kread B N d (h ++ [KCut x g m]) = Done (0, x)).
Proof.
  intros N B HN HB c d h x g m Hc Hd He Hok d0 Hs Ho.
  assert (HS : starts_ok N c (d0, 0) h).
  { revert Hs. generalize (d0, 0). clear. induction h as [|o h IH]; intros s H; [exact I|]. destruct H as [H1 H2]. split; [exact H1|]. now apply IH. }
  exists (fst (kstate c d0 h)). split; [apply (wear_cut_l N B HN HB); try assumption; now apply Forall_app in Hok|].
  rewrite (wear_cut_l N B HN HB c d (h ++ [KCut x g m])) by assumption. fold d0. unfold kstate. rewrite fold_left_app.
  fold (kstate c d0 h). cbn [fold_left kstep]. destruct (same x (fst (kstate c d0 h))); [now left|].
  destruct (Z.eqb_spec m ((c + (snd (kstate c d0 h) + 1)) mod 256)) as [E|E]; [right|now left]. cbn [fst]. now rewrite (Ho E).
Qed.
Print Assumptions wear_any_order_partial.
