(** Properties C21-C22, C129: the pulse counter with [W] inputs, initialised in memory [p]. *)
From Coq Require Import ZifyBool.
From Verif Require Import Base BaseLemmas PulseModel PulseSpec PulseSystem PulseProofs PulseVaryProofs.
From Verif Require Import DebounceSpec.

(** C21: in memory whose filter cells are zero, level and count of every input over every
    history of filter and clear calls. *)
Theorem pulse_counts_edges : forall W d, 0 <= d < 2 ^ Z.of_nat W ->
  forall high p init h i, mem_ok W p -> Forall (fun c => c = 0) (filters p) ->
  0 <= init < 2 ^ Z.of_nat W -> 0 <= i < Z.of_nat W ->
  exists p', phistory W d p high init h = Done p' /\
    let r := pulse_ref high d init i h in
    pulse_level W p' i = b2z (fst (fst r)) /\ pulse_count W p' i = Done (swrap (Z.of_nat W) (snd r)).
Proof.
  intros W d Hd high p init h i Hm Hz Hin Hi. apply pulse_counts_l; try assumption. left.
  rewrite Forall_forall in Hz. destruct Hm as (M1 & _). apply Hz. apply nth_In. lia.
Qed.
Print Assumptions pulse_counts_edges.

(** C21: a filter call returns 1 iff it counted an edge on some input. *)
Theorem pulse_return : forall W d, 0 <= d < 2 ^ Z.of_nat W ->
  forall high p init h x, mem_ok W p -> 0 <= init < 2 ^ Z.of_nat W -> Forall (fun c => c = 0) (filters p) ->
  exists p1 p2, phistory W d p high init h = Done p1 /\
    pulse_filter W p1 x d = Done (p2, b2z (any_edge W high d init h x)).
Proof. exact pulse_return_l. Qed.
Print Assumptions pulse_return.

(** C21: indices outside the inputs are refused. *)
Theorem pulse_bounds : forall W p i, i < 0 \/ Z.of_nat W <= i ->
  pulse_level W p i = -1 /\ pulse_count W p i = Done (-1) /\ pulse_clear W p i = Done p.
Proof.
  intros W p i Hi. unfold pulse_level, pulse_count, pulse_clear, PULSE_NUM.
  replace ((i <? 0) || (Z.of_nat W <=? i)) with true by lia. auto.
Qed.
Print Assumptions pulse_bounds.

Definition pmem : pfilter := mkPf COUNT_LOW_PULSE 3 (repeat 0 32) (repeat 9 32).

Example pulse_example :
  let h := [PFilter 1; PFilter 1; PFilter 0; PFilter 1; PFilter 0; PFilter 0] in
  mem_ok 32 pmem /\ Forall (fun c => c = 0) (filters pmem) /\
  pulse_ref true 1 0 0 h = (false, 0, 1) /\
  (do p <- phistory 32 1 pmem true 0 h; pulse_count 32 p 0) = Done 1 /\
  any_edge 32 true 1 0 [PFilter 1; PFilter 1; PFilter 0] 0 = true.
Proof.
  cbv zeta. split; [split; [reflexivity|]; split; [reflexivity|]; apply Forall_forall; intros x Hx; apply repeat_spec in Hx; subst; lia|].
  split; [apply Forall_forall; intros x Hx; now apply repeat_spec in Hx|].
  repeat split; vm_compute; reflexivity.
Qed.

(** C22 refuted: with a stale 1 in the filter cell and d = 5, the first contrary sample after
    initialisation is counted at once. *)
Theorem pulse_init_refuted : exists p h p1 p2, mem_ok 32 p /\
  phistory 32 5 p false 0 h = Done p1 /\
  phistory 32 5 (mkPf (ptype p) (pold p) (repeat 0 32) (pcount p)) false 0 h = Done p2 /\
  pulse_count 32 p1 0 <> pulse_count 32 p2 0.
Proof.
  exists (mkPf COUNT_LOW_PULSE 3 (repeat 1 32) (repeat 9 32)), [PFilter 1].
  eexists. eexists. split.
  - split; [reflexivity|]. split; [reflexivity|]. apply Forall_forall. intros x Hx. apply repeat_spec in Hx. subst. lia.
  - split; [vm_compute; reflexivity|]. split; [vm_compute; reflexivity|]. vm_compute. congruence.
Qed.
Print Assumptions pulse_init_refuted.

(** C22 on an input whose filter cell was zero, or whose first sample agrees with the initial
    level: everything is as specified from arbitrary memory. *)
Theorem pulse_init_partial : forall W d, 0 <= d < 2 ^ Z.of_nat W ->
  forall high p init h i, mem_ok W p -> 0 <= init < 2 ^ Z.of_nat W -> 0 <= i < Z.of_nat W ->
  (nth (Z.to_nat i) (filters p) 0 = 0 \/
   exists x h', h = PFilter x :: h' /\ Z.testbit x i = Z.testbit init i) ->
  exists p', phistory W d p high init h = Done p' /\
    let r := pulse_ref high d init i h in
    pulse_level W p' i = b2z (fst (fst r)) /\ pulse_count W p' i = Done (swrap (Z.of_nat W) (snd r)).
Proof. exact pulse_counts_l. Qed.
Print Assumptions pulse_init_partial.

(** C129: every history from any memory, each call with its own debounce argument. *)
Theorem pulse_exact : forall W high p init h, mem_ok W p -> 0 <= init < 2 ^ Z.of_nat W ->
  exists p', vphistory W p high init h = Done p' /\
    (forall i, 0 <= i < Z.of_nat W ->
       let r := vpulse W high init (nth (Z.to_nat i) (filters p) 0) i h in
       pulse_level W p' i = b2z (reading (fst r)) /\ pulse_count W p' i = Done (swrap (Z.of_nat W) (snd r))) /\
    forall x d, exists p2,
      pulse_filter W p' x d = Done (p2, b2z (some_pulse W high init (filters p) h x d)) /\
      vphistory W p high init (h ++ [VPFilter x d]) = Done p2.
Proof. exact pulse_vary_l. Qed.
Print Assumptions pulse_exact.

(** Input 0 starts with a stale count of 2, input 1 with none. *)
Example pulse_exact_example :
  let p := mkPf COUNT_LOW_PULSE 3 (2 :: repeat 0 31) (repeat 9 32) in
  let h := [VPFilter 3 1; VPFilter 3 5; VPFilter 2 0; VPFilter 2 0] in
  mem_ok 32 p /\ vpulse 32 false 0 2 0 h = (mkInput false 0, 1) /\ vpulse 32 false 0 0 1 h = (mkInput true 0, 1) /\
  (do p' <- vphistory 32 p false 0 h; pulse_count 32 p' 0) = Done 1 /\
  some_pulse 32 false 0 (filters p) [VPFilter 3 1] 3 0 = true.
Proof.
  cbv zeta. split; [|vm_compute; auto]. split; [reflexivity|]. split; [reflexivity|].
  cbn [filters]. constructor; [lia|]. apply Forall_forall. intros x Hx. apply repeat_spec in Hx. subst. lia.
Qed.
