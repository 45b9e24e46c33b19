(** Properties C16-C20, C128: the debounce filter with [W] inputs.

    [dhistory W d f v h]: a filter in memory [f] is initialised, set to the word [v]
    ([v] = 0 is what initialisation leaves), and then receives the calls [h], all with
    the debounce argument [d]. *)
From Verif Require Import Base BaseLemmas DebounceModel DebounceSpec DebounceSystem DebounceProofs DebounceVaryProofs.

(** All histories are free of undefined behaviour. *)
Theorem debounce_defined : forall W d, 0 <= d < 2 ^ (Z.of_nat W - 1) ->
  forall f v h, length (debounce_count f) = W -> 0 <= v < 2 ^ Z.of_nat W ->
  Forall (dop_ok W) h -> exists f', dhistory W d f v h = Done f'.
Proof. exact defined_l. Qed.
Print Assumptions debounce_defined.

(** Initialisation alone: every reading is 0, and a history after it is one started at 0. *)
Theorem debounce_init : forall W f, length (debounce_count f) = W ->
  exists f', debounce_filter_init W f = Done f' /\ debounce_value f' = 0 /\
    (forall i, 0 <= i < Z.of_nat W -> debounce_read W f' i = 0) /\
    forall d h, drun W d f' h = dhistory W d f 0 h.
Proof. exact init_l. Qed.
Print Assumptions debounce_init.

(** C16: a change of the reading of input [i] by a call [o] is preceded by calls whose samples
    of input [i], together with that of [o], are d+1 times the new level, and before each
    of which the reading was the old level. *)
Theorem debounce_change_needs_run : forall W d, 0 <= d < 2 ^ (Z.of_nat W - 1) ->
  forall f v h o i f1 f2, length (debounce_count f) = W -> 0 <= v < 2 ^ Z.of_nat W ->
  Forall (dop_ok W) (h ++ [o]) -> Forall (fun o => is_set o = false) (h ++ [o]) -> 0 <= i < Z.of_nat W ->
  dhistory W d f v h = Done f1 -> dhistory W d f v (h ++ [o]) = Done f2 ->
  debounce_read W f1 i <> debounce_read W f2 i ->
  exists pre suf b, h = pre ++ suf /\ debounce_read W f2 i = b2z b /\
    samples i (suf ++ [o]) = repeat b (Z.to_nat d + 1) /\
    forall mid rest, suf = mid ++ rest ->
      exists f', dhistory W d f v (pre ++ mid) = Done f' /\ debounce_read W f' i = b2z (negb b).
Proof. exact change_l. Qed.
Print Assumptions debounce_change_needs_run.

(** C17: d+1 equal consecutive samples are accepted, whatever happened before. *)
Theorem debounce_accepts : forall W d, 0 <= d < 2 ^ (Z.of_nat W - 1) ->
  forall f v h hs i b f', length (debounce_count f) = W -> 0 <= v < 2 ^ Z.of_nat W ->
  Forall (dop_ok W) (h ++ hs) -> Forall (fun o => is_set o = false) hs -> 0 <= i < Z.of_nat W ->
  samples i hs = repeat b (Z.to_nat d + 1) ->
  dhistory W d f v (h ++ hs) = Done f' -> debounce_read W f' i = b2z b.
Proof. exact accept_l. Qed.
Print Assumptions debounce_accepts.

Definition mem : dfilter := mkDf 77 12 (repeat 5 32).

Example debounce_example :
  let h := [DFilter 6; DFilter 2; DSingle 1 7] in
  length (debounce_count mem) = 32%nat /\
  Forall (dop_ok 32) h /\ samples 1 h = repeat true (Z.to_nat 2 + 1) /\
  (do f <- dhistory 32 2 mem 0 [DFilter 6; DFilter 2]; Done (debounce_value f)) = Done 0 /\
  (do f <- dhistory 32 2 mem 0 h; Done (debounce_value f)) = Done 2.
Proof.
  split; [reflexivity|]. split; [repeat constructor; cbn; lia|]. repeat split; vm_compute; reflexivity.
Qed.

(** C18: the returned mask is the set of changed readings; the two ways of reading agree. *)
Theorem debounce_mask : forall W d, 0 <= d < 2 ^ (Z.of_nat W - 1) ->
  forall f v h o f1, length (debounce_count f) = W -> 0 <= v < 2 ^ Z.of_nat W ->
  Forall (dop_ok W) (h ++ [o]) -> is_set o = false -> dhistory W d f v h = Done f1 ->
  exists f2 m, dcall W d f1 o = Done (f2, m) /\ dhistory W d f v (h ++ [o]) = Done f2 /\
    m = Z.lxor (debounce_value f1) (debounce_value f2) /\
    0 <= debounce_value f2 < 2 ^ Z.of_nat W /\
    forall i, 0 <= i -> debounce_read W f2 i = if i <? Z.of_nat W then b2z (Z.testbit (debounce_value f2) i) else -1.
Proof. exact mask_l. Qed.
Print Assumptions debounce_mask.

Example debounce_mask_example :
  (do f <- dhistory 32 0 mem 5 []; dcall 32 0 f (DFilter 6)) = Done (mkDf 6 6 (repeat 0 32), 3).
Proof. vm_compute. reflexivity. Qed.

(** C19: what happens on input [i] depends on input [i] only. *)
Theorem debounce_independent : forall W d, 0 <= d < 2 ^ (Z.of_nat W - 1) ->
  forall f g v u h k i f' g', length (debounce_count f) = W -> length (debounce_count g) = W ->
  0 <= v < 2 ^ Z.of_nat W -> 0 <= u < 2 ^ Z.of_nat W -> Forall (dop_ok W) h -> Forall (dop_ok W) k ->
  0 <= i < Z.of_nat W -> Z.testbit v i = Z.testbit u i -> channel i h = channel i k ->
  dhistory W d f v h = Done f' -> dhistory W d g u k = Done g' ->
  debounce_read W f' i = debounce_read W g' i.
Proof. exact independent_l. Qed.
Print Assumptions debounce_independent.

Example debounce_independent_example :
  channel 1 [DFilter 6; DSingle 0 1; DFilter 1] = channel 1 [DFilter 2; DSingle 1 0].
Proof. reflexivity. Qed.

(** C20 refuted: with d = 1, a set in the middle of a run of contrary samples leaves the run
    pending, and the first contrary sample after it changes the reading. *)
Theorem debounce_set_refuted : exists f h x o i f1 f2,
  length (debounce_count f) = 32%nat /\ Forall (dop_ok 32) (h ++ [DSet x; o]) /\ 0 <= i < 32 /\
  dhistory 32 1 f 0 (h ++ [DSet x]) = Done f1 /\ dhistory 32 1 f 0 (h ++ [DSet x; o]) = Done f2 /\
  debounce_read 32 f1 i <> debounce_read 32 f2 i.
Proof.
  exists mem, [DFilter 1], 0, (DFilter 1), 0.
  eexists. eexists. split; [reflexivity|]. split; [repeat constructor; cbn; lia|]. split; [lia|].
  split; [vm_compute; reflexivity|]. split; [vm_compute; reflexivity|]. vm_compute. congruence.
Qed.
Print Assumptions debounce_set_refuted.

(** C20: the readings are the set word at once; a channel that agreed with its reading in the
    call before the set behaves as a freshly started one; and (C17) never more than d+1
    samples are needed. *)
Theorem debounce_set_value : forall W d f v h x f', 0 <= x -> length (debounce_count f) = W -> 0 <= v < 2 ^ Z.of_nat W ->
  Forall (dop_ok W) h -> dhistory W d f v (h ++ [DSet x]) = Done f' -> debounce_value f' = x.
Proof. exact set_value_l. Qed.
Print Assumptions debounce_set_value.

Theorem debounce_set_partial : forall W d, 0 <= d < 2 ^ (Z.of_nat W - 1) ->
  forall f v h o x h2 i b f0 f1 f2, length (debounce_count f) = W -> 0 <= v < 2 ^ Z.of_nat W ->
  Forall (dop_ok W) (h ++ [o; DSet x] ++ h2) -> 0 <= i < Z.of_nat W ->
  events i o = [Sample b] -> dhistory W d f v h = Done f0 -> debounce_read W f0 i = b2z b ->
  dhistory W d f v (h ++ [o; DSet x] ++ h2) = Done f1 -> dhistory W d f x h2 = Done f2 ->
  debounce_read W f1 i = debounce_read W f2 i.
Proof. exact set_fresh_l. Qed.
Print Assumptions debounce_set_partial.

(** C128: every history, each call with its own debounce argument (negative ones too) and
    sets at any moment: no call fails, each input is exactly the automaton [sampled], and a
    call returns the set of the inputs it changed. *)
Theorem debounce_exact : forall W f v h,
  length (debounce_count f) = W -> 0 <= v < 2 ^ Z.of_nat W -> Forall (vop_ok W) h ->
  exists f', vhistory W f v h = Done f' /\
    (forall i, 0 <= i < Z.of_nat W -> debounce_read W f' i = b2z (reading (vinput W v i h)) /\
       Z.testbit (debounce_value f') i = reading (vinput W v i h)) /\
    forall o, vop_ok W o -> is_vset o = false -> exists f2,
      vcall W f' o = Done (f2, Z.lxor (debounce_value f') (debounce_value f2)) /\
      vhistory W f v (h ++ [o]) = Done f2.
Proof. exact vary_l. Qed.
Print Assumptions debounce_exact.

(** A run begun with argument 2 keeps its length although the next calls pass 0 and 7. *)
Example debounce_exact_example :
  let h := [VFilter 1 2; VSet 4; VSingle 0 1 0] in
  Forall (vop_ok 32) h /\
  map (fun i => vinput 32 0 i h) [0; 2] = [mkInput false 1; mkInput true 0] /\
  map (fun i => reading (vinput 32 0 i (h ++ [VFilter 5 7]))) [0; 2] = [true; true] /\
  (do f <- vhistory 32 mem 0 (h ++ [VFilter 5 7]); Done (debounce_value f)) = Done 5 /\
  reading (vinput 32 0 0 [VFilter 1 (-1); VFilter 1 0]) = false.
Proof. cbv zeta. split; [repeat constructor; cbn; lia|]. vm_compute. auto. Qed.
