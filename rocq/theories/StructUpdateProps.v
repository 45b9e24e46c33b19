(** Properties C95, C111 and C112: struct updates. *)
From Verif Require Import Base BaseLemmas StructUpdateModel StructUpdateSpec StructUpdateSystem StructUpdateProofs.

(** C95, C111: on every history of making, applying and freeing updates and writing the variables, wherever malloc puts
    the blocks, the variables are those of the specification, where an update holds the bytes it was made of; and
    there is one live block per update not freed. *)
Theorem update_history : forall m s ops m' us', boot m s -> all_allowed s ops -> urun m [] ops m' us' -> agrees m' us' (steps s ops).
Proof. exact history_l. Qed.
Print Assumptions update_history.

(** Every allowed operation is defined. *)
Theorem update_defined : forall m s ops m' us' o p, boot m s -> all_allowed s (ops ++ [o]) -> urun m [] ops m' us' ->
  (forall off src n, o = OMake off src n -> vacant m' p n) -> exists m'' us'', urun1 m' us' o (Some p) = Done (m'', us'').
Proof. exact progress_l. Qed.
Print Assumptions update_defined.

(** An update just freed can be neither applied nor freed. *)
Theorem update_after_free : forall m s ops i m' us' p, boot m s -> all_allowed s (ops ++ [OFree i]) -> urun m [] (ops ++ [OFree i]) m' us' ->
  (forall dest, urun1 m' us' (OApply dest i) p = Undef) /\ urun1 m' us' (OFree i) p = Undef.
Proof. exact after_free_l. Qed.
Print Assumptions update_after_free.

(** C95: updates of disjoint fields commute, on the whole memory. *)
Theorem update_commutes : forall m s ops m' us' dest1 i off1 d1 dest2 j off2 d2 p q p' q', boot m s -> all_allowed s ops -> urun m [] ops m' us' ->
  nth_error (updates (steps s ops)) i = Some (Some (off1, d1)) -> nth_error (updates (steps s ops)) j = Some (Some (off2, d2)) ->
  within (vars (steps s ops)) (dest1 + off1) (zlen d1) -> within (vars (steps s ops)) (dest2 + off2) (zlen d2) ->
  (dest1 + off1 + zlen d1 <= dest2 + off2 \/ dest2 + off2 + zlen d2 <= dest1 + off1) ->
  exists m1 m2 m3, urun1 m' us' (OApply dest1 i) p = Done (m1, us') /\ urun1 m1 us' (OApply dest2 j) q = Done (m3, us') /\
    urun1 m' us' (OApply dest2 j) p' = Done (m2, us') /\ urun1 m2 us' (OApply dest1 i) q' = Done (m3, us').
Proof. exact commute_l. Qed.
Print Assumptions update_commutes.

(** Without memory malloc returns NULL and making the update is undefined. *)
Theorem update_no_memory : forall m off src sz, struct_update_from_data m None off src sz = Undef.
Proof. reflexivity. Qed.
Print Assumptions update_no_memory.

(** Two structures at 0..3 and 4..7, a variable at 8..9; blocks at 12 and 10, and 12 again after it was freed. *)
Definition mem0 := mkMemory [1; 2; 3; 4; 5; 6; 7; 8; 50; 60; 0; 0; 0; 0; 0] 10 [].
Definition ops0 := [OMake 1 8 2; OStore 8 [70; 80]; OMake 0 9 1; OApply 0 0; OApply 4 0; OFree 0; OMake 3 0 3; OApply 0 1; OFree 1; OFree 2].

Example update_example : boot mem0 (mkState [1; 2; 3; 4; 5; 6; 7; 8; 50; 60] []) /\
  all_allowed (mkState [1; 2; 3; 4; 5; 6; 7; 8; 50; 60] []) ops0 /\
  vars (steps (mkState [1; 2; 3; 4; 5; 6; 7; 8; 50; 60] []) ops0) = [80; 50; 60; 4; 5; 50; 60; 8; 70; 80] /\
  exists m' us', urun mem0 [] ops0 m' us' /\ variables m' = [80; 50; 60; 4; 5; 50; 60; 8; 70; 80] /\ blocks m' = [].
Proof.
  split; [unfold boot, zlen; cbn; repeat split; lia|].
  split; [unfold ops0; cbn -[within step]; repeat match goal with |- _ /\ _ => split | |- exists _, _ => eexists end;
    try (vm_compute; reflexivity); try exact I; try lia; unfold within; repeat split; vm_compute; discriminate|].
  split; [reflexivity|]. do 2 eexists.
  split.
  { unfold ops0.
    apply urun_cons with (p := 12) (m1 := mkMemory [1; 2; 3; 4; 5; 6; 7; 8; 50; 60; 0; 0; 50; 60; 0] 10 [(12, 2)]) (us1 := [mkUpdate 1 12 2]);
      [intros ? ? ? E; injection E as <- <- <-; unfold vacant, zlen; cbn; repeat split; try lia; constructor|reflexivity|].
    eapply urun_cons with (p := 0); [discriminate|vm_compute; reflexivity|].
    eapply urun_cons with (p := 10); [intros ? ? ? E; injection E as <- <- <-; unfold vacant, zlen; cbn; split; [lia|split; [lia|split; [lia|apply Forall_cons; [lia|apply Forall_nil]]]]|vm_compute; reflexivity|].
    do 3 (eapply urun_cons with (p := 0); [discriminate|vm_compute; reflexivity|]).
    eapply urun_cons with (p := 12); [intros ? ? ? E; injection E as <- <- <-; unfold vacant, zlen; cbn; split; [lia|split; [lia|split; [lia|apply Forall_cons; [lia|apply Forall_nil]]]]|vm_compute; reflexivity|].
    do 3 (eapply urun_cons with (p := 0); [discriminate|vm_compute; reflexivity|]). apply urun_nil. }
  split; reflexivity.
Qed.

(** C112 is false: the argument [length] is not in parentheses.  Three elements of 4 bytes, written 2 + 1: 9 bytes;
    7 elements halved, written 7 / 2: 14 bytes. *)
Theorem update_array_refuted : exists m p off arr elem len L m' u, value (TParen len) = Some L /\
  STRUCT_UPDATE_ARRAY m (Some p) off arr elem len = Done (m', u) /\ vacant m p (elem * L) /\ size u < elem * L.
Proof.
  exists (mkMemory (repeat 1 40) 20 []), 20, 0, 0, 4, [TVal 2; TPlus; TVal 1], 3. do 2 eexists.
  split; [reflexivity|]. split; [vm_compute; reflexivity|]. split; [unfold vacant, zlen; cbn; repeat split; try lia; constructor|cbn; lia].
Qed.
Print Assumptions update_array_refuted.

(** More bytes than the array has. *)
Theorem update_array_overrun_refuted : exists m p off arr elem len L, value (TParen len) = Some L /\
  vacant m p (elem * L) /\ accessible m arr (elem * L) = true /\
  STRUCT_UPDATE_ARRAY m (Some p) off arr elem len = Undef.
Proof.
  exists (mkMemory (repeat 1 40) 12 []), 12, 0, 0, 4, [TVal 7; TSlash; TVal 2], 3.
  split; [reflexivity|]. split; [unfold vacant, zlen; cbn; repeat split; try lia; constructor|]. split; vm_compute; reflexivity.
Qed.
Print Assumptions update_array_overrun_refuted.

(** C112 for lengths that are a number, an identifier, something in parentheses, or a product of those.  Missing: the others,
    for which it is false. *)
Theorem update_array_partial : forall m p off arr elem len L, product len -> value (TParen len) = Some L -> 0 <= elem * L < 2 ^ 64 ->
  STRUCT_UPDATE_ARRAY m p off arr elem len = struct_update_from_data m p off arr (elem * L).
Proof. exact array_l. Qed.
Print Assumptions update_array_partial.

(** C112 exactly, for sums and differences: only the first product [first] is counted in elements, the rest in bytes. *)
Theorem update_array_sum_partial : forall m p off arr elem first op rest F L, product first -> (op = TPlus \/ op = TMinus) ->
  value (TParen first) = Some F -> value (TParen (first ++ op :: rest)) = Some L ->
  STRUCT_UPDATE_ARRAY m p off arr elem (first ++ op :: rest)
  = struct_update_from_data m p off arr ((L + (elem - 1) * F) mod 2 ^ 64).
Proof. exact array_sum_l. Qed.
Print Assumptions update_array_sum_partial.

(** C112 exactly, for a quotient: the bytes are divided and not the elements. *)
Theorem update_array_quotient_partial : forall m p off arr elem first d F v, product first -> primary d -> value d = Some v -> v <> 0 ->
  value (TParen first) = Some F -> 0 <= elem * F < 2 ^ 64 -> 0 <= v ->
  STRUCT_UPDATE_ARRAY m p off arr elem (first ++ [TSlash; d]) = struct_update_from_data m p off arr (elem * F / v).
Proof. exact array_div_l. Qed.
Print Assumptions update_array_quotient_partial.

Example update_array_sum_example : forall m p off arr,
  STRUCT_UPDATE_ARRAY m p off arr 4 [TVal 3; TStar; TVal 2; TMinus; TVal 7; TSlash; TVal 2] = struct_update_from_data m p off arr 21 /\
  STRUCT_UPDATE_ARRAY m p off arr 4 [TVal 3; TStar; TVal 3; TSlash; TVal 2] = struct_update_from_data m p off arr 18.
Proof.
  intros m p off arr. split.
  - apply (update_array_sum_partial m p off arr 4 [TVal 3; TStar; TVal 2] TMinus [TVal 7; TSlash; TVal 2] 6 3);
      [repeat constructor|now right|reflexivity|reflexivity].
  - apply (update_array_quotient_partial m p off arr 4 [TVal 3; TStar; TVal 3] (TVal 2) 9 2);
      [repeat constructor|exact I|reflexivity|lia|reflexivity|lia|lia].
Qed.

Example update_array_example :
  product [TParen [TVal 2; TPlus; TVal 1]; TStar; TVal 2] /\ value (TParen [TParen [TVal 2; TPlus; TVal 1]; TStar; TVal 2]) = Some 6 /\
  value (TParen [TVal 20; TMinus; TVal 7; TSlash; TVal 2; TStar; TVal 3; TPlus; TVal 5; TPercent; TVal 3]) = Some 13.
Proof. split; [repeat constructor|]. split; reflexivity. Qed.
