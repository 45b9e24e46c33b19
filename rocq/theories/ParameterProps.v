(** Parameters: theorems for C76-C86, C102, C103, C107, C108 and C115-C118. *)
From Verif Require Import FloatSpec Base BaseLemmas Float ParameterModel ParameterSpec ParameterProofs ParameterExactProofs ParameterTableProofs
  ParameterFloatProofs.
From Coq Require Import Floats.SpecFloat.

Ltac by_bytes :=
  let i := fresh "i" in let H := fresh "H" in intros i H;
  match type of H with 0 <= _ < ?n => let n' := eval vm_compute in n in change n with n' in H end;
  let rec go k := (first [ lia | destruct (Z.eq_dec i k) as [->|]; [vm_compute; reflexivity|]; go constr:(k + 1) ]) in
  go 0.
Ltac by_holds := split; [reflexivity|]; split; [split; vm_compute; discriminate|]; split; [vm_compute; discriminate|]; by_bytes.
Ltac by_union := split; [reflexivity|]; split; [split; vm_compute; discriminate|vm_compute; reflexivity].

(** An 8 bit parameter at address 0, a 16 bit one at address 2 whose upper limit is at address 8, a float at 4. *)
Definition p8 (min max def step : Z) : handle := mkHandle UINT8 0 None None min max def step 0 0 None.
Definition p16 : handle := mkHandle INT16 2 None (Some 8) 65526 0 5 3 2 0 (Some 1).
Definition pf : handle := mkHandle FLOAT 4 None None 0 1065353216 1056964608 0 4 0 None.  (* [0, 1], default 0.5 *)
(** 200; -3; 2.0; limit 100. *)
Definition m0 : mem := [200; 0; 253; 255; 0; 0; 0; 64; 100; 0].

(** * C76: parameter_operator never leaves the range of an integer parameter. *)
Theorem parameter_operator_range : forall h m mod_ m' r lo hi v,
  limit m (pmin h) (minv h) (ptype_of h) lo -> limit m (pmax h) (maxv h) (ptype_of h) hi -> lo <= hi ->
  holds m (pointer h) (ptype_of h) v ->
  mod_ <> 0 \/ lo <= v <= hi ->
  parameter_operator (Some h) m mod_ = Done (m', r) ->
  r = 0 /\ changed_only m m' (pointer h) (size (ptype_of h)) /\
  exists v', holds m' (pointer h) (ptype_of h) v' /\ lo <= v' <= hi.
Proof. exact operator_range_l. Qed.
Print Assumptions parameter_operator_range.

Example parameter_operator_range_case :
  limit m0 (pmin p16) (minv p16) INT16 (-10) /\ limit m0 (pmax p16) (maxv p16) INT16 100 /\
  holds m0 (pointer p16) INT16 (-3) /\
  parameter_operator (Some p16) m0 40 = Done ([200; 0; 246; 255; 0; 0; 0; 64; 100; 0], 0) /\
  holds [200; 0; 246; 255; 0; 0; 0; 64; 100; 0] 2 INT16 (-10).
Proof.
  split; [by_union|]. split; [by_holds|]. split; [by_holds|]. split; [vm_compute; reflexivity|]. by_holds.
Qed.

(** * C77: stepping.  Refuted: 200 + 100 wraps around to 44, which is inside [0, 200]; the minimum was due. *)
Theorem parameter_operator_steps_refuted : exists h m mod_ lo hi v s m',
  limit m (pmin h) (minv h) (ptype_of h) lo /\ limit m (pmax h) (maxv h) (ptype_of h) hi /\ lo <= v <= hi /\
  holds m (pointer h) (ptype_of h) v /\ union_holds (step h) (ptype_of h) s /\ computable (ptype_of h) (s * mod_) /\
  parameter_operator (Some h) m mod_ = Done (m', 0) /\
  holds m' (pointer h) (ptype_of h) 44 /\ stepped lo hi v s mod_ = 0.
Proof.
  exists (p8 0 200 10 100), m0, 1, 0, 200, 200, 100, [44; 0; 253; 255; 0; 0; 0; 64; 100; 0].
  split; [by_union|]. split; [by_union|]. split; [lia|]. split; [by_holds|]. split; [by_union|].
  split; [vm_compute; split; discriminate|]. split; [vm_compute; reflexivity|]. split; [by_holds|]. reflexivity.
Qed.
Print Assumptions parameter_operator_steps_refuted.

(** Missing: sums that the type of the parameter cannot represent. *)
Theorem parameter_operator_steps_partial : forall h m mod_ lo hi v s,
  limit m (pmin h) (minv h) (ptype_of h) lo -> limit m (pmax h) (maxv h) (ptype_of h) hi ->
  holds m (pointer h) (ptype_of h) v -> union_holds (step h) (ptype_of h) s ->
  computable (ptype_of h) (s * mod_) -> representable (ptype_of h) (v + s * mod_) ->
  exists m', parameter_operator (Some h) m mod_ = Done (m', 0) /\
    changed_only m m' (pointer h) (size (ptype_of h)) /\ holds m' (pointer h) (ptype_of h) (stepped lo hi v s mod_).
Proof. exact operator_steps_l. Qed.
Print Assumptions parameter_operator_steps_partial.

Theorem parameter_operator_null : forall m mod_, parameter_operator None m mod_ = Done (m, -1).
Proof. reflexivity. Qed.
Print Assumptions parameter_operator_null.

Example parameter_operator_steps_case :
  computable INT16 (3 * -2) /\ representable INT16 (-3 + 3 * -2) /\ union_holds (step p16) INT16 3 /\
  stepped (-10) 100 (-3) 3 (-2) = -9 /\ stepped (-10) 100 (-3) 3 (-3) = 100 /\ stepped (-10) 100 (-3) 3 35 = -10.
Proof. split; [vm_compute; split; discriminate|]. split; [vm_compute; split; discriminate|]. split; [by_union|]. repeat split. Qed.

(** * C78: parameter_get_handle finds the [num]-th accessible parameter, running the hooks up to it. *)
Theorem parameter_get_handle_nth : forall hook ps m num al, 0 <= al -> 0 <= num < zlen ps ->
  exists ps' m' r, parameter_get_handle hook ps m num al = Done (ps', m', r) /\
  match r with
  | Some k => exists pre h post pre' h', ps = pre ++ h :: post /\ ps' = pre' ++ h' :: post /\ k = zlen pre /\
      hooked hook (pre ++ [h]) m (pre' ++ [h']) m' /\ accessible h' al = true /\
      zlen (filter (fun h => accessible h al) pre') = num
  | None => hooked hook ps m ps' m' /\ zlen (filter (fun h => accessible h al) ps') <= num
  end.
Proof. exact get_handle_l. Qed.
Print Assumptions parameter_get_handle_nth.

Theorem parameter_get_handle_asserts : forall hook ps m num al, zlen ps <= num ->
  parameter_get_handle hook ps m num al = Abort.
Proof. intros hook ps m num al H. unfold parameter_get_handle. destruct (Z.ltb_spec num (zlen ps)); [lia|reflexivity]. Qed.
Print Assumptions parameter_get_handle_asserts.

(** A hook that revokes access. *)
Definition revoke (f : Z) (h : handle) (m : mem) : handle * mem :=
  (mkHandle (ptype_of h) (pointer h) (pmin h) (pmax h) (minv h) (maxv h) (defaultv h) (step h) 8 (data h) (runtime h), m).
Example parameter_get_handle_case :
  (exists ps' , parameter_get_handle revoke [p8 0 9 1 1; p16; pf] m0 1 6 = Done (ps', m0, Some 2)) /\
  (exists ps', parameter_get_handle (fun _ h m => (h, m)) [p8 0 9 1 1; p16; pf] m0 1 6 = Done (ps', m0, Some 1)) /\
  (exists ps', parameter_get_handle revoke [p8 0 9 1 1; p16; pf] m0 2 6 = Done (ps', m0, None)).
Proof. split; [|split]; eexists; vm_compute; reflexivity. Qed.

(** * C79: parameter_get_count.  Refuted: a parameter of access level 0 is not counted. *)
Theorem parameter_count_refuted : exists ps m al num,
  (forall hook, parameter_get_count hook ps m al = (ps, m, 0)) /\
  (forall hook, parameter_get_handle hook ps m num al = Done (ps, m, Some num)).
Proof. exists [p8 0 9 1 1], m0, 4294967295, 0. split; intros; reflexivity. Qed.
Print Assumptions parameter_count_refuted.

(** Missing: parameters with access level 0. *)
Theorem parameter_count_partial : forall hook ps m al num ps1 m1, 0 <= al -> 0 <= num < zlen ps ->
  hooked hook ps m ps1 m1 -> Forall (fun h => access_level h <> 0) ps1 ->
  exists n ps2 m2 k, parameter_get_count hook ps m al = (ps1, m1, n) /\
    parameter_get_handle hook ps m num al = Done (ps2, m2, k) /\ (k <> None <-> num < n).
Proof. exact count_agrees_l. Qed.
Print Assumptions parameter_count_partial.

(** What it counts in general: the parameters that share a bit with the mask, after their hooks. *)
Theorem parameter_count_bits : forall hook ps m al, 0 <= al ->
  exists ps' m' n, parameter_get_count hook ps m al = (ps', m', n) /\ hooked hook ps m ps' m' /\
    n = zlen (filter (fun h => negb (Z.land (access_level h) al =? 0)) ps').
Proof. exact get_count_l. Qed.
Print Assumptions parameter_count_bits.

Example parameter_count_case :
  let t := [pf; p16; mkHandle UINT8 1 None None 0 9 1 1 8 0 None] in
  let t' := [pf; fst (revoke 1 p16 m0); mkHandle UINT8 1 None None 0 9 1 1 8 0 None] in
  hooked revoke t m0 t' m0 /\ Forall (fun h => access_level h <> 0) t' /\
  parameter_get_count revoke t m0 6 = (t', m0, 1).
Proof.
  split; [|split; [repeat constructor; discriminate|reflexivity]].
  apply hooked_none; [reflexivity|]. apply hooked_some with 1 m0; [reflexivity|reflexivity|].
  apply hooked_none; [reflexivity|]. constructor.
Qed.

(** * C80: parameter_reset_to_defaults. *)
Theorem parameter_reset_all : forall hook ps m, tame hook -> levels hook ps -> distinct_storage ps m ->
  exists ps' m', parameter_reset_to_defaults hook ps m = Done (ps', m') /\ only_parameters_changed ps m m' /\
    (forall h d, In h ps -> union_holds (defaultv h) (ptype_of h) d -> holds m' (pointer h) (ptype_of h) d) /\
    (forall h d, In h ps -> union_fholds (defaultv h) (ptype_of h) d -> fholds m' (pointer h) (ptype_of h) d).
Proof. exact reset_values_l. Qed.
Print Assumptions parameter_reset_all.

Lemma revoke_tame : tame revoke.
Proof. intros f h m h' m' H. injection H as <- <-. split; [reflexivity|]. repeat split. Qed.
Lemma table_distinct : distinct_storage [p8 0 9 1 1; p16; pf] m0.
Proof.
  split.
  - intros i h E. do 3 (destruct i as [|i]; [injection E as <-; vm_compute; split; discriminate|]). destruct i; discriminate.
  - intros i j h h' N E E'.
    destruct i as [|[|[|i]]]; [| | |destruct i; discriminate]; injection E as <-;
    (destruct j as [|[|[|j]]]; [| | |destruct j; discriminate]; injection E' as <-; [..]);
    try congruence; unfold disjoint; cbn; lia.
Qed.
Lemma table_levels : levels revoke [p8 0 9 1 1; p16; pf].
Proof. split; [repeat constructor; vm_compute; congruence|]. intros. cbn. split; vm_compute; congruence. Qed.
Example parameter_reset_case :
  (tame revoke /\ levels revoke [p8 0 9 1 1; p16; pf] /\ distinct_storage [p8 0 9 1 1; p16; pf] m0) /\
  union_holds (defaultv p16) INT16 5 /\ union_fholds (defaultv pf) FLOAT (S754_finite false 8388608 (-24)) /\
  exists ps', parameter_reset_to_defaults revoke [p8 0 9 1 1; p16; pf] m0 = Done (ps', [1; 0; 5; 0; 0; 0; 0; 63; 100; 0]).
Proof.
  split; [split; [exact revoke_tame|split; [exact table_levels|exact table_distinct]]|]. split; [by_union|]. split.
  - apply (ieee_normal 23 8 (-149) false 126 8388608); cbn; lia.
  - eexists. vm_compute. reflexivity.
Qed.

(** * C81: parameter_check_ranges on integer parameters. *)
Theorem parameter_check_ranges_repairs : forall hook ps m xs, tame hook -> levels hook ps -> distinct_storage ps m ->
  limits_elsewhere ps -> Forall2 (describes m) ps xs ->
  exists ps' m', parameter_check_ranges hook ps m = Done (ps', m', zlen (filter (fun x => negb (in_range x)) xs)) /\
    only_parameters_changed ps m m' /\
    Forall2 (fun h x => holds m' (pointer h) (ptype_of h) (if in_range x then value x else deflt x)) ps xs /\
    (Forall (fun x => lo x <= deflt x <= hi x) xs ->
      exists ps'', parameter_check_ranges hook ps' m' = Done (ps'', m', 0)).
Proof. exact check_ranges_l. Qed.
Print Assumptions parameter_check_ranges_repairs.

Lemma table_limits : limits_elsewhere [p8 0 9 1 1; p16; pf].
Proof.
  intros i j h h' q E E' Q.
  destruct i as [|[|[|i]]]; [| | |destruct i; discriminate]; injection E as <-;
    (destruct j as [|[|[|j]]]; [| | |destruct j; discriminate]; injection E' as <-; [..]);
    destruct Q as [Q|Q]; try discriminate Q; injection Q as <-; unfold disjoint; cbn; lia.
Qed.
Example parameter_check_ranges_case :
  Forall2 (describes m0) [p8 0 9 1 1; p16] [mkInfo 200 0 9 1; mkInfo (-3) (-10) 100 5] /\
  limits_elsewhere [p8 0 9 1 1; p16; pf] /\
  exists ps', parameter_check_ranges revoke [p8 0 9 1 1; p16; pf] m0 = Done (ps', [1; 0; 253; 255; 0; 0; 0; 63; 100; 0], 2).
Proof.
  split; [|split; [exact table_limits|eexists; vm_compute; reflexivity]].
  constructor; [|constructor; [|constructor]]; unfold describes; cbn [value lo hi deflt];
    (split; [by_holds|]; split; [by_union|]; split; [(by_union || by_holds)|by_union]).
Qed.

(** * C82: floating point parameters.  Refuted: NaN is accepted. *)
Theorem parameter_check_floats_refuted : exists h m x, fdescribes m h x /\ within (flo x) (fdeflt x) (fhi x) = true /\
  distinct_storage [h] m /\
  forall hook, exists ps', parameter_check_ranges hook [h] m = Done (ps', m, 0) /\ within (flo x) (fvalue x) (fhi x) = false.
Proof.
  exists (mkHandle FLOAT 0 None None 0 1065353216 1056964608 0 0 0 None), [0; 0; 192; 127],
    (mkFinfo S754_nan (S754_zero false) (S754_finite false 8388608 (-23)) (S754_finite false 8388608 (-24))).
  split; [|split; [vm_compute; reflexivity|split; [|intros hook; eexists; split; vm_compute; reflexivity]]].
  - split; [|split; [|split]].
    + exists 2143289344. split; [apply (ieee_nan 23 8 (-149) false 4194304); cbn; lia|]. split; [vm_compute; discriminate|]. by_bytes.
    + apply (ieee_zero 23 8 (-149) false).
    + apply (ieee_normal 23 8 (-149) false 127 8388608); cbn; lia.
    + apply (ieee_normal 23 8 (-149) false 126 8388608); cbn; lia.
  - split.
    + intros i h E. destruct i as [|i]; [|destruct i; discriminate]. injection E as <-. vm_compute. split; discriminate.
    + intros i j h h' N E E'. destruct i as [|i]; [|destruct i; discriminate]. destruct j as [|j]; [congruence|destruct j; discriminate].
Qed.
Print Assumptions parameter_check_floats_refuted.

(** Missing: NaN as value or limit. *)
Theorem parameter_check_floats_partial : forall hook ps m, tame hook -> levels hook ps -> distinct_storage ps m -> limits_elsewhere ps ->
  Forall (fun h => (exists x, describes m h x) \/ exists x, fdescribes m h x) ps ->
  exists ps' m' n, parameter_check_ranges hook ps m = Done (ps', m', n) /\ only_parameters_changed ps m m' /\
    (forall h x, In h ps -> fdescribes m h x -> numbers x ->
      fholds m' (pointer h) (ptype_of h) (if within (flo x) (fvalue x) (fhi x) then fvalue x else fdeflt x)) /\
    (forall h x, In h ps -> describes m h x ->
      holds m' (pointer h) (ptype_of h) (if in_range x then value x else deflt x)) /\
    (forall oks, Forall2 (judged_as m) ps oks -> n = zlen (filter negb oks)).
Proof. exact check_float_l. Qed.
Print Assumptions parameter_check_floats_partial.

(** 2.0 is replaced by 0.5 in the table above, which has one more value out of range. *)
Definition xf := mkFinfo (S754_finite false 8388608 (-22)) (S754_zero false) (S754_finite false 8388608 (-23))
  (S754_finite false 8388608 (-24)).
Example parameter_check_floats_case :
  fdescribes m0 pf xf /\ numbers xf /\ within (flo xf) (fvalue xf) (fhi xf) = false.
Proof.
  split; [|split; [repeat split; discriminate|vm_compute; reflexivity]]. split; [|split; [|split]].
  - exists 1073741824. split; [apply (ieee_normal 23 8 (-149) false 128 8388608); cbn; lia|]. split; [vm_compute; discriminate|]. by_bytes.
  - apply (ieee_zero 23 8 (-149) false).
  - apply (ieee_normal 23 8 (-149) false 127 8388608); cbn; lia.
  - apply (ieee_normal 23 8 (-149) false 126 8388608); cbn; lia.
Qed.

Example parameter_check_floats_count :
  Forall2 (judged_as m0) [p8 0 9 1 1; p16; pf] [false; true; false] /\
  exists ps', parameter_check_ranges revoke [p8 0 9 1 1; p16; pf] m0 = Done (ps', [1; 0; 253; 255; 0; 0; 0; 63; 100; 0], 2).
Proof.
  split; [|eexists; vm_compute; reflexivity].
  destruct parameter_check_ranges_case as [F _]. inversion F as [|? ? ? ? D1 F1]; subst. inversion F1 as [|? ? ? ? D2 F2]; subst.
  constructor; [left; eexists; split; [exact D1|reflexivity]|]. constructor; [left; eexists; split; [exact D2|reflexivity]|].
  constructor; [right|constructor]. exists xf. destruct parameter_check_floats_case as (A & B & C). auto.
Qed.

(** * C83: parameter_to_long.  Refuted: an int8_t of -1 gives 255. *)
Theorem parameter_to_long_refuted : exists h m v, holds m (pointer h) (ptype_of h) v /\ v = -1 /\
  parameter_to_long (Some h) m = Done 255.
Proof.
  exists (mkHandle INT8 0 None None 0 0 0 0 0 0 None), [255], (-1). split; [by_holds|]. split; reflexivity.
Qed.
Print Assumptions parameter_to_long_refuted.

(** Missing: negative values of type int8_t. *)
Theorem parameter_to_long_partial : forall h m v, holds m (pointer h) (ptype_of h) v -> v <= 9223372036854775807 ->
  ptype_of h <> INT8 \/ 0 <= v ->
  parameter_to_long (Some h) m = Done v.
Proof. exact to_long_l. Qed.
Print Assumptions parameter_to_long_partial.

Theorem parameter_to_long_others : forall h m, h = None \/ (exists h', h = Some h' /\ is_int (ptype_of h') = false) ->
  parameter_to_long h m = Done 0.
Proof. intros h m [->|(h' & -> & E)]; [reflexivity|]. unfold parameter_to_long. destruct (ptype_of h'); try discriminate E; reflexivity. Qed.
Print Assumptions parameter_to_long_others.

Example parameter_to_long_case : holds m0 (pointer p16) INT16 (-3) /\ parameter_to_long (Some p16) m0 = Done (-3).
Proof. split; [by_holds|reflexivity]. Qed.

(** * C84: copies and clones. *)
Theorem parameter_copy_same_type : forall d s m, ptype_of d = ptype_of s ->
  inside m (pointer s) (size (ptype_of s)) -> inside m (pointer d) (size (ptype_of s)) ->
  disjoint (pointer s) (size (ptype_of s)) (pointer d) (size (ptype_of s)) ->
  exists m', parameter_copy_value (Some d) (Some s) m = Done (m', 0) /\
    same_bytes m (pointer s) m' (pointer d) (size (ptype_of s)) /\
    changed_only m m' (pointer d) (size (ptype_of s)).
Proof. exact copy_same_l. Qed.
Print Assumptions parameter_copy_same_type.

Theorem parameter_copy_other_type : forall d s m, ptype_of d <> ptype_of s ->
  parameter_copy_value (Some d) (Some s) m = Done (m, -1).
Proof. exact copy_diff_l. Qed.
Print Assumptions parameter_copy_other_type.

Theorem parameter_copy_null : forall d s m, d = None \/ s = None -> parameter_copy_value d s m = Done (m, -1).
Proof. intros d s m [->| ->]; [destruct s|]; reflexivity. Qed.
Print Assumptions parameter_copy_null.

(** The attributes of a clone. *)
Definition attributes_of (c s : handle) (p : Z) : Prop :=
  ptype_of c = ptype_of s /\ pointer c = p /\ pmin c = pmin s /\ pmax c = pmax s /\ minv c = minv s /\ maxv c = maxv s /\
  defaultv c = defaultv s /\ step c = step s /\ access_level c = access_level s /\ data c = data s /\ runtime c = runtime s.

Theorem parameter_clone_with_buffer_copies : forall s buffer m,
  inside m (pointer s) (size (ptype_of s)) -> inside m buffer (size (ptype_of s)) ->
  disjoint (pointer s) (size (ptype_of s)) buffer (size (ptype_of s)) ->
  exists c m', parameter_clone_with_buffer s buffer m = Done (c, m') /\ attributes_of c s buffer /\
    same_bytes m (pointer s) m' buffer (size (ptype_of s)) /\ changed_only m m' buffer (size (ptype_of s)) /\
    forall m'', changed_only m' m'' (pointer c) (size (ptype_of c)) ->
      same_bytes m (pointer s) m'' (pointer s) (size (ptype_of s)).
Proof.
  intros s buffer m H1 H2 H3. destruct (clone_buffer_l s buffer m H1 H2 H3) as (m' & E & B & C).
  exists (set_pointer s buffer), m'. split; [exact E|]. split; [repeat split|]. split; [exact B|]. split; [exact C|].
  intros m'' [_ C2] i Hi. destruct C as [_ C]. destruct H1 as [P _]. unfold disjoint in H3.
  rewrite C2 by (cbn; lia). apply C; lia.
Qed.
Print Assumptions parameter_clone_with_buffer_copies.

Theorem parameter_clone_copies : forall d s p m, Forall byte m ->
  inside m (pointer s) (size (ptype_of s)) -> inside m p (size (ptype_of s)) ->
  disjoint (pointer s) (size (ptype_of s)) p (size (ptype_of s)) ->
  exists c m', parameter_clone (Some d) (Some s) (Some p) m = Done (Some c, m') /\ attributes_of c s p /\
    same_bytes m (pointer s) m' p (size (ptype_of s)) /\ changed_only m m' p (size (ptype_of s)) /\
    forall m'', changed_only m' m'' (pointer c) (size (ptype_of c)) ->
      same_bytes m (pointer s) m'' (pointer s) (size (ptype_of s)).
Proof.
  intros d s p m HB H1 H2 H3. destruct (clone_l d s p m HB H1 H2) as (m' & E & B & C).
  exists (set_pointer s p), m'. split; [exact E|]. split; [repeat split|]. split; [exact B|]. split; [exact C|].
  intros m'' [_ C2] i Hi. destruct C as [_ C]. destruct H1 as [P _]. unfold disjoint in H3.
  rewrite C2 by (cbn; lia). apply C; lia.
Qed.
Print Assumptions parameter_clone_copies.

Theorem parameter_clone_null : forall d s p m, d = None \/ s = None \/ p = None -> parameter_clone d s p m = Done (d, m).
Proof. intros d s p m [->|[->| ->]]; [destruct s|destruct d|destruct s, d]; reflexivity. Qed.
Print Assumptions parameter_clone_null.

Example parameter_clone_case :
  Forall byte m0 /\ inside m0 (pointer p16) 2 /\ inside m0 0 2 /\ disjoint (pointer p16) 2 0 2 /\
  parameter_clone_with_buffer p16 0 m0 = Done (set_pointer p16 0, [253; 255; 253; 255; 0; 0; 0; 64; 100; 0]).
Proof.
  split; [repeat constructor; vm_compute; discriminate|]. split; [split; vm_compute; discriminate|].
  split; [split; vm_compute; discriminate|]. split; [right; vm_compute; discriminate|]. reflexivity.
Qed.

(** * C85: parameter_get_total_values.  Refuted: the full range of uint32_t gives 0, that of int32_t is undefined. *)
Theorem parameter_total_values_refuted : exists h h' m lo hi lo' hi',
  limit m (pmin h) (minv h) (ptype_of h) lo /\ limit m (pmax h) (maxv h) (ptype_of h) hi /\ lo <= hi /\
  hi - lo + 1 = 4294967296 /\ parameter_get_total_values (Some h) m = Done 0 /\
  limit m (pmin h') (minv h') (ptype_of h') lo' /\ limit m (pmax h') (maxv h') (ptype_of h') hi' /\ lo' <= hi' /\
  parameter_get_total_values (Some h') m = Undef.
Proof.
  exists (mkHandle UINT32 0 None None 0 4294967295 0 1 0 0 None), (mkHandle INT32 0 None None 2147483648 2147483647 0 1 0 0 None),
    [], 0, 4294967295, (-2147483648), 2147483647.
  split; [by_union|]. split; [by_union|]. split; [lia|]. split; [reflexivity|]. split; [reflexivity|].
  split; [by_union|]. split; [by_union|]. split; [lia|]. reflexivity.
Qed.
Print Assumptions parameter_total_values_refuted.

(** Missing: totals that the promoted type of the parameter cannot represent. *)
Theorem parameter_total_values_partial : forall h m lo hi,
  limit m (pmin h) (minv h) (ptype_of h) lo -> limit m (pmax h) (maxv h) (ptype_of h) hi -> lo <= hi ->
  match ptype_of h with
  | INT32 => hi - lo + 1 <= INT_MAX
  | INT64 => hi - lo + 1 <= 9223372036854775807
  | UINT32 => hi - lo + 1 <= 4294967295
  | UINT64 => hi - lo + 1 <= 18446744073709551615
  | _ => True
  end ->
  parameter_get_total_values (Some h) m = Done (hi - lo + 1).
Proof. exact total_l. Qed.
Print Assumptions parameter_total_values_partial.

Theorem parameter_total_values_null : forall m, parameter_get_total_values None m = Done 0.
Proof. reflexivity. Qed.
Print Assumptions parameter_total_values_null.

Example parameter_total_values_case : parameter_get_total_values (Some p16) m0 = Done 111.
Proof. reflexivity. Qed.

(** * C86: the macros.  Refuted: a 64 bit limit of -1 is stored as 4294967295, one of 2^32 as 0. *)
Theorem PARAMETER_limits_refuted : exists ty min max,
  is_int ty = true /\ representable ty min /\ representable ty max /\
  forall ptr def step udata lvl, let h := PARAMETER_STEP ty ptr min max def step udata lvl in
    ~ union_holds (minv h) ty min /\ ~ union_holds (maxv h) ty max /\
    union_holds (minv h) ty 4294967295 /\ union_holds (maxv h) ty 0.
Proof.
  exists INT64, (-1), 4294967296. split; [reflexivity|]. split; [split; vm_compute; discriminate|].
  split; [split; vm_compute; discriminate|]. intros. split; [|split; [|split; by_union]].
  - intros (_ & _ & E). vm_compute in E. discriminate E.
  - intros (_ & _ & E). vm_compute in E. discriminate E.
Qed.
Print Assumptions PARAMETER_limits_refuted.

(** Missing: 64 bit constants outside [0, 2^32). *)
Theorem PARAMETER_limits_partial : forall ty ptr pn px min max def step lvl udata rt,
  let ok x := representable ty x /\ match ty with UINT64 | INT64 => 0 <= x < 4294967296 | _ => True end in
  is_int ty = true -> ok min -> ok max -> ok def -> ok step ->
  let h := PARAMETER_FULL ty ptr pn px min max def step lvl udata rt in
  ptype_of h = ty /\ pointer h = ptr /\ pmin h = pn /\ pmax h = px /\ access_level h = lvl /\ parameter_get_user_data (Some h) = Done udata /\ runtime h = rt /\
  union_holds (minv h) ty min /\ union_holds (maxv h) ty max /\ union_holds (defaultv h) ty def /\
  union_holds (ParameterModel.step h) ty step.
Proof.
  intros ty ptr pn px min max def step lvl udata rt ok Hi [H1 H1'] [H2 H2'] [H3 H3'] [H4 H4'] h.
  repeat (split; [reflexivity|]).
  split; [apply option_l; assumption|]. split; [apply option_l; assumption|].
  split; [apply option_l; assumption|]. apply option_l; assumption.
Qed.
Print Assumptions PARAMETER_limits_partial.

Theorem PARAMETER_macros : forall ty ptr pn px min max def step udata lvl,
  PARAMETER ty ptr min max def udata lvl = PARAMETER_FULL ty ptr None None min max def 1 lvl udata None /\
  PARAMETER_STEP ty ptr min max def step udata lvl = PARAMETER_FULL ty ptr None None min max def step lvl udata None /\
  PARAMETER_DLIMITS ty ptr pn px min max def udata lvl = PARAMETER_FULL ty ptr pn px min max def 1 lvl udata None.
Proof. intros. repeat split. Qed.
Print Assumptions PARAMETER_macros.

Example PARAMETER_limits_case : representable INT16 (-10) /\ minv (PARAMETER INT16 2 (-10) 100 5 0 2) = 65526.
Proof. split; [split; vm_compute; discriminate|reflexivity]. Qed.

(** * C102: parameter_to_bool tells non zero integer parameters. *)
Theorem parameter_to_bool_nonzero : forall h m v, holds m (pointer h) (ptype_of h) v ->
  parameter_to_bool (Some h) m = Done (if v =? 0 then 0 else 1).
Proof. exact to_bool_l. Qed.
Print Assumptions parameter_to_bool_nonzero.

Theorem parameter_to_bool_null : forall m, parameter_to_bool None m = Done 0.
Proof. reflexivity. Qed.
Print Assumptions parameter_to_bool_null.

Example parameter_to_bool_case : holds m0 (pointer p16) INT16 (-3) /\ parameter_to_bool (Some p16) m0 = Done 1.
Proof. split; [by_holds|reflexivity]. Qed.

(** * C103: PARAMETER_C99 stores all representable limits. *)
Theorem PARAMETER_C99_limits : forall ty ptr pn px min max def step lvl udata rt,
  is_int ty = true -> representable ty min -> representable ty max -> representable ty def -> representable ty step ->
  let h := PARAMETER_C99 ty ptr pn px min max def step lvl udata rt in
  ptype_of h = ty /\ pointer h = ptr /\ pmin h = pn /\ pmax h = px /\ access_level h = lvl /\ parameter_get_user_data (Some h) = Done udata /\ runtime h = rt /\
  union_holds (minv h) ty min /\ union_holds (maxv h) ty max /\ union_holds (defaultv h) ty def /\
  union_holds (ParameterModel.step h) ty step.
Proof.
  intros ty ptr pn px min max def step lvl udata rt Hi H1 H2 H3 H4 h.
  repeat (split; [reflexivity|]).
  split; [apply c99_l; assumption|]. split; [apply c99_l; assumption|].
  split; [apply c99_l; assumption|]. apply c99_l; assumption.
Qed.
Print Assumptions PARAMETER_C99_limits.

Example PARAMETER_C99_case : representable INT64 (-1) /\
  union_holds (minv (PARAMETER_C99 INT64 0 None None (-1) 5 0 1 0 0 None)) INT64 (-1).
Proof. split; [split; vm_compute; discriminate|]. by_union. Qed.

(** * C107: parameter_to_index gives non negative integers, 0 without an integer parameter. *)
Theorem parameter_to_index_value : forall h m v, holds m (pointer h) (ptype_of h) v -> 0 <= v ->
  parameter_to_index (Some h) m = Done v.
Proof. exact index_l. Qed.
Print Assumptions parameter_to_index_value.

Theorem parameter_to_index_others : forall h m, h = None \/ (exists h', h = Some h' /\ is_int (ptype_of h') = false) ->
  parameter_to_index h m = Done 0 /\ parameter_to_bool h m = Done 0.
Proof.
  intros h m H. assert (E : parameter_to_index h m = Done 0).
  { destruct H as [->|(h' & -> & E)]; [reflexivity|]. unfold parameter_to_index. destruct (ptype_of h'); try discriminate E; reflexivity. }
  split; [exact E|]. unfold parameter_to_bool. rewrite E. reflexivity.
Qed.
Print Assumptions parameter_to_index_others.

Example parameter_to_index_case : holds m0 0 UINT8 200 /\ parameter_to_index (Some (p8 0 9 1 1)) m0 = Done 200 /\
  is_int (ptype_of pf) = false.
Proof. split; [by_holds|split; reflexivity]. Qed.

(** * C108: stepping a floating point parameter. *)
Theorem parameter_operator_float : forall h m mod_ lo hi v s, INT_MIN <= mod_ <= INT_MAX ->
  flimit m (pmin h) (minv h) (ptype_of h) lo -> flimit m (pmax h) (maxv h) (ptype_of h) hi ->
  lo <> S754_nan -> hi <> S754_nan ->
  fholds m (pointer h) (ptype_of h) v -> union_fholds (step h) (ptype_of h) s -> finite v -> finite s ->
  exists m', parameter_operator (Some h) m mod_ = Done (m', 0) /\ changed_only m m' (pointer h) (size (ptype_of h)) /\
    fholds m' (pointer h) (ptype_of h) (fstepped (ptype_of h) lo hi v s mod_).
Proof. exact operator_float_l. Qed.
Print Assumptions parameter_operator_float.

Theorem parameter_operator_float_range : forall h m mod_ lo hi v s, INT_MIN <= mod_ <= INT_MAX -> mod_ <> 0 ->
  flimit m (pmin h) (minv h) (ptype_of h) lo -> flimit m (pmax h) (maxv h) (ptype_of h) hi -> SFleb lo hi = true ->
  fholds m (pointer h) (ptype_of h) v -> union_fholds (step h) (ptype_of h) s -> finite v -> finite s ->
  exists m' y, parameter_operator (Some h) m mod_ = Done (m', 0) /\ fholds m' (pointer h) (ptype_of h) y /\ within lo y hi = true.
Proof. exact operator_float_range_l. Qed.
Print Assumptions parameter_operator_float_range.

(** 0.25 + 2 * 0.25 = 0.75; another two steps are too many for [0, 1] and give 0. *)
Example parameter_operator_float_case :
  let p := mkHandle FLOAT 0 None None 0 1065353216 0 1048576000 0 0 None in
  let q x := S754_finite false 8388608 x in
  flimit [0; 0; 128; 62] (pmin p) (minv p) FLOAT (S754_zero false) /\ flimit [0; 0; 128; 62] (pmax p) (maxv p) FLOAT (q (-23)) /\
  SFleb (S754_zero false) (q (-23)) = true /\
  fholds [0; 0; 128; 62] 0 FLOAT (q (-25)) /\ union_fholds (step p) FLOAT (q (-25)) /\
  parameter_operator (Some p) [0; 0; 128; 62] 2 = Done ([0; 0; 64; 63], 0) /\
  parameter_operator (Some p) [0; 0; 64; 63] 2 = Done ([0; 0; 0; 0], 0) /\
  fstepped FLOAT (S754_zero false) (q (-23)) (q (-25)) (q (-25)) 2 = S754_finite false 12582912 (-24) /\
  fholds [0; 0; 64; 63] 0 FLOAT (S754_finite false 12582912 (-24)).
Proof.
  cbv zeta. split; [apply (ieee_zero 23 8 (-149) false)|]. split; [apply (ieee_normal 23 8 (-149) false 127 8388608); cbn; lia|].
  split; [reflexivity|].
  split; [exists 1048576000; split; [apply (ieee_normal 23 8 (-149) false 125 8388608); cbn; lia|split; [lia|by_bytes]]|].
  split; [apply (ieee_normal 23 8 (-149) false 125 8388608); cbn; lia|].
  split; [vm_compute; reflexivity|]. split; [vm_compute; reflexivity|]. split; [vm_compute; reflexivity|].
  exists 1061158912. split; [apply (ieee_normal 23 8 (-149) false 126 12582912); cbn; lia|split; [lia|by_bytes]].
Qed.

(** * C115: a floating point parameter whose numbers are all multiples of 2^k steps like an integer. *)
Theorem parameter_operator_float_exact : forall h m mod_ k lo hi v s L H a b, INT_MIN <= mod_ <= INT_MAX ->
  flimit m (pmin h) (minv h) (ptype_of h) lo -> flimit m (pmax h) (maxv h) (ptype_of h) hi ->
  fholds m (pointer h) (ptype_of h) v -> union_fholds (step h) (ptype_of h) s ->
  worth lo L k -> worth hi H k -> worth v a k -> worth s b k ->
  exact_in (ptype_of h) mod_ 0 -> exact_in (ptype_of h) (b * mod_) k -> exact_in (ptype_of h) (a + b * mod_) k ->
  exists m' y, parameter_operator (Some h) m mod_ = Done (m', 0) /\ changed_only m m' (pointer h) (size (ptype_of h)) /\
    fholds m' (pointer h) (ptype_of h) y /\ worth y (stepped L H a b mod_) k.
Proof. exact operator_float_exact_l. Qed.
Print Assumptions parameter_operator_float_exact.

(** 0.25 in [0, 1] with a step of 0.25: multiples of 2^-2. *)
Example parameter_operator_float_exact_case :
  let q x := S754_finite false 8388608 x in
  worth (S754_zero false) 0 (-2) /\ worth (q (-23)) 4 (-2) /\ worth (q (-25)) 1 (-2) /\
  exact_in FLOAT 2 0 /\ exact_in FLOAT (1 * 2) (-2) /\ exact_in FLOAT (1 + 1 * 2) (-2) /\
  stepped 0 4 1 1 2 = 3 /\ worth (S754_finite false 12582912 (-24)) 3 (-2).
Proof. cbv zeta. unfold exact_in, in_format. repeat split; cbn; lia. Qed.

(** * C116: operations add up.  Refuted: from 0.0 in [0, 1], ten steps of 0.1f in one operation give 1.0; ten
    operations of one step give 0.0 since the last one goes beyond the maximum. *)
Theorem parameter_operations_refuted : exists h m m1 m2 lo hi v s,
  limits_elsewhere [h] /\ flimit m (pmin h) (minv h) (ptype_of h) lo /\ flimit m (pmax h) (maxv h) (ptype_of h) hi /\
  fholds m (pointer h) (ptype_of h) v /\ union_fholds (step h) (ptype_of h) s /\ finite s /\
  worth lo 0 0 /\ worth hi 1 0 /\ worth v 0 0 /\
  parameter_operator (Some h) m 10 = Done (m1, 0) /\ fholds m1 (pointer h) (ptype_of h) hi /\
  operations 10 h m 1 = Done m2 /\ fholds m2 (pointer h) (ptype_of h) lo.
Proof.
  exists (mkHandle FLOAT 0 None None 0 1065353216 0 1036831949 0 0 None), [0; 0; 0; 0], [0; 0; 128; 63], [0; 0; 0; 0].
  exists (S754_zero false), (S754_finite false 8388608 (-23)), (S754_zero false), (S754_finite false 13421773 (-27)).
  split. { intros i j h h' q Hi _ E. destruct i as [|[|i]]; try discriminate Hi. injection Hi as <-. destruct E as [E|E]; discriminate E. }
  split; [apply (ieee_zero 23 8 (-149) false)|].
  split; [apply (ieee_normal 23 8 (-149) false 127 8388608); cbn; lia|].
  split; [exists 0; split; [apply (ieee_zero 23 8 (-149) false)|split; [cbn; lia|by_bytes]]|].
  split; [apply (ieee_normal 23 8 (-149) false 123 13421773); cbn; lia|].
  split; [exact I|]. split; [reflexivity|]. split; [reflexivity|]. split; [reflexivity|].
  split; [vm_compute; reflexivity|].
  split; [exists 1065353216; split; [apply (ieee_normal 23 8 (-149) false 127 8388608); cbn; lia|split; [cbn; lia|by_bytes]]|].
  split; [vm_compute; reflexivity|].
  exists 0; split; [apply (ieee_zero 23 8 (-149) false)|split; [cbn; lia|by_bytes]].
Qed.
Print Assumptions parameter_operations_refuted.

(** Missing from C116: floating point numbers that need rounding.  Integers: *)
Theorem parameter_operations_partial : forall n h m d lo hi v s, limits_elsewhere [h] ->
  limit m (pmin h) (minv h) (ptype_of h) lo -> limit m (pmax h) (maxv h) (ptype_of h) hi ->
  holds m (pointer h) (ptype_of h) v -> union_holds (step h) (ptype_of h) s ->
  computable (ptype_of h) (s * d) -> computable (ptype_of h) (s * (d * Z.of_nat n)) ->
  lo <= v <= hi -> lo <= v + s * d * Z.of_nat n <= hi ->
  exists m', operations n h m d = Done m' /\ parameter_operator (Some h) m (d * Z.of_nat n) = Done (m', 0) /\
    holds m' (pointer h) (ptype_of h) (v + s * d * Z.of_nat n).
Proof. exact operations_int_l. Qed.
Print Assumptions parameter_operations_partial.

(** ... and floating point numbers without rounding (the two results may be zeroes of different sign). *)
Theorem parameter_operations_float_partial : forall n h m d k lo hi v s L H a b,
  limits_elsewhere [h] -> INT_MIN <= d <= INT_MAX -> INT_MIN <= d * Z.of_nat n <= INT_MAX ->
  flimit m (pmin h) (minv h) (ptype_of h) lo -> flimit m (pmax h) (maxv h) (ptype_of h) hi ->
  fholds m (pointer h) (ptype_of h) v -> union_fholds (step h) (ptype_of h) s ->
  worth lo L k -> worth hi H k -> worth v a k -> worth s b k ->
  exact_in (ptype_of h) L k -> exact_in (ptype_of h) H k -> exact_in (ptype_of h) d 0 -> exact_in (ptype_of h) (b * d) k ->
  exact_in (ptype_of h) (d * Z.of_nat n) 0 -> exact_in (ptype_of h) (b * (d * Z.of_nat n)) k ->
  L <= a <= H -> L <= a + b * d * Z.of_nat n <= H ->
  exists m1 m2 y1 y2, operations n h m d = Done m1 /\ parameter_operator (Some h) m (d * Z.of_nat n) = Done (m2, 0) /\
    fholds m1 (pointer h) (ptype_of h) y1 /\ fholds m2 (pointer h) (ptype_of h) y2 /\
    worth y1 (a + b * d * Z.of_nat n) k /\ worth y2 (a + b * d * Z.of_nat n) k.
Proof. exact operations_float_l. Qed.
Print Assumptions parameter_operations_float_partial.

Example parameter_operations_case :
  operations 4 p16 m0 2 = Done [200; 0; 21; 0; 0; 0; 0; 64; 100; 0] /\
  parameter_operator (Some p16) m0 8 = Done ([200; 0; 21; 0; 0; 0; 0; 64; 100; 0], 0) /\
  computable INT16 (3 * (2 * 4)) /\ -10 <= -3 + 3 * 2 * 4 <= 100 /\ limits_elsewhere [p16].
Proof.
  split; [vm_compute; reflexivity|]. split; [vm_compute; reflexivity|]. split; [vm_compute; split; discriminate|]. split; [lia|].
  intros i j h h' q Hi Hj E. destruct i as [|[|i]], j as [|[|j]]; try discriminate. injection Hi as <-. injection Hj as <-.
  destruct E as [E|E]; try discriminate. injection E as <-. right. cbn. lia.
Qed.

(** * C117: parameter_to_string_format prints the value of the parameter, also a negative one. *)
Theorem parameter_string_integer : forall sprintf h m v, holds m (pointer h) (ptype_of h) v ->
  parameter_to_string_format sprintf (Some h) m = Done (sprintf (passed (ptype_of h) v) m).
Proof. exact string_l. Qed.
Print Assumptions parameter_string_integer.

Theorem parameter_string_float : forall sprintf h m x, fholds m (pointer h) (ptype_of h) x ->
  exists y, parameter_to_string_format sprintf (Some h) m = Done (sprintf (ADouble y) m) /\ same_value x y.
Proof. exact string_float_l. Qed.
Print Assumptions parameter_string_float.

Theorem parameter_string_null : forall sprintf m, parameter_to_string_format sprintf None m = Done m.
Proof. reflexivity. Qed.
Print Assumptions parameter_string_null.

Example parameter_string_case : holds m0 2 INT16 (-3) /\ passed INT16 (-3) = AnInt (-3) /\
  parameter_to_string_format (fun a m => match a with AnInt z => [z] | _ => m end) (Some p16) m0 = Done [-3] /\
  parameter_to_string_format (fun a m => match a with ADouble (S754_finite false _ e) => [e] | _ => m end) (Some pf) m0 = Done [-51].
Proof. split; [by_holds|]. repeat split; vm_compute; reflexivity. Qed.

(** * C118: the number of values of a floating point parameter. *)
Theorem parameter_total_values_float : forall h m k lo hi L H,
  flimit m (pmin h) (minv h) (ptype_of h) lo -> flimit m (pmax h) (maxv h) (ptype_of h) hi ->
  worth lo L k -> worth hi H k -> k <= 0 -> L <= H -> exact_in (ptype_of h) (H - L) k -> exact_in (ptype_of h) (H - L + 2 ^ (- k)) k ->
  parameter_get_total_values (Some h) m = Done ((H - L) / 2 ^ (- k) + 1).
Proof. exact total_float_l. Qed.
Print Assumptions parameter_total_values_float.

(** From 0.5 to 4.0: 4. *)
Example parameter_total_values_float_case :
  let p := mkHandle FLOAT 0 None None 1056964608 1082130432 0 0 0 0 None in
  parameter_get_total_values (Some p) [] = Done 4 /\ worth (S754_finite false 8388608 (-24)) 1 (-1) /\ worth (S754_finite false 8388608 (-21)) 8 (-1) /\
  (8 - 1) / 2 ^ 1 + 1 = 4 /\ exact_in FLOAT (8 - 1) (-1) /\ flimit [] (pmin p) (minv p) FLOAT (S754_finite false 8388608 (-24)).
Proof.
  cbv zeta. split; [vm_compute; reflexivity|]. split; [reflexivity|]. split; [reflexivity|]. split; [reflexivity|].
  split; [unfold exact_in, in_format; cbn; lia|]. apply (ieee_normal 23 8 (-149) false 126 8388608); cbn; lia.
Qed.

(** * C141: parameter_operator on integers, whatever the numbers: the sum as a number of the type, confined to the
    limits; undefined exactly when product or sum leave the int or int64_t the expression is computed in. *)
Theorem parameter_operator_exact : forall h m mod_ lo hi v s,
  limit m (pmin h) (minv h) (ptype_of h) lo -> limit m (pmax h) (maxv h) (ptype_of h) hi ->
  holds m (pointer h) (ptype_of h) v -> union_holds (step h) (ptype_of h) s ->
  let ty := ptype_of h in
  let fine := computable ty (s * mod_) /\ computable ty (v + s * mod_) in
  (fine -> exists m', parameter_operator (Some h) m mod_ = Done (m', 0) /\
     changed_only m m' (pointer h) (size ty) /\
     holds m' (pointer h) ty (confined lo hi (in_type ty (v + s * mod_)) mod_)) /\
  (~ fine -> parameter_operator (Some h) m mod_ = Undef).
Proof. exact operator_exact_l. Qed.
Print Assumptions parameter_operator_exact.

Example parameter_operator_exact_case :
  confined 0 200 (in_type UINT8 (200 + 100 * 1)) 1 = 44 /\ confined 0 200 (in_type UINT8 (200 - 5 * 100)) (-5) = 200 /\
  in_type INT16 40000 = -25536 /\ ~ computable INT32 (2147483647 + 1) /\ computable INT16 (32767 * 2) /\
  parameter_operator (Some (mkHandle INT32 0 None None 0 2147483647 0 1 0 0 None)) [255; 255; 255; 127] 1 = Undef.
Proof. repeat split; try reflexivity; try (vm_compute; discriminate). intros [_ H]. apply H. reflexivity. Qed.

(** * C142: totals and conversions of integers, whatever the numbers. *)
Theorem parameter_total_values_exact : forall h m lo hi,
  limit m (pmin h) (minv h) (ptype_of h) lo -> limit m (pmax h) (maxv h) (ptype_of h) hi ->
  let ty := ptype_of h in
  let fine := computable ty (hi - lo) /\ computable ty (hi - lo + 1) in
  (fine -> parameter_get_total_values (Some h) m =
     Done ((hi - lo + 1) mod 2 ^ (if unsigned_word ty then 8 * size ty else 64))) /\
  (~ fine -> parameter_get_total_values (Some h) m = Undef).
Proof. exact total_exact_l. Qed.
Print Assumptions parameter_total_values_exact.

Theorem parameter_to_long_exact : forall h m v, holds m (pointer h) (ptype_of h) v ->
  parameter_to_long (Some h) m =
    Done (match ptype_of h with INT8 => in_type UINT8 v | _ => in_type INT64 v end).
Proof. exact to_long_exact_l. Qed.
Print Assumptions parameter_to_long_exact.

Theorem parameter_to_index_exact : forall h m v, holds m (pointer h) (ptype_of h) v ->
  parameter_to_index (Some h) m =
    Done (match ptype_of h with INT8 => in_type UINT8 v | _ => in_type UINT64 v end).
Proof. exact to_index_exact_l. Qed.
Print Assumptions parameter_to_index_exact.

Example parameter_conversions_exact_case :
  in_type UINT8 (-1) = 255 /\ in_type INT64 18446744073709551615 = -1 /\ in_type UINT64 (-3) = 18446744073709551613 /\
  parameter_to_index (Some p16) m0 = Done 18446744073709551613 /\
  parameter_get_total_values (Some (p8 10 5 1 1)) m0 = Done 18446744073709551612.
Proof. repeat split. Qed.

(** * C143: the constants of parameters made with the macros, whatever the numbers: 64 bit types keep 32 bits,
    the C99 macro keeps all. *)
Theorem PARAMETER_limits_exact : forall ty ptr pn px min max def step lvl udata rt, is_int ty = true ->
  let kept x := in_type ty (if of_64_bits ty then x mod 2 ^ 32 else x) in
  let h := PARAMETER_FULL ty ptr pn px min max def step lvl udata rt in
  union_holds (minv h) ty (kept min) /\ union_holds (maxv h) ty (kept max) /\
  union_holds (defaultv h) ty (kept def) /\ union_holds (ParameterModel.step h) ty (kept step).
Proof.
  intros ty ptr pn px min max def step lvl udata rt Hi kept h.
  split; [|split; [|split]]; apply option_exact_l; exact Hi.
Qed.
Print Assumptions PARAMETER_limits_exact.

Theorem PARAMETER_C99_exact : forall ty ptr pn px min max def step lvl udata rt, is_int ty = true ->
  let h := PARAMETER_C99 ty ptr pn px min max def step lvl udata rt in
  union_holds (minv h) ty (in_type ty min) /\ union_holds (maxv h) ty (in_type ty max) /\
  union_holds (defaultv h) ty (in_type ty def) /\ union_holds (ParameterModel.step h) ty (in_type ty step).
Proof.
  intros ty ptr pn px min max def step lvl udata rt Hi h.
  split; [|split; [|split]]; apply c99_exact_l; exact Hi.
Qed.
Print Assumptions PARAMETER_C99_exact.

Example PARAMETER_limits_exact_case :
  in_type INT64 ((-1) mod 2 ^ 32) = 4294967295 /\ in_type UINT8 300 = 44 /\ in_type INT8 200 = -56 /\
  maxv (PARAMETER INT8 0 0 200 0 0 0) = 200.
Proof. repeat split. Qed.

(** * C145: parameter_check_ranges with NaN as value or limit. *)
Theorem parameter_check_floats_exact : forall hook ps m, tame hook -> levels hook ps -> distinct_storage ps m -> limits_elsewhere ps ->
  Forall (fun h => (exists x, describes m h x) \/ exists x, fdescribes m h x) ps ->
  exists ps' m' n, parameter_check_ranges hook ps m = Done (ps', m', n) /\ only_parameters_changed ps m m' /\
    (forall h x, In h ps -> fdescribes m h x ->
      fholds m' (pointer h) (ptype_of h) (if passes x then fvalue x else fdeflt x) /\
      (passes x = true -> same_bytes m (pointer h) m' (pointer h) (size (ptype_of h)))) /\
    (forall h x, In h ps -> describes m h x ->
      holds m' (pointer h) (ptype_of h) (if in_range x then value x else deflt x)) /\
    (forall oks, Forall2 (accepted_as m) ps oks -> n = zlen (filter negb oks)).
Proof. exact check_float_exact_l. Qed.
Print Assumptions parameter_check_floats_exact.

(** An upper limit of NaN lets everything pass that is not below the lower limit. *)
Example parameter_check_floats_exact_case :
  let one := S754_finite false 8388608 (-23) in let two := S754_finite false 8388608 (-22) in
  passes (mkFinfo S754_nan one two one) = true /\ passes (mkFinfo two one S754_nan one) = true /\
  passes (mkFinfo one two S754_nan one) = false /\ passes xf = false.
Proof. vm_compute. auto. Qed.
