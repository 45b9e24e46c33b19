(** The pulse counter counts what the debounce filter reports. *)
From Coq Require Import ZifyBool.
From Verif Require Import Base BaseLemmas DebounceModel DebounceSpec DebounceSystem DebounceProofs DebounceVaryProofs.
From Verif Require Import PulseModel PulseSpec PulseSystem PulseVaryProofs PulseDebSystem.

Section P.
Variable W : nat.
Let N := Z.of_nat W.

Definition vf (s : Z * Z) : vop := VFilter (fst s) (snd s).
Definition vpf (s : Z * Z) : vpop := VPFilter (fst s) (snd s).

Lemma dreports_snoc : forall h f x d f1 rs f2 m, dreports W f h = Done (f1, rs) ->
  debounce_filter W f1 x d = Done (f2, m) ->
  dreports W f (h ++ [(x, d)]) = Done (f2, rs ++ [(m, debounce_value f2)]).
Proof.
  induction h as [|[y e] h IH]; intros f x d f1 rs f2 m E1 E2.
  - cbn in E1. injection E1; intros; subst. cbn [dreports app]. rewrite E2. reflexivity.
  - cbn [dreports app] in *. destruct (debounce_filter W f y e) as [[g n]| | |]; try discriminate. cbn [obind] in *.
    destruct (dreports W g h) as [[g' r]| | |] eqn:E; try discriminate. cbn [obind] in E1.
    injection E1; intros; subst. rewrite (IH _ _ _ _ _ _ _ E E2). reflexivity.
Qed.

Lemma panswers_snoc : forall h p x d p1 rs p2 c, panswers W p h = Done (p1, rs) ->
  pulse_filter W p1 x d = Done (p2, c) ->
  panswers W p (h ++ [(x, d)]) = Done (p2, rs ++ [c]).
Proof.
  induction h as [|[y e] h IH]; intros f x d f1 rs f2 m E1 E2.
  - cbn in E1. injection E1; intros; subst. cbn [panswers app]. rewrite E2. reflexivity.
  - cbn [panswers app] in *. destruct (pulse_filter W f y e) as [[g n]| | |]; try discriminate. cbn [obind] in *.
    destruct (panswers W g h) as [[g' r]| | |] eqn:E; try discriminate. cbn [obind] in E1.
    injection E1; intros; subst. rewrite (IH _ _ _ _ _ _ _ E E2). reflexivity.
Qed.

Lemma same_inputs : forall high v i h,
  fst (vpulse W high v 0 i (map vpf h)) = vinput W v i (map vf h).
Proof.
  intros high v i h. induction h as [|[x d] h IH] using rev_ind; [reflexivity|].
  unfold vpulse, vinput in *. rewrite !map_app, !fold_left_app. cbn [map fold_left]. cbn [vf vpf fst snd vpulse_step vstep].
  now rewrite IH.
Qed.

Lemma nonzero_bits : forall m, 0 <= m < 2 ^ N ->
  negb (m =? 0) = existsb (fun k => Z.testbit m (Z.of_nat k)) (seq 0 W).
Proof.
  intros m Hm. destruct (existsb _ _) eqn:E.
  - apply existsb_exists in E as (k & _ & Hk). destruct (Z.eqb_spec m 0); [|reflexivity].
    subst m. now rewrite Z.bits_0 in Hk.
  - destruct (Z.eqb_spec m 0) as [|n]; [reflexivity|]. exfalso. apply n. apply Z.bits_inj'. intros j Hj.
    rewrite Z.bits_0. destruct (Z.ltb_spec j N) as [Hl|Hl].
    + destruct (Z.testbit m j) eqn:Ej; [|reflexivity]. exfalso.
      assert (Ht : existsb (fun k => Z.testbit m (Z.of_nat k)) (seq 0 W) = true).
      { apply existsb_exists. exists (Z.to_nat j). split; [apply in_seq; unfold N in *; lia|]. now rewrite Z2Nat.id. }
      congruence.
    + apply (inrange_bits W m Hm). exact Hl.
Qed.

Lemma ends_bit : forall high a b i, 0 <= i ->
  Z.testbit (pulse_ends high (Z.lxor a b, b)) i = counted high (Z.testbit a i) (Z.testbit b i).
Proof.
  intros high a b i Hi. unfold pulse_ends, counted. destruct high.
  - rewrite Z.ldiff_spec, Z.lxor_spec by lia. now destruct (Z.testbit a i), (Z.testbit b i).
  - rewrite Z.land_spec, Z.lxor_spec by lia. now destruct (Z.testbit a i), (Z.testbit b i).
Qed.

Lemma ends_range : forall high a b, 0 <= a < 2 ^ N -> 0 <= b < 2 ^ N ->
  0 <= pulse_ends high (Z.lxor a b, b) < 2 ^ N.
Proof.
  intros high a b Ha Hb.
  assert (H0 : 0 <= pulse_ends high (Z.lxor a b, b)).
  { unfold pulse_ends. destruct high.
    - apply Z.ldiff_nonneg. left. apply Z.lxor_nonneg. lia.
    - apply Z.land_nonneg. right. lia. }
  split; [exact H0|]. apply (bits_inrange W); [exact H0|]. intros m Hm.
  rewrite ends_bit by (unfold N in *; lia). rewrite (inrange_bits W a Ha m Hm), (inrange_bits W b Hb m Hm).
  now destruct high.
Qed.

Lemma pulse_deb_l : forall high f p v h, length (debounce_count f) = W -> mem_ok W p ->
  Forall (fun c => c = 0) (filters p) -> 0 <= v < 2 ^ Z.of_nat W -> words_ok W h ->
  exists f0 p0 f' rs p' cs,
    dstart W f v = Done f0 /\ pulse_filter_init W p (type_of high) v = Done p0 /\
    dreports W f0 h = Done (f', rs) /\ panswers W p0 h = Done (p', cs) /\
    cs = map (fun r => b2z (negb (pulse_ends high r =? 0))) rs /\
    forall i, 0 <= i < Z.of_nat W ->
      pulse_level W p' i = debounce_read W f' i /\
      pulse_count W p' i = Done (swrap (Z.of_nat W) (pulses_of high i rs)).
Proof.
  intros high f p v h Hf Hp Hz Hv Hh.
  destruct (vary_l W f v [] Hf Hv ltac:(constructor)) as (f0 & F0 & _).
  destruct (pulse_vary_l W high p v [] Hp Hv) as (p0 & P0 & _).
  assert (F1 : dstart W f v = Done f0).
  { unfold vhistory in F0. destruct (dstart W f v); try discriminate. exact F0. }
  assert (P1 : pulse_filter_init W p (type_of high) v = Done p0).
  { unfold vphistory in P0. destruct (pulse_filter_init W p (type_of high) v); try discriminate. exact P0. }
  assert (Hz' : forall k, nth k (filters p) 0 = 0).
  { intros k. destruct (Nat.lt_ge_cases k (length (filters p))) as [Hk|Hk].
    - rewrite Forall_forall in Hz. apply Hz. now apply nth_In.
    - now apply nth_overflow. }
  exists f0, p0.
  assert (HI : exists f' rs p' cs, vhistory W f v (map vf h) = Done f' /\ vphistory W p high v (map vpf h) = Done p' /\
    dreports W f0 h = Done (f', rs) /\ panswers W p0 h = Done (p', cs) /\
    cs = map (fun r => b2z (negb (pulse_ends high r =? 0))) rs /\
    forall i, 0 <= i < N -> snd (vpulse W high v 0 i (map vpf h)) = pulses_of high i rs).
  { induction h as [|[x d] h IH] using rev_ind.
    - exists f0, [], p0, []. repeat (split; [assumption || reflexivity|]). reflexivity.
    - apply Forall_app in Hh as [Hh Hx]. apply Forall_inv in Hx. cbn [fst] in Hx.
      destruct (IH Hh) as (f1 & rs & p1 & cs & V1 & Q1 & D1 & A1 & C1 & S1). clear IH.
      assert (Ho : Forall (vop_ok W) (map vf h)).
      { apply Forall_map. eapply Forall_impl; [|exact Hh]. intros [y e] Hy. exact Hy. }
      destruct (DebounceVaryProofs.history_vary W f v (map vf h) Hf Hv Ho) as (f1' & V1' & Wf1 & _).
      rewrite V1 in V1'. injection V1' as <-.
      destruct (vary_l W f v (map vf h) Hf Hv Ho) as (f1' & V1' & R1 & N1). rewrite V1 in V1'. injection V1' as <-.
      destruct (N1 (VFilter x d) Hx eq_refl) as (f2 & C2 & V2). cbn [vcall] in C2.
      assert (Ho2 : Forall (vop_ok W) (map vf h ++ [VFilter x d])).
      { apply Forall_app. split; [exact Ho|]. constructor; [exact Hx|constructor]. }
      destruct (DebounceVaryProofs.history_vary W f v _ Hf Hv Ho2) as (f2' & V2' & Wf2 & _). rewrite V2 in V2'. injection V2' as <-.
      destruct (vary_l W f v _ Hf Hv Ho2) as (f2' & V2' & R2 & _). rewrite V2 in V2'. injection V2' as <-.
      destruct (pulse_vary_l W high p v (map vpf h) Hp Hv) as (p1' & Q1' & _ & M1).
      rewrite Q1 in Q1'. injection Q1' as <-.
      destruct (M1 x d) as (p2 & B2 & Q2).
      exists f2, (rs ++ [(Z.lxor (debounce_value f1) (debounce_value f2), debounce_value f2)]),
        p2, (cs ++ [b2z (some_pulse W high v (filters p) (map vpf h) x d)]).
      rewrite !map_app. cbn [map]. split; [exact V2|]. split; [exact Q2|].
      split; [exact (dreports_snoc _ _ _ _ _ _ _ _ D1 C2)|].
      split; [exact (panswers_snoc _ _ _ _ _ _ _ _ A1 B2)|].
      assert (G1 : 0 <= debounce_value f1 < 2 ^ N) by (unfold wf in Wf1; unfold debounce_value, N; intuition lia).
      assert (G2 : 0 <= debounce_value f2 < 2 ^ N) by (unfold wf in Wf2; unfold debounce_value, N; intuition lia).
      assert (K : forall i, 0 <= i < N ->
        counted high (Z.testbit (debounce_value f1) i) (Z.testbit (debounce_value f2) i) =
        counted high (reading (fst (vpulse W high v 0 i (map vpf h))))
          (reading (sampled W (fst (vpulse W high v 0 i (map vpf h))) (Z.testbit x i) d))).
      { intros i Hi. rewrite (proj2 (R1 i Hi)), (proj2 (R2 i Hi)), !same_inputs.
        unfold vinput. rewrite fold_left_app. reflexivity. }
      split.
      + rewrite C1. f_equal. f_equal. f_equal. rewrite nonzero_bits by now apply ends_range.
        unfold some_pulse.
        assert (HL : forall l, (forall k, In k l -> (k < W)%nat) ->
          existsb (fun k => let i := Z.of_nat k in let s := fst (vpulse W high v (nth k (filters p) 0) i (map vpf h)) in
             counted high (reading s) (reading (sampled W s (Z.testbit x i) d))) l =
          existsb (fun k => Z.testbit (pulse_ends high (Z.lxor (debounce_value f1) (debounce_value f2), debounce_value f2)) (Z.of_nat k)) l).
        { induction l as [|k l IHl]; intros Hk; [reflexivity|]. cbn [existsb].
          f_equal; [|apply IHl; intros; apply Hk; now right]. cbv zeta. rewrite ends_bit by lia.
          pose proof (Hk k ltac:(now left)). rewrite Hz'. symmetry. apply K. unfold N. lia. }
        apply HL. intros k Hk. apply in_seq in Hk. lia.
      + intros i Hi. unfold pulses_of. rewrite filter_app, app_length, Nat2Z.inj_add.
        change (Z.of_nat (length (filter (fun r => Z.testbit (pulse_ends high r) i) rs))) with (pulses_of high i rs).
        rewrite <- (S1 i Hi).
        assert (EV : vpulse W high v 0 i (map vpf h ++ [VPFilter x d]) =
          vpulse_step W high i (vpulse W high v 0 i (map vpf h)) (VPFilter x d)) by (unfold vpulse; now rewrite fold_left_app).
        change (vpf (x, d)) with (VPFilter x d). rewrite EV. cbn [vpulse_step fst snd filter].
        rewrite <- (K i Hi), ends_bit by lia.
        destruct (counted high _ _); cbn [length]; lia. }
  destruct HI as (f' & rs & p' & cs & V & Q & D & A & C & S).
  exists f', rs, p', cs. repeat (split; [assumption|]). intros i Hi.
  assert (Ho : Forall (vop_ok W) (map vf h)).
  { apply Forall_map. eapply Forall_impl; [|exact Hh]. intros [y e] Hy. exact Hy. }
  destruct (vary_l W f v (map vf h) Hf Hv Ho) as (f1' & V1' & R1 & _). rewrite V in V1'. injection V1' as <-.
  destruct (pulse_vary_l W high p v (map vpf h) Hp Hv) as (p1' & Q1' & L1 & _). rewrite Q in Q1'. injection Q1' as <-.
  destruct (L1 i Hi) as [L2 L3]. rewrite Hz' in L2, L3. rewrite (proj1 (R1 i Hi)), L2, L3, same_inputs, (S i Hi).
  split; reflexivity.
Qed.
End P.
