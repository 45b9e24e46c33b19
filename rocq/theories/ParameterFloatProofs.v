(** Proofs about floating point parameters. *)
From Verif Require Import Base BaseLemmas Loop Float FloatProofs FloatSpec FloatExact ParameterModel ParameterSpec ParameterProofs ParameterTableProofs.
From Coq Require Import Floats.SpecFloat.

Lemma parts : forall M E s e f, 0 < M -> 0 < E -> 0 <= f < M -> 0 <= e < E ->
  let raw := b2z s * (M * E) + e * M + f in
  raw / (M * E) = b2z s /\ (raw / M) mod E = e /\ raw mod M = f.
Proof.
  intros M E s e f HM HE Hf He raw.
  assert (0 <= e * M + f < M * E) by nia.
  unfold raw. split; [|split].
  - rewrite <- Z.add_assoc, Z.div_add_l by lia. rewrite (Z.div_small (e * M + f)) by lia. lia.
  - replace (b2z s * (M * E) + e * M + f) with ((b2z s * E + e) * M + f) by ring.
    rewrite Z.div_add_l by lia. rewrite (Z.div_small f) by lia. rewrite Z.add_0_r, Z.add_comm, Z.mod_add by lia.
    apply Z.mod_small. exact He.
  - replace (b2z s * (M * E) + e * M + f) with (f + (b2z s * E + e) * M) by ring. rewrite Z.mod_add by lia.
    apply Z.mod_small. exact Hf.
Qed.

Lemma odd_b2z : forall s, Z.odd (b2z s) = s.
Proof. destruct s; reflexivity. Qed.

Lemma decode_parts : forall mw ew emin s e f, 0 < mw -> 0 < ew -> 0 <= f < 2 ^ mw -> 0 <= e < 2 ^ ew ->
  decode mw ew emin (b2z s * 2 ^ (mw + ew) + e * 2 ^ mw + f) =
  if e =? 2 ^ ew - 1 then (if f =? 0 then S754_infinity s else S754_nan)
  else if e =? 0 then match f with Zpos p => S754_finite s p emin | _ => S754_zero s end
  else match f + 2 ^ mw with Zpos p => S754_finite s p (e - 1 + emin) | _ => S754_nan end.
Proof.
  intros mw ew emin s e f Hm He Hf Hee. rewrite Z.pow_add_r by lia.
  assert (0 < 2 ^ mw) by (apply Z.pow_pos_nonneg; lia). assert (0 < 2 ^ ew) by (apply Z.pow_pos_nonneg; lia).
  destruct (parts (2 ^ mw) (2 ^ ew) s e f) as (P1 & P2 & P3); try assumption.
  unfold decode. rewrite Z.pow_add_r by lia. rewrite P1, P2, P3, odd_b2z. reflexivity.
Qed.

Lemma decode_ieee : forall mw ew emin raw x, 0 < mw -> 1 < ew -> ieee mw ew emin raw x ->
  decode mw ew emin raw = x /\ 0 <= raw < 2 ^ (1 + mw + ew).
Proof.
  intros mw ew emin raw x Hm He H.
  assert (PM : 0 < 2 ^ mw) by (apply Z.pow_pos_nonneg; lia).
  assert (PE : 2 < 2 ^ ew) by (change 2 with (2 ^ 1) at 1; apply Z.pow_lt_mono_r; lia).
  assert (Q : exists s e f, 0 <= f < 2 ^ mw /\ 0 <= e < 2 ^ ew /\ raw = b2z s * 2 ^ (mw + ew) + e * 2 ^ mw + f /\
    x = if e =? 2 ^ ew - 1 then (if f =? 0 then S754_infinity s else S754_nan)
        else if e =? 0 then match f with Zpos p => S754_finite s p emin | _ => S754_zero s end
        else match f + 2 ^ mw with Zpos p => S754_finite s p (e - 1 + emin) | _ => S754_nan end).
  { destruct H as [s|s f Hf|s e f H1 H2|s|s f Hf].
    - exists s, 0, 0. repeat split; try lia. destruct (Z.eqb_spec 0 (2 ^ ew - 1)); [lia|reflexivity].
    - exists s, 0, (Zpos f). repeat split; try lia. destruct (Z.eqb_spec 0 (2 ^ ew - 1)); [lia|reflexivity].
    - exists s, e, (Zpos f - 2 ^ mw). repeat split; try lia. destruct (Z.eqb_spec e (2 ^ ew - 1)); [lia|].
      destruct (Z.eqb_spec e 0); [lia|]. replace (Zpos f - 2 ^ mw + 2 ^ mw) with (Zpos f) by lia. f_equal. lia.
    - exists s, (2 ^ ew - 1), 0. repeat split; try lia. rewrite Z.eqb_refl. reflexivity.
    - exists s, (2 ^ ew - 1), f. repeat split; try lia. rewrite Z.eqb_refl. destruct (Z.eqb_spec f 0); [lia|reflexivity]. }
  destruct Q as (s & e & f & Hf & Hee & -> & ->). split; [apply decode_parts; lia|].
  replace (1 + mw + ew) with (mw + ew + 1) by lia. rewrite (Z.pow_add_r 2 (mw + ew) 1) by lia. rewrite Z.pow_add_r by lia.
  assert (0 <= e * 2 ^ mw + f < 2 ^ mw * 2 ^ ew) by nia.
  change (2 ^ 1) with 2. destruct s; cbn [b2z]; lia.
Qed.

Lemma float_decode : forall ty raw x, ieee_of ty raw x -> float_value ty raw = x /\ raw mod 2 ^ bits ty = raw.
Proof.
  intros ty raw x H. destruct ty; cbn [ieee_of] in H; try contradiction; unfold float_value.
  - apply decode_ieee in H; [|lia|lia]. destruct H as [H1 H2]. split; [exact H1|]. apply Z.mod_small. exact H2.
  - apply decode_ieee in H; [|lia|lia]. destruct H as [H1 H2]. split; [exact H1|]. apply Z.mod_small. exact H2.
Qed.

Lemma ieee_float : forall ty raw x, ieee_of ty raw x -> is_int ty = false.
Proof. intros ty raw x H. destruct ty; cbn [ieee_of] in H; try contradiction; reflexivity. Qed.

(** * Comparisons *)

Lemma compare_antisym : forall a b, a <> S754_nan -> b <> S754_nan ->
  exists c, SFcompare a b = Some c /\ SFcompare b a = Some (CompOpp c).
Proof.
  intros a b Ha Hb. destruct a as [sa|sa| |sa ma ea]; try congruence; destruct b as [sb|sb| |sb mb eb]; try congruence;
    unfold SFcompare; try (destruct sa; eexists; split; reflexivity); try (destruct sb; eexists; split; reflexivity);
    try (destruct sa, sb; eexists; split; reflexivity).
  destruct sa, sb; try (eexists; split; reflexivity).
  - rewrite (Z.compare_antisym eb ea). destruct (eb ?= ea); cbn; try (eexists; split; reflexivity).
    exists (CompOpp (Pos.compare_cont Eq ma mb)). split; [reflexivity|]. rewrite CompOpp_involutive.
    f_equal. change (CompOpp (mb ?= ma)%positive = (ma ?= mb)%positive). symmetry. apply Pos.compare_antisym.
  - rewrite (Z.compare_antisym eb ea). destruct (eb ?= ea); cbn; try (eexists; split; reflexivity).
    exists (Pos.compare_cont Eq ma mb). split; [reflexivity|].
    f_equal. change ((mb ?= ma)%positive = CompOpp (ma ?= mb)%positive). apply Pos.compare_antisym.
Qed.

Lemma ltb_leb : forall a b, a <> S754_nan -> b <> S754_nan -> SFltb a b = negb (SFleb b a).
Proof.
  intros a b Ha Hb. unfold SFltb, SFleb. destruct (compare_antisym a b Ha Hb) as (c & E1 & E2).
  rewrite E1, E2. destruct c; reflexivity.
Qed.

(** * check_ranges *)

Lemma fholds_load : forall m p ty x, fholds m p ty x ->
  exists raw, load m p (size ty) = Done raw /\ float_value ty raw = x /\ is_int ty = false.
Proof.
  intros m p ty x (raw & I & R). destruct (float_decode _ _ _ I) as [D M]. exists raw.
  split; [|split; [exact D|apply ieee_float with raw x; exact I]].
  rewrite (load_ok m p (size ty) raw); [|pose proof (size_pos ty); lia|exact R]. rewrite pow_bits, M. reflexivity.
Qed.

Lemma flimit_lower : forall h m x, flimit m (pmin h) (minv h) (ptype_of h) x ->
  exists raw, lower h m = Done raw /\ float_value (ptype_of h) raw = x.
Proof.
  intros h m x H. unfold lower, flimit in *. destruct (pmin h).
  - destruct (fholds_load _ _ _ _ H) as (raw & L & V & _). eauto.
  - eexists. split; [reflexivity|]. apply (float_decode _ _ _ H).
Qed.

Lemma flimit_upper : forall h m x, flimit m (pmax h) (maxv h) (ptype_of h) x ->
  exists raw, upper h m = Done raw /\ float_value (ptype_of h) raw = x.
Proof.
  intros h m x H. unfold upper, flimit in *. destruct (pmax h).
  - destruct (fholds_load _ _ _ _ H) as (raw & L & V & _). eauto.
  - eexists. split; [reflexivity|]. apply (float_decode _ _ _ H).
Qed.

Lemma check_float : forall m h x, fdescribes m h x ->
  exists r, CHECK_RANGE h m = Done r /\ negb (r =? 0) = negb (passes x).
Proof.
  intros m h x (Hv & Hlo & Hhi & _). unfold CHECK_RANGE.
  destruct (fholds_load _ _ _ _ Hv) as (v & -> & Ev & Ei). destruct (flimit_lower h m _ Hlo) as (l & -> & El).
  destruct (flimit_upper h m _ Hhi) as (u & -> & Eu). cbn [obind]. eexists. split; [reflexivity|].
  unfold passes.
  assert (G : forall a b, gt (ptype_of h) a b = SFltb (float_value (ptype_of h) b) (float_value (ptype_of h) a)).
  { intros. unfold gt. destruct (ptype_of h); try discriminate Ei; reflexivity. }
  rewrite !G, Ev, El, Eu.
  destruct (SFltb (fhi x) (fvalue x)), (SFltb (fvalue x) (flo x)); reflexivity.
Qed.

Lemma passes_within : forall x, numbers x -> passes x = within (flo x) (fvalue x) (fhi x).
Proof.
  intros x (N1 & N2 & N3). unfold passes, within. rewrite !ltb_leb by assumption.
  destruct (SFleb (fvalue x) (fhi x)), (SFleb (flo x) (fvalue x)); reflexivity.
Qed.

Definition check_bad (m : mem) (ps : list handle) (j : nat) : bool :=
  match nth_error ps j with
  | Some h => match CHECK_RANGE h m with Done r => negb (r =? 0) | _ => false end
  | None => false
  end.

Lemma zlen_filter_seq : forall (bad : nat -> bool) oks k, (forall j ok, nth_error oks j = Some ok -> bad (k + j)%nat = negb ok) ->
  zlen (filter bad (seq k (length oks))) = zlen (filter negb oks).
Proof.
  intros bad oks. induction oks as [|ok oks IH]; intros k H; [reflexivity|]. cbn [length seq filter].
  pose proof (H O ok eq_refl) as H0. rewrite Nat.add_0_r in H0. rewrite H0.
  specialize (IH (S k)). unfold zlen in *. destruct ok; cbn [negb length].
  - apply IH. intros j ok Hj. specialize (H (S j) ok Hj). rewrite <- plus_n_Sm in H. exact H.
  - rewrite !Nat2Z.inj_succ. f_equal. apply IH. intros j ok Hj. specialize (H (S j) ok Hj). rewrite <- plus_n_Sm in H. exact H.
Qed.

Lemma check_float_exact_l : forall hook ps m, tame hook -> levels hook ps -> distinct_storage ps m -> limits_elsewhere ps ->
  Forall (fun h => (exists x, describes m h x) \/ exists x, fdescribes m h x) ps ->
  exists ps' m' n, parameter_check_ranges hook ps m = Done (ps', m', n) /\ only_parameters_changed ps m m' /\
    (forall h x, In h ps -> fdescribes m h x ->
      fholds m' (pointer h) (ptype_of h) (if passes x then fvalue x else fdeflt x) /\
      (passes x = true -> same_bytes m (pointer h) m' (pointer h) (size (ptype_of h)))) /\
    (forall h x, In h ps -> describes m h x ->
      holds m' (pointer h) (ptype_of h) (if in_range x then value x else deflt x)) /\
    (forall oks, Forall2 (accepted_as m) ps oks -> n = zlen (filter negb oks)).
Proof.
  intros hook ps m T [U LV] D LE F. unfold parameter_check_ranges.
  destruct (check_loop hook T LV (length ps) 0 ps ps m 0 (check_bad m ps)) as (ps' & m' & E & _ & _ & C & R & _);
    try assumption; [reflexivity|apply cores_refl| |].
  { intros j h _ Ej. unfold check_bad. rewrite Ej. rewrite Forall_forall in F. pose proof (nth_error_In _ _ Ej) as Hin.
    destruct (F h Hin) as [[x Hx]|[x Hx]].
    - destruct (judged_int m h x Hx) as (r & Er & _). exists r. rewrite Er. auto.
    - destruct (check_float m h x Hx) as (r & Er & _). exists r. rewrite Er. auto. }
  eexists ps', m', _. split; [exact E|]. split; [apply changed_params; exact C|]. split; [|split].
  - intros h x Hh Hx. apply In_nth_error in Hh. destruct Hh as [j Ej]. specialize (R j h ltac:(lia) Ej).
    destruct (check_float m h x Hx) as (r & Er & B). unfold check_bad in R. rewrite Ej, Er, B in R.
    destruct Hx as (Hv & _ & _ & Hd).
    destruct (passes x); cbn [negb] in R.
    + split; [|intros _ i Hi; rewrite R by exact Hi; reflexivity].
      destruct Hv as (raw & I & Hp & V). exists raw. split; [exact I|]. split; [exact Hp|]. intros i Hi. rewrite R by exact Hi.
      apply V. exact Hi.
    + split; [|discriminate]. eexists. split; [exact Hd|]. apply raw_at_mod in R.
      rewrite pow256_2 in R by (pose proof (size_pos (ptype_of h)); lia). exact R.
  - intros h x Hh Hx. apply In_nth_error in Hh. destruct Hh as [j Ej]. specialize (R j h ltac:(lia) Ej).
    destruct (judged_int m h x Hx) as (r & Er & B). unfold check_bad in R. rewrite Ej, Er, <- B in R.
    destruct Hx as (Hv & _ & _ & Hd).
    destruct (in_range x); cbn [negb] in R.
    + destruct Hv as (V1 & V2 & V3 & V4). split; [exact V1|]. split; [exact V2|]. split; [exact V3|]. intros i Hi. rewrite R by exact Hi. apply V4. exact Hi.
    + apply union_raw with (defaultv h); assumption.
  - intros oks O. rewrite Z.add_0_l. rewrite (Forall2_length_l _ _ _ _ _ O). apply zlen_filter_seq.
    intros j ok Ej. cbn [Nat.add]. unfold check_bad.
    assert (Hj : (j < length ps)%nat) by (rewrite (Forall2_length_l _ _ _ _ _ O); apply nth_error_Some; congruence).
    destruct (nth_error ps j) as [h|] eqn:Eh; [|apply nth_error_None in Eh; lia].
    destruct (Forall2_nth_l _ _ _ _ _ _ _ O Eh) as (b & Eb & Hb). assert (b = ok) by congruence. subst b.
    destruct Hb as [(x & Hx & ->)|(x & Hx & ->)].
    + destruct (judged_int m h x Hx) as (r & Er & B). rewrite Er. symmetry. exact B.
    + destruct (check_float m h x Hx) as (r & Er & B). rewrite Er. exact B.
Qed.

Lemma check_float_l : forall hook ps m, tame hook -> levels hook ps -> distinct_storage ps m -> limits_elsewhere ps ->
  Forall (fun h => (exists x, describes m h x) \/ exists x, fdescribes m h x) ps ->
  exists ps' m' n, parameter_check_ranges hook ps m = Done (ps', m', n) /\ only_parameters_changed ps m m' /\
    (forall h x, In h ps -> fdescribes m h x -> numbers x ->
      fholds m' (pointer h) (ptype_of h) (if within (flo x) (fvalue x) (fhi x) then fvalue x else fdeflt x)) /\
    (forall h x, In h ps -> describes m h x ->
      holds m' (pointer h) (ptype_of h) (if in_range x then value x else deflt x)) /\
    (forall oks, Forall2 (judged_as m) ps oks -> n = zlen (filter negb oks)).
Proof.
  intros hook ps m T L D LE F.
  destruct (check_float_exact_l hook ps m T L D LE F) as (ps' & m' & n & E & C & R & I & O).
  exists ps', m', n. split; [exact E|]. split; [exact C|]. split; [|split; [exact I|]].
  - intros h x Hh Hx N. rewrite <- passes_within by exact N. apply (R h x Hh Hx).
  - intros oks J. apply O. revert J. clear. intros J. induction J as [|h b hs bs H J IH]; constructor; [|exact IH].
    destruct H as [H|(x & Hx & N & ->)]; [left; exact H|]. right. exists x. split; [exact Hx|].
    symmetry. apply passes_within. exact N.
Qed.

(** * Stepping *)

Lemma encode_ieee : forall mw ew emin x, 0 < mw -> SpecFloat.emin (mw + 1) (emin + 2 ^ ew - 2 + mw) = emin ->
  good (mw + 1) (emin + 2 ^ ew - 2 + mw) x -> ieee mw ew emin (encode mw ew emin x) x.
Proof.
  intros mw ew emin x Hm He G. destruct x as [s|s| |s m e]; cbn [encode].
  - constructor.
  - constructor.
  - destruct G as [_ G]. congruence.
  - apply finite_good in G; [|lia]. rewrite He in G. destruct G as (G1 & G2 & G3).
    replace (mw + 1 - 1) with mw in G3 by lia. rewrite Z.pow_add_r in G2 by lia. change (2 ^ 1) with 2 in G2.
    destruct (Z.ltb_spec (Zpos m) (2 ^ mw)) as [L|L].
    + assert (e = emin) by lia. subst e. apply ieee_subnormal. lia.
    + replace (S754_finite s m e) with (S754_finite s m (emin + (e - emin + 1) - 1)) by (f_equal; lia).
      replace (b2z s * 2 ^ (mw + ew) + ((e - emin + 1) * 2 ^ mw + (Zpos m - 2 ^ mw)))
        with (b2z s * 2 ^ (mw + ew) + (e - emin + 1) * 2 ^ mw + (Zpos m - 2 ^ mw)) by ring.
      apply ieee_normal; lia.
Qed.

Lemma ieee_good : forall mw ew emin raw x, 0 < mw -> 1 < ew -> SpecFloat.emin (mw + 1) (emin + 2 ^ ew - 2 + mw) = emin ->
  ieee mw ew emin raw x -> x <> S754_nan -> good (mw + 1) (emin + 2 ^ ew - 2 + mw) x.
Proof.
  intros mw ew emin raw x Hm Hw He I N.
  assert (P : 2 ^ (mw + 1) = 2 * 2 ^ mw) by (rewrite Z.pow_add_r by lia; change (2 ^ 1) with 2; lia).
  assert (4 <= 2 ^ ew) by (change 4 with (2 ^ 2); apply Z.pow_le_mono_r; lia).
  unfold SpecFloat.emin in He.
  destruct I as [s|s f Hf|s e f H1 H2|s|s f Hf]; try congruence; try (split; [reflexivity|discriminate]).
  - apply good_finite; unfold SpecFloat.emin; lia.
  - apply good_finite; unfold SpecFloat.emin; [lia|lia|lia|]. intros _. replace (mw + 1 - 1) with mw by lia. lia.
Qed.

Lemma format : forall ty, is_int ty = false -> exists mw ew emin, 0 < mw /\ 1 < ew /\
  SpecFloat.emin (mw + 1) (emin + 2 ^ ew - 2 + mw) = emin /\ emin <= -32 /\ 32 + mw <= emin + 2 ^ ew - 2 + mw /\
  ieee_of ty = ieee mw ew emin /\ float_value ty = decode mw ew emin /\
  fsum ty = SFadd (mw + 1) (emin + 2 ^ ew - 2 + mw) /\ fproduct ty = SFmul (mw + 1) (emin + 2 ^ ew - 2 + mw) /\
  (forall z, nearest ty z = binary_normalize (mw + 1) (emin + 2 ^ ew - 2 + mw) z 0 false) /\
  forall var step mod_, add_steps ty var step mod_ = Done (encode mw ew emin (fsum ty (float_value ty var) (fproduct ty (float_value ty step) (nearest ty mod_)))).
Proof.
  intros ty Hi. destruct ty; try discriminate Hi.
  - exists 23, 8, (-149). split; [lia|]. split; [lia|]. split; [reflexivity|]. split; [lia|]. split; [lia|]. repeat split.
  - exists 52, 11, (-1074). split; [lia|]. split; [lia|]. split; [reflexivity|]. split; [lia|]. split; [lia|]. repeat split.
Qed.

Lemma sum_number : forall ty raw1 raw2 v s mod_, ieee_of ty raw1 v -> ieee_of ty raw2 s -> finite v -> finite s ->
  INT_MIN <= mod_ <= INT_MAX ->
  let x := fsum ty v (fproduct ty s (nearest ty mod_)) in
  exists raw, add_steps ty raw1 raw2 mod_ = Done raw /\ ieee_of ty raw x /\ x <> S754_nan.
Proof.
  intros ty raw1 raw2 v s mod_ I1 I2 F1 F2 HM x.
  destruct (format ty (ieee_float _ _ _ I1)) as (mw & ew & emin & Hm & Hw & He & Hz & Hx & E1 & E2 & E3 & E4 & E5 & E6).
  rewrite E6. eexists. split; [reflexivity|].
  rewrite (proj1 (float_decode _ _ _ I1)), (proj1 (float_decode _ _ _ I2)). fold x.
  assert (G : good (mw + 1) (emin + 2 ^ ew - 2 + mw) x).
  { rewrite E1 in I1, I2. unfold x. rewrite E3, E4, E5.
    assert (Gv : good (mw + 1) (emin + 2 ^ ew - 2 + mw) v).
    { apply (ieee_good mw ew emin raw1); try lia; try assumption. destruct v; cbn in F1; try contradiction; discriminate. }
    assert (Gs : good (mw + 1) (emin + 2 ^ ew - 2 + mw) s).
    { apply (ieee_good mw ew emin raw2); try lia; try assumption. destruct s; cbn in F2; try contradiction; discriminate. }
    destruct (normalize_good (mw + 1) (emin + 2 ^ ew - 2 + mw) ltac:(lia) mod_ 0 false) as [Gn Fn].
    apply add_good; [lia|exact Gv| |exact F1].
    apply mul_good; [lia|rewrite He; lia|exact Gs|exact Gn|exact F2|].
    apply (Fn 32); rewrite ?He; try lia. unfold INT_MIN, INT_MAX in HM. change (2 ^ 32) with 4294967296. lia. }
  split; [|apply G]. rewrite E1. apply encode_ieee; assumption.
Qed.

Lemma fholds_raw : forall m p ty x, fholds m p ty x -> exists raw, ieee_of ty raw x /\ load m p (size ty) = Done raw /\ inside m p (size ty).
Proof.
  intros m p ty x (raw & I & R). exists raw. split; [exact I|]. destruct (float_decode _ _ _ I) as [_ M].
  pose proof (size_pos ty). split; [|apply raw_at_inside with raw; [lia|exact R]].
  rewrite (load_ok m p (size ty) raw); [|lia|exact R]. rewrite pow_bits, M. reflexivity.
Qed.

Lemma flimit_raw : forall h m p u x, flimit m p u (ptype_of h) x ->
  exists raw, ieee_of (ptype_of h) raw x /\ match p with Some p => load m p (size (ptype_of h)) | None => Done (field (ptype_of h) u) end = Done raw.
Proof.
  intros h m p u x H. unfold flimit in H. destruct p as [p|].
  - destruct (fholds_raw _ _ _ _ H) as (raw & I & L & _). eauto.
  - eexists. split; [exact H|reflexivity].
Qed.

Lemma operator_float_l : forall h m mod_ lo hi v s, INT_MIN <= mod_ <= INT_MAX ->
  flimit m (pmin h) (minv h) (ptype_of h) lo -> flimit m (pmax h) (maxv h) (ptype_of h) hi ->
  lo <> S754_nan -> hi <> S754_nan ->
  fholds m (pointer h) (ptype_of h) v -> union_fholds (step h) (ptype_of h) s -> finite v -> finite s ->
  exists m', parameter_operator (Some h) m mod_ = Done (m', 0) /\ changed_only m m' (pointer h) (size (ptype_of h)) /\
    fholds m' (pointer h) (ptype_of h) (fstepped (ptype_of h) lo hi v s mod_).
Proof.
  intros h m mod_ lo hi v s HM Hlo Hhi Nlo Nhi Hv Hs Fv Fs.
  destruct (fholds_raw _ _ _ _ Hv) as (rv & Iv & Lv & In).
  destruct (flimit_raw h m _ _ _ Hlo) as (rl & Il & Ll). destruct (flimit_raw h m _ _ _ Hhi) as (rh & Ih & Lh).
  destruct (sum_number (ptype_of h) rv (field (ptype_of h) (step h)) v s mod_ Iv Hs Fv Fs HM) as (rx & Ex & Ix & Nx).
  unfold fstepped. set (x := fsum (ptype_of h) v (fproduct (ptype_of h) s (nearest (ptype_of h) mod_))) in *. clearbody x.
  unfold parameter_operator, APPLY_OPERATOR, CHECK_RANGE_AGAINST, lower, upper. rewrite Lv, Ll, Lh. cbn [obind]. rewrite Ex. cbn [obind].
  assert (G : forall a b, gt (ptype_of h) a b = SFltb (float_value (ptype_of h) b) (float_value (ptype_of h) a)).
  { intros. unfold gt. pose proof (ieee_float _ _ _ Iv) as Ei. destruct (ptype_of h); try discriminate Ei; reflexivity. }
  rewrite !G, (proj1 (float_decode _ _ _ Il)), (proj1 (float_decode _ _ _ Ih)), (proj1 (float_decode _ _ _ Ix)).
  rewrite !ltb_leb by assumption. unfold within.
  assert (P : 0 < size (ptype_of h)) by (pose proof (size_pos (ptype_of h)); lia).
  assert (S : forall r y, ieee_of (ptype_of h) r y -> exists m', (do m1 <- store m (pointer h) (size (ptype_of h)) r; Done (m1, 0)) = Done (m', 0) /\
    changed_only m m' (pointer h) (size (ptype_of h)) /\ fholds m' (pointer h) (ptype_of h) y).
  { intros r y Iy. destruct (store_ok m (pointer h) (size (ptype_of h)) r P In) as (m' & Es & Rs & Cs). exists m'. rewrite Es.
    split; [reflexivity|]. split; [exact Cs|]. exists r. split; [exact Iy|exact Rs]. }
  destruct (SFleb x hi), (SFleb lo x); cbn [negb andb Z.eqb]; try (apply S; exact Ix);
    (destruct (Z.ltb_spec 0 mod_); [apply S; exact Il|]; destruct (Z.ltb_spec mod_ 0); apply S; assumption).
Qed.

Lemma operator_float_range_l : forall h m mod_ lo hi v s, INT_MIN <= mod_ <= INT_MAX -> mod_ <> 0 ->
  flimit m (pmin h) (minv h) (ptype_of h) lo -> flimit m (pmax h) (maxv h) (ptype_of h) hi -> SFleb lo hi = true ->
  fholds m (pointer h) (ptype_of h) v -> union_fholds (step h) (ptype_of h) s -> finite v -> finite s ->
  exists m' y, parameter_operator (Some h) m mod_ = Done (m', 0) /\ fholds m' (pointer h) (ptype_of h) y /\ within lo y hi = true.
Proof.
  intros h m mod_ lo hi v s HM Hz Hlo Hhi Le Hv Hs Fv Fs.
  assert (Nlo : lo <> S754_nan) by (intros ->; discriminate Le).
  assert (Nhi : hi <> S754_nan) by (intros ->; destruct lo; discriminate Le).
  destruct (operator_float_l h m mod_ lo hi v s HM Hlo Hhi Nlo Nhi Hv Hs Fv Fs) as (m' & E & _ & F).
  exists m', (fstepped (ptype_of h) lo hi v s mod_). split; [exact E|]. split; [exact F|].
  assert (R : forall a, a <> S754_nan -> SFleb a a = true).
  { intros a Na. destruct a as [[]|[]| |[] ma ea]; try congruence; try reflexivity.
    - unfold SFleb, SFcompare. rewrite Z.compare_refl. fold (ma ?= ma)%positive. rewrite Pos.compare_refl. reflexivity.
    - unfold SFleb, SFcompare. rewrite Z.compare_refl. fold (ma ?= ma)%positive. rewrite Pos.compare_refl. reflexivity. }
  unfold fstepped. match goal with |- within lo (if within lo ?a hi then _ else _) hi = _ => destruct (within lo a hi) eqn:W end; [exact W|].
  unfold within. destruct (Z.ltb_spec 0 mod_); [rewrite (R lo Nlo), Le; reflexivity|]. destruct (Z.ltb_spec mod_ 0); [rewrite (R hi Nhi), Le; reflexivity|lia].
Qed.

(** * Steps without rounding *)

Lemma format_number : forall ty, is_int ty = false -> exists prec emax, 1 < prec /\ 3 - emax - prec <= 0 /\
  (forall z k, exact_in ty z k <-> in_format prec emax z k) /\
  fsum ty = SFadd prec emax /\ fproduct ty = SFmul prec emax /\ (forall z, nearest ty z = binary_normalize prec emax z 0 false) /\
  forall raw x, ieee_of ty raw x -> x <> S754_nan -> number prec emax x.
Proof.
  intros ty Hi. destruct ty; try discriminate Hi.
  - exists 24, 128. split; [lia|]. split; [lia|]. split; [intros; apply iff_refl|]. split; [reflexivity|]. split; [reflexivity|]. split; [reflexivity|].
    intros raw x I Nx. exact (proj1 (ieee_good 23 8 (-149) raw x ltac:(lia) ltac:(lia) eq_refl I Nx)).
  - exists 53, 1024. split; [lia|]. split; [lia|]. split; [intros; apply iff_refl|]. split; [reflexivity|]. split; [reflexivity|]. split; [reflexivity|].
    intros raw x I Nx. exact (proj1 (ieee_good 52 11 (-1074) raw x ltac:(lia) ltac:(lia) eq_refl I Nx)).
Qed.

Lemma worth_finite : forall x z k, worth x z k -> finite x /\ x <> S754_nan.
Proof. intros [s|s| |s m e] z k H; try contradiction; split; try exact I; discriminate. Qed.

Lemma fstepped_exact : forall ty k rl rh rv rs lo hi v s L H a b mod_,
  ieee_of ty rl lo -> ieee_of ty rh hi -> ieee_of ty rv v -> ieee_of ty rs s ->
  worth lo L k -> worth hi H k -> worth v a k -> worth s b k ->
  exact_in ty mod_ 0 -> exact_in ty (b * mod_) k -> exact_in ty (a + b * mod_) k ->
  worth (fstepped ty lo hi v s mod_) (stepped L H a b mod_) k.
Proof.
  intros ty k rl rh rv rs lo hi v s L H a b mod_ Il Ih Iv Is Wl Wh Wv Ws X1 X2 X3.
  destruct (format_number ty (ieee_float _ _ _ Iv)) as (prec & emax & Hp & Hm & EX & E1 & E2 & E3 & EN).
  apply EX in X1, X2, X3.
  assert (Nl := EN _ _ Il (proj2 (worth_finite _ _ _ Wl))). assert (Nh := EN _ _ Ih (proj2 (worth_finite _ _ _ Wh))).
  assert (Nv := EN _ _ Iv (proj2 (worth_finite _ _ _ Wv))). assert (Ns := EN _ _ Is (proj2 (worth_finite _ _ _ Ws))).
  assert (Wx : worth (fsum ty v (fproduct ty s (nearest ty mod_))) (a + b * mod_) k).
  { rewrite E1, E2, E3.
    assert (Wm : worth (binary_normalize prec emax mod_ 0 false) mod_ 0) by (apply normalize_exact; [lia|apply same_refl|exact X1]).
    assert (Nm : number prec emax (binary_normalize prec emax mod_ 0 false)) by exact (proj1 (proj1 (normalize_good prec emax Hp mod_ 0 false))).
    refine (add_exact prec emax Hp v _ a (b * mod_) k _ _ Wv _ (same_refl _ _) X3).
    refine (mul_exact prec emax Hp s _ b k mod_ 0 _ _ Ns Nm Hm Ws Wm _ X2). rewrite Z.add_0_r. apply same_refl. }
  assert (Nx : number prec emax (fsum ty v (fproduct ty s (nearest ty mod_)))).
  { rewrite E1, E2, E3.
    assert (Gs : good prec emax s) by (split; [exact Ns|exact (proj2 (worth_finite _ _ _ Ws))]).
    assert (Gv : good prec emax v) by (split; [exact Nv|exact (proj2 (worth_finite _ _ _ Wv))]).
    assert (Fs := proj1 (worth_finite _ _ _ Ws)). assert (Fv := proj1 (worth_finite _ _ _ Wv)).
    assert (Wm : worth (binary_normalize prec emax mod_ 0 false) mod_ 0) by (apply normalize_exact; [lia|apply same_refl|exact X1]).
    apply add_good; [exact Hp|exact Gv| |exact Fv].
    apply mul_good; [exact Hp|exact Hm|exact Gs|exact (proj1 (normalize_good prec emax Hp mod_ 0 false))|exact Fs|exact (proj1 (worth_finite _ _ _ Wm))]. }
  unfold fstepped, stepped. set (x := fsum ty v (fproduct ty s (nearest ty mod_))) in *. clearbody x. cbv zeta. unfold within.
  rewrite (leb_exact prec emax Hp lo x L (a + b * mod_) k Nl Nx Wl Wx), (leb_exact prec emax Hp x hi (a + b * mod_) H k Nx Nh Wx Wh).
  destruct ((L <=? a + b * mod_) && (a + b * mod_ <=? H)); [exact Wx|]. destruct (Z.ltb_spec 0 mod_); [exact Wl|].
  destruct (Z.ltb_spec mod_ 0); [exact Wh|]. replace mod_ with 0 in Wx by lia. rewrite Z.mul_0_r, Z.add_0_r in Wx. exact Wx.
Qed.

Lemma flimit_ieee : forall m p u ty x, flimit m p u ty x -> exists raw, ieee_of ty raw x.
Proof. intros m p u ty x H. destruct p; [destruct H as (raw & I & _); eauto|eexists; exact H]. Qed.

Lemma operator_float_exact_l : forall h m mod_ k lo hi v s L H a b, INT_MIN <= mod_ <= INT_MAX ->
  flimit m (pmin h) (minv h) (ptype_of h) lo -> flimit m (pmax h) (maxv h) (ptype_of h) hi ->
  fholds m (pointer h) (ptype_of h) v -> union_fholds (step h) (ptype_of h) s ->
  worth lo L k -> worth hi H k -> worth v a k -> worth s b k ->
  exact_in (ptype_of h) mod_ 0 -> exact_in (ptype_of h) (b * mod_) k -> exact_in (ptype_of h) (a + b * mod_) k ->
  exists m' y, parameter_operator (Some h) m mod_ = Done (m', 0) /\ changed_only m m' (pointer h) (size (ptype_of h)) /\
    fholds m' (pointer h) (ptype_of h) y /\ worth y (stepped L H a b mod_) k.
Proof.
  intros h m mod_ k lo hi v s L H a b HM Hlo Hhi Hv Hs Wl Wh Wv Ws X1 X2 X3.
  destruct (operator_float_l h m mod_ lo hi v s HM Hlo Hhi (proj2 (worth_finite _ _ _ Wl)) (proj2 (worth_finite _ _ _ Wh)) Hv Hs
    (proj1 (worth_finite _ _ _ Wv)) (proj1 (worth_finite _ _ _ Ws))) as (m' & E & C & F).
  exists m'. eexists. split; [exact E|]. split; [exact C|]. split; [exact F|].
  destruct (flimit_ieee _ _ _ _ _ Hlo) as (rl & Il). destruct (flimit_ieee _ _ _ _ _ Hhi) as (rh & Ih).
  destruct Hv as (rv & Iv & _). exact (fstepped_exact _ k rl rh rv _ lo hi v s L H a b mod_ Il Ih Iv Hs Wl Wh Wv Ws X1 X2 X3).
Qed.

(** * Operations in a row *)

Lemma fholds_frame : forall m m' p ty x q k, changed_only m m' q k -> disjoint p (size ty) q k -> fholds m p ty x -> fholds m' p ty x.
Proof.
  intros m m' p ty x q k C D (raw & I & Hp & F). exists raw. split; [exact I|].
  exact (raw_at_frame m m' p (size ty) q k raw C D (conj Hp F)).
Qed.

Lemma flimit_frame : forall m m' p u ty x q k, changed_only m m' q k -> (forall a, p = Some a -> disjoint a (size ty) q k) ->
  flimit m p u ty x -> flimit m' p u ty x.
Proof. intros m m' [p|] u ty x q k C D H; [apply (fholds_frame m m' p ty x q k C (D _ eq_refl) H)|exact H]. Qed.

Lemma holds_frame : forall m m' p ty v q k, changed_only m m' q k -> disjoint p (size ty) q k -> holds m p ty v -> holds m' p ty v.
Proof.
  intros m m' p ty v q k C D (Hi & Hr & Hp & F). split; [exact Hi|]. split; [exact Hr|].
  exact (raw_at_frame m m' p (size ty) q k v C D (conj Hp F)).
Qed.

Lemma limit_frame : forall m m' p u ty v q k, changed_only m m' q k -> (forall a, p = Some a -> disjoint a (size ty) q k) ->
  limit m p u ty v -> limit m' p u ty v.
Proof. intros m m' [p|] u ty v q k C D H; [apply (holds_frame m m' p ty v q k C (D _ eq_refl) H)|exact H]. Qed.

Lemma own_limits : forall h a, limits_elsewhere [h] -> pmin h = Some a \/ pmax h = Some a -> disjoint a (size (ptype_of h)) (pointer h) (size (ptype_of h)).
Proof. intros h a H E. exact (H 0%nat 0%nat h h a eq_refl eq_refl E). Qed.

Lemma changed_trans : forall m1 m2 m3 p n, changed_only m1 m2 p n -> changed_only m2 m3 p n -> changed_only m1 m3 p n.
Proof. intros m1 m2 m3 p n [L1 C1] [L2 C2]. split; [congruence|]. intros a Ha Na. rewrite C2, C1; auto. Qed.

Lemma stepped_inside : forall lo hi v s d, lo <= v + s * d <= hi -> stepped lo hi v s d = v + s * d.
Proof. intros lo hi v s d H. unfold stepped. replace ((lo <=? v + s * d) && (v + s * d <=? hi)) with true by lia. reflexivity. Qed.

Lemma same_memory : forall h m m1 m2 v, changed_only m m1 (pointer h) (size (ptype_of h)) -> changed_only m m2 (pointer h) (size (ptype_of h)) ->
  holds m1 (pointer h) (ptype_of h) v -> holds m2 (pointer h) (ptype_of h) v -> m1 = m2.
Proof.
  intros h m m1 m2 v [L1 C1] [L2 C2] (_ & _ & Hp & H1) (_ & _ & _ & H2). apply nth_error_ext. intros i.
  destruct (Z_le_dec (pointer h) (Z.of_nat i)); [destruct (Z_lt_dec (Z.of_nat i) (pointer h + size (ptype_of h)))|].
  - specialize (H1 (Z.of_nat i - pointer h) ltac:(lia)). specialize (H2 (Z.of_nat i - pointer h) ltac:(lia)).
    replace (pointer h + (Z.of_nat i - pointer h)) with (Z.of_nat i) in * by lia. rewrite Nat2Z.id in *. congruence.
  - specialize (C1 (Z.of_nat i) ltac:(lia) ltac:(lia)). specialize (C2 (Z.of_nat i) ltac:(lia) ltac:(lia)). rewrite Nat2Z.id in *. congruence.
  - specialize (C1 (Z.of_nat i) ltac:(lia) ltac:(lia)). specialize (C2 (Z.of_nat i) ltac:(lia) ltac:(lia)). rewrite Nat2Z.id in *. congruence.
Qed.

Lemma between : forall lo hi v x n, (0 < n)%nat -> lo <= v <= hi -> lo <= v + x * Z.of_nat n <= hi -> lo <= v + x <= hi.
Proof. intros lo hi v x n Hn H1 H2. nia. Qed.

Lemma operations_int : forall n h m d lo hi v s, limits_elsewhere [h] ->
  limit m (pmin h) (minv h) (ptype_of h) lo -> limit m (pmax h) (maxv h) (ptype_of h) hi ->
  holds m (pointer h) (ptype_of h) v -> union_holds (step h) (ptype_of h) s -> computable (ptype_of h) (s * d) ->
  lo <= v <= hi -> lo <= v + s * d * Z.of_nat n <= hi ->
  exists m', operations n h m d = Done m' /\ changed_only m m' (pointer h) (size (ptype_of h)) /\
    holds m' (pointer h) (ptype_of h) (v + s * d * Z.of_nat n).
Proof.
  induction n as [|n IH]; intros h m d lo hi v s LE Hlo Hhi Hv Hs Hc Hr Hn; cbn [operations].
  - exists m. split; [reflexivity|]. split; [split; auto|]. cbn [Z.of_nat]. rewrite Z.mul_0_r, Z.add_0_r. exact Hv.
  - pose proof (between lo hi v (s * d) (S n) ltac:(lia) Hr Hn) as Hb.
    destruct (limit_rep _ _ _ _ _ Hlo) as [_ Rl]. destruct (limit_rep _ _ _ _ _ Hhi) as [_ Rh].
    destruct (operator_steps_l h m d lo hi v s Hlo Hhi Hv Hs Hc ltac:(unfold representable in *; lia)) as (m1 & E & C & F).
    rewrite stepped_inside in F by exact Hb. rewrite E. cbn [obind fst].
    assert (Hlo' : limit m1 (pmin h) (minv h) (ptype_of h) lo) by (apply (limit_frame m m1 _ _ _ _ _ _ C); [intros a Ea; apply own_limits; auto|exact Hlo]).
    assert (Hhi' : limit m1 (pmax h) (maxv h) (ptype_of h) hi) by (apply (limit_frame m m1 _ _ _ _ _ _ C); [intros a Ea; apply own_limits; auto|exact Hhi]).
    assert (Eq : v + s * d * Z.of_nat (S n) = v + s * d + s * d * Z.of_nat n) by (rewrite Nat2Z.inj_succ; ring). rewrite Eq in *.
    destruct (IH h m1 d lo hi (v + s * d) s LE Hlo' Hhi' F Hs Hc Hb Hn) as (m2 & E2 & C2 & F2).
    exists m2. split; [exact E2|]. split; [exact (changed_trans _ _ _ _ _ C C2)|exact F2].
Qed.

Lemma operations_int_l : forall n h m d lo hi v s, limits_elsewhere [h] ->
  limit m (pmin h) (minv h) (ptype_of h) lo -> limit m (pmax h) (maxv h) (ptype_of h) hi ->
  holds m (pointer h) (ptype_of h) v -> union_holds (step h) (ptype_of h) s ->
  computable (ptype_of h) (s * d) -> computable (ptype_of h) (s * (d * Z.of_nat n)) ->
  lo <= v <= hi -> lo <= v + s * d * Z.of_nat n <= hi ->
  exists m', operations n h m d = Done m' /\ parameter_operator (Some h) m (d * Z.of_nat n) = Done (m', 0) /\
    holds m' (pointer h) (ptype_of h) (v + s * d * Z.of_nat n).
Proof.
  intros n h m d lo hi v s LE Hlo Hhi Hv Hs Hc Hc' Hr Hn.
  destruct (operations_int n h m d lo hi v s LE Hlo Hhi Hv Hs Hc Hr Hn) as (m1 & E1 & C1 & F1).
  destruct (limit_rep _ _ _ _ _ Hlo) as [_ Rl]. destruct (limit_rep _ _ _ _ _ Hhi) as [_ Rh].
  assert (Eq : v + s * (d * Z.of_nat n) = v + s * d * Z.of_nat n) by ring.
  destruct (operator_steps_l h m (d * Z.of_nat n) lo hi v s Hlo Hhi Hv Hs Hc' ltac:(unfold representable in *; lia)) as (m2 & E2 & C2 & F2).
  rewrite stepped_inside in F2 by lia. rewrite Eq in F2.
  exists m1. split; [exact E1|]. split; [|exact F1]. rewrite E2. do 2 f_equal. exact (same_memory h m m2 m1 _ C2 C1 F2 F1).
Qed.

Lemma exact_between : forall ty lo hi x k, exact_in ty lo k -> exact_in ty hi k -> lo <= x <= hi -> exact_in ty x k.
Proof. intros ty lo hi x k H1 H2 Hx. destruct ty; destruct H1 as [A1 B1], H2 as [A2 B2]; (split; [lia|exact B1]). Qed.

Lemma operations_float : forall n h m d k lo hi v s L H a b, limits_elsewhere [h] -> INT_MIN <= d <= INT_MAX ->
  flimit m (pmin h) (minv h) (ptype_of h) lo -> flimit m (pmax h) (maxv h) (ptype_of h) hi ->
  fholds m (pointer h) (ptype_of h) v -> union_fholds (step h) (ptype_of h) s ->
  worth lo L k -> worth hi H k -> worth v a k -> worth s b k ->
  exact_in (ptype_of h) L k -> exact_in (ptype_of h) H k -> exact_in (ptype_of h) d 0 -> exact_in (ptype_of h) (b * d) k ->
  L <= a <= H -> L <= a + b * d * Z.of_nat n <= H ->
  exists m' y, operations n h m d = Done m' /\ fholds m' (pointer h) (ptype_of h) y /\ worth y (a + b * d * Z.of_nat n) k.
Proof.
  induction n as [|n IH]; intros h m d k lo hi v s L H a b LE HM Hlo Hhi Hv Hs Wl Wh Wv Ws XL XH X1 X2 Hr Hn; cbn [operations].
  - exists m, v. split; [reflexivity|]. split; [exact Hv|]. cbn [Z.of_nat]. rewrite Z.mul_0_r, Z.add_0_r. exact Wv.
  - pose proof (between L H a (b * d) (S n) ltac:(lia) Hr Hn) as Hb.
    destruct (operator_float_exact_l h m d k lo hi v s L H a b HM Hlo Hhi Hv Hs Wl Wh Wv Ws X1 X2 (exact_between _ _ _ _ _ XL XH Hb)) as (m1 & y1 & E & C & F & W).
    rewrite stepped_inside in W by exact Hb. rewrite E. cbn [obind fst].
    assert (Hlo' : flimit m1 (pmin h) (minv h) (ptype_of h) lo) by (apply (flimit_frame m m1 _ _ _ _ _ _ C); [intros a' Ea; apply own_limits; auto|exact Hlo]).
    assert (Hhi' : flimit m1 (pmax h) (maxv h) (ptype_of h) hi) by (apply (flimit_frame m m1 _ _ _ _ _ _ C); [intros a' Ea; apply own_limits; auto|exact Hhi]).
    assert (Eq : a + b * d * Z.of_nat (S n) = a + b * d + b * d * Z.of_nat n) by (rewrite Nat2Z.inj_succ; ring). rewrite Eq in *.
    exact (IH h m1 d k lo hi y1 s L H (a + b * d) b LE HM Hlo' Hhi' F Hs Wl Wh W Ws XL XH X1 X2 Hb Hn).
Qed.

Lemma operations_float_l : forall n h m d k lo hi v s L H a b, limits_elsewhere [h] -> INT_MIN <= d <= INT_MAX -> INT_MIN <= d * Z.of_nat n <= INT_MAX ->
  flimit m (pmin h) (minv h) (ptype_of h) lo -> flimit m (pmax h) (maxv h) (ptype_of h) hi ->
  fholds m (pointer h) (ptype_of h) v -> union_fholds (step h) (ptype_of h) s ->
  worth lo L k -> worth hi H k -> worth v a k -> worth s b k ->
  exact_in (ptype_of h) L k -> exact_in (ptype_of h) H k -> exact_in (ptype_of h) d 0 -> exact_in (ptype_of h) (b * d) k ->
  exact_in (ptype_of h) (d * Z.of_nat n) 0 -> exact_in (ptype_of h) (b * (d * Z.of_nat n)) k ->
  L <= a <= H -> L <= a + b * d * Z.of_nat n <= H ->
  exists m1 m2 y1 y2, operations n h m d = Done m1 /\ parameter_operator (Some h) m (d * Z.of_nat n) = Done (m2, 0) /\
    fholds m1 (pointer h) (ptype_of h) y1 /\ fholds m2 (pointer h) (ptype_of h) y2 /\
    worth y1 (a + b * d * Z.of_nat n) k /\ worth y2 (a + b * d * Z.of_nat n) k.
Proof.
  intros n h m d k lo hi v s L H a b LE HM HMn Hlo Hhi Hv Hs Wl Wh Wv Ws XL XH X1 X2 X3 X4 Hr Hn.
  destruct (operations_float n h m d k lo hi v s L H a b LE HM Hlo Hhi Hv Hs Wl Wh Wv Ws XL XH X1 X2 Hr Hn) as (m1 & y1 & E1 & F1 & W1).
  assert (Eq : a + b * (d * Z.of_nat n) = a + b * d * Z.of_nat n) by ring.
  assert (X5 : exact_in (ptype_of h) (a + b * (d * Z.of_nat n)) k) by (rewrite Eq; exact (exact_between _ _ _ _ _ XL XH Hn)).
  destruct (operator_float_exact_l h m _ k lo hi v s L H a b HMn Hlo Hhi Hv Hs Wl Wh Wv Ws X3 X4 X5) as (m2 & y2 & E2 & _ & F2 & W2).
  rewrite stepped_inside in W2 by lia. rewrite Eq in W2. exists m1, m2, y1, y2. auto 10.
Qed.

(** * Printing *)

Lemma string_l : forall sprintf h m v, holds m (pointer h) (ptype_of h) v ->
  parameter_to_string_format sprintf (Some h) m = Done (sprintf (passed (ptype_of h) v) m).
Proof.
  intros sprintf h m v Hv. unfold parameter_to_string_format. rewrite (holds_load _ _ _ _ Hv). cbn [obind].
  destruct Hv as (Hi & Hr & _). rewrite (int_value_mod _ _ Hi Hr). destruct (ptype_of h); try discriminate Hi; reflexivity.
Qed.

Lemma widen_same : forall x, number 24 128 x -> same_value x (widen x).
Proof.
  intros [s|s| |s m e] N; try reflexivity. unfold same_value, widen.
  assert (G : good 24 128 (S754_finite s m e)) by (split; [exact N|discriminate]). apply finite_good in G; [|lia].
  destruct G as (G2 & G1 & _). unfold SpecFloat.emin in G2.
  assert (W : worth (binary_normalize 53 1024 (if s then Zneg m else Zpos m) e s) (if s then Zneg m else Zpos m) e).
  { apply normalize_exact; [lia|apply same_refl|]. split; [|lia]. change (2 ^ 24) with 16777216 in G1. change (2 ^ 53) with 9007199254740992. destruct s; lia. }
  assert (W' : worth (S754_finite s m e) (if s then Zneg m else Zpos m) e) by (apply same_refl).
  split; [|intros z k; rewrite (worth_same _ _ _ z k W), (worth_same _ _ _ z k W'); apply iff_refl].
  set (y := binary_normalize 53 1024 (if s then Zneg m else Zpos m) e s) in *. clearbody y. destruct y as [t|t| |t m' e']; try contradiction.
  - cbn [worth] in W. destruct s; discriminate W.
  - exists m', e'. f_equal. cbn [worth] in W. unfold same_number in W. apply (f_equal Z.sgn) in W. rewrite !Z.sgn_mul in W.
    rewrite !(Z.sgn_pos (2 ^ _)) in W by (apply Z.pow_pos_nonneg; lia). destruct s, t; cbn in W; (reflexivity || discriminate).
Qed.

Lemma same_value_refl : forall x, same_value x x.
Proof. intros [s|s| |s m e]; try reflexivity. split; [eauto|intros; apply iff_refl]. Qed.

Lemma string_float_l : forall sprintf h m x, fholds m (pointer h) (ptype_of h) x ->
  exists y, parameter_to_string_format sprintf (Some h) m = Done (sprintf (ADouble y) m) /\ same_value x y.
Proof.
  intros sprintf h m x Hx. destruct (fholds_raw _ _ _ _ Hx) as (raw & I & L & _). unfold parameter_to_string_format. rewrite L. cbn [obind].
  rewrite (proj1 (float_decode _ _ _ I)). pose proof (ieee_float _ _ _ I) as Ei.
  assert (N : ptype_of h = FLOAT -> number 24 128 x).
  { intros E. rewrite E in I. destruct x; try reflexivity. exact (proj1 (ieee_good 23 8 (-149) raw _ ltac:(lia) ltac:(lia) eq_refl I ltac:(discriminate))). }
  destruct (ptype_of h); try discriminate Ei; (eexists; split; [reflexivity|]).
  - apply widen_same, N. reflexivity.
  - apply same_value_refl.
Qed.

(** * Totals *)

Lemma total_float_l : forall h m k lo hi L H,
  flimit m (pmin h) (minv h) (ptype_of h) lo -> flimit m (pmax h) (maxv h) (ptype_of h) hi ->
  worth lo L k -> worth hi H k -> k <= 0 -> L <= H -> exact_in (ptype_of h) (H - L) k -> exact_in (ptype_of h) (H - L + 2 ^ (- k)) k ->
  parameter_get_total_values (Some h) m = Done ((H - L) / 2 ^ (- k) + 1).
Proof.
  intros h m k lo hi L H Hlo Hhi Wl Wh Hk HL X1 X2. unfold parameter_get_total_values.
  destruct (flimit_lower h m lo Hlo) as (rl & El & Vl). destruct (flimit_upper h m hi Hhi) as (rh & Eh & Vh). rewrite El, Eh. cbn [obind].
  destruct (flimit_ieee _ _ _ _ _ Hlo) as (raw & Il). pose proof (ieee_float _ _ _ Il) as Ei.
  assert (P : 0 < 2 ^ (- k)) by (apply Z.pow_pos_nonneg; lia).
  assert (T : forall x, worth x (H - L + 2 ^ (- k)) k -> H - L + 2 ^ (- k) < 2 ^ 53 -> to_int 0 (2 ^ 64 - 1) x = Done ((H - L) / 2 ^ (- k) + 1)).
  { clear - P Hk HL. intros x W B. unfold to_int. rewrite (trunc_exact _ _ _ W).
    assert (E : (if 0 <=? k then (H - L + 2 ^ (- k)) * 2 ^ k else (H - L + 2 ^ (- k)) ÷ 2 ^ (- k)) = (H - L) / 2 ^ (- k) + 1).
    { destruct (Z.leb_spec 0 k).
      - replace k with 0 by lia. change (2 ^ (-0)) with 1. change (2 ^ 0) with 1. rewrite Z.div_1_r. lia.
      - rewrite Z.quot_div_nonneg by lia. rewrite <- (Z.mul_1_l (2 ^ (- k))) at 1. rewrite Z.div_add by lia. reflexivity. }
    rewrite E. assert (0 <= (H - L) / 2 ^ (- k) <= H - L).
    { split; [apply Z.div_pos; lia|]. apply Z.div_le_upper_bound; [lia|]. nia. }
    change (2 ^ 64) with 18446744073709551616. change (2 ^ 53) with 9007199254740992 in B.
    destruct (_ && _) eqn:Q; [reflexivity|]. lia. }
  assert (S1 : same_number 1 0 (2 ^ (- k)) k) by (rewrite (same_iff 1 0 _ k k) by lia; rewrite Z.sub_diag; change (2 ^ 0) with 1; replace (0 - k) with (- k) by lia; lia).
  destruct (ptype_of h); try discriminate Ei; unfold F32, F64, fadd, of_int; rewrite Vl, Vh; apply T.
  - assert (W1 : worth (binary_normalize 24 128 1 0 false) 1 0) by (apply normalize_exact; [lia|apply same_refl|split; lia]).
    refine (add_exact 24 128 _ _ _ (H - L) (2 ^ (- k)) k _ _ _ _ (same_refl _ _) X2); [lia| |].
    + exact (sub_exact 24 128 ltac:(lia) hi lo H L k _ _ Wh Wl (same_refl _ _) X1).
    + exact (proj2 (worth_same _ _ _ _ _ W1) S1).
  - destruct X2 as [B _]. change (2 ^ 24) with 16777216 in B. change (2 ^ 53) with 9007199254740992. lia.
  - assert (W1 : worth (binary_normalize 53 1024 1 0 false) 1 0) by (apply normalize_exact; [lia|apply same_refl|split; lia]).
    refine (add_exact 53 1024 _ _ _ (H - L) (2 ^ (- k)) k _ _ _ _ (same_refl _ _) X2); [lia| |].
    + exact (sub_exact 53 1024 ltac:(lia) hi lo H L k _ _ Wh Wl (same_refl _ _) X1).
    + exact (proj2 (worth_same _ _ _ _ _ W1) S1).
  - destruct X2 as [B _]. lia.
Qed.
