(** Proofs about tables of parameters. *)
From Verif Require Import Base BaseLemmas Loop Float ParameterModel ParameterSpec ParameterProofs.
From Coq Require Import Floats.SpecFloat.

Lemma visible_accessible : forall h al, 0 <= al ->
  (access_level h =? 0) || (0 <? Z.land (access_level h) al) = accessible h al.
Proof.
  intros h al H. unfold accessible. f_equal.
  assert (0 <= Z.land (access_level h) al) by (apply Z.land_nonneg; right; exact H).
  destruct (Z.ltb_spec 0 (Z.land (access_level h) al)), (Z.eqb_spec (Z.land (access_level h) al) 0); try reflexivity; lia.
Qed.

Section Hook.
Variable hook : Z -> handle -> mem -> handle * mem.

Lemma hooked_cons : forall h m h1 m1 ps ps' m2, run_hook hook h m = (h1, m1) -> hooked hook ps m1 ps' m2 ->
  hooked hook (h :: ps) m (h1 :: ps') m2.
Proof.
  intros h m h1 m1 ps ps' m2 E H. unfold run_hook in E. destruct (runtime h) as [f|] eqn:Er.
  - apply hooked_some with f m1; assumption.
  - injection E as <- <-. apply hooked_none; assumption.
Qed.

Definition count_accessible (al : Z) (ps : list handle) : Z := zlen (filter (fun h => accessible h al) ps).

Lemma get_loop_spec : forall ps m i num al ps' m' r, 0 <= al -> 0 <= num ->
  get_loop hook ps m i num al = (ps', m', r) ->
  (exists pre h post pre' h', ps = pre ++ h :: post /\ ps' = pre' ++ h' :: post /\
     hooked hook (pre ++ [h]) m (pre' ++ [h']) m' /\ accessible h' al = true /\
     count_accessible al pre' = num /\ r = Some (i + zlen pre)) \/
  (r = None /\ hooked hook ps m ps' m' /\ count_accessible al ps' <= num).
Proof.
  induction ps as [|h ps IH]; intros m i num al ps' m' r Ha Hn H; cbn [get_loop] in H.
  - injection H as <- <- <-. right. split; [reflexivity|]. split; [constructor|]. cbn. lia.
  - destruct (run_hook hook h m) as [h1 m1] eqn:Er. rewrite visible_accessible in H by exact Ha.
    destruct (accessible h1 al) eqn:Ac.
    + destruct (Z.eqb_spec num 0) as [->|Nz].
      * injection H as <- <- <-. left. exists [], h, ps, [], h1. repeat split; try assumption.
        { apply hooked_cons with m1; [exact Er|constructor]. }
        f_equal. unfold zlen. cbn. lia.
      * destruct (get_loop hook ps m1 (i + 1) (num - 1) al) as [[rest m2] r2] eqn:Eg.
        injection H as <- <- <-. apply IH in Eg; [|exact Ha|lia].
        destruct Eg as [(pre & x & post & pre' & x' & E1 & E2 & E3 & E4 & E5 & E6)|(E1 & E2 & E3)].
        -- left. exists (h :: pre), x, post, (h1 :: pre'), x'. subst. repeat split.
           ++ cbn [app]. apply hooked_cons with m1; assumption.
           ++ exact E4.
           ++ unfold count_accessible, zlen in *. cbn [filter]. rewrite Ac. cbn [length]. lia.
           ++ f_equal. unfold zlen. cbn [length]. lia.
        -- right. split; [exact E1|]. split; [apply hooked_cons with m1; assumption|].
           unfold count_accessible, zlen in *. cbn [filter]. rewrite Ac. cbn [length]. lia.
    + destruct (get_loop hook ps m1 (i + 1) num al) as [[rest m2] r2] eqn:Eg.
      injection H as <- <- <-. apply IH in Eg; [|exact Ha|lia].
      destruct Eg as [(pre & x & post & pre' & x' & E1 & E2 & E3 & E4 & E5 & E6)|(E1 & E2 & E3)].
      * left. exists (h :: pre), x, post, (h1 :: pre'), x'. subst. repeat split.
        -- cbn [app]. apply hooked_cons with m1; assumption.
        -- exact E4.
        -- unfold count_accessible, zlen in *. cbn [filter]. rewrite Ac. lia.
        -- f_equal. unfold zlen. cbn [length]. lia.
      * right. split; [exact E1|]. split; [apply hooked_cons with m1; assumption|].
        unfold count_accessible, zlen in *. cbn [filter]. rewrite Ac. lia.
Qed.

Lemma get_handle_l : forall ps m num al, 0 <= al -> 0 <= num < zlen ps ->
  exists ps' m' r, parameter_get_handle hook ps m num al = Done (ps', m', r) /\
  match r with
  | Some k => exists pre h post pre' h', ps = pre ++ h :: post /\ ps' = pre' ++ h' :: post /\ k = zlen pre /\
      hooked hook (pre ++ [h]) m (pre' ++ [h']) m' /\ accessible h' al = true /\
      zlen (filter (fun h => accessible h al) pre') = num
  | None => hooked hook ps m ps' m' /\ zlen (filter (fun h => accessible h al) ps') <= num
  end.
Proof.
  intros ps m num al Ha Hn. unfold parameter_get_handle.
  destruct (Z.ltb_spec num (zlen ps)); [|lia].
  destruct (get_loop hook ps m 0 num al) as [[ps' m'] r] eqn:E. exists ps', m', r. split; [reflexivity|].
  apply get_loop_spec in E; [|exact Ha|lia].
  destruct E as [(pre & h & post & pre' & h' & E1 & E2 & E3 & E4 & E5 & E6)|(E1 & E2 & E3)]; subst r.
  - exists pre, h, post, pre', h'. repeat split; assumption.
  - split; assumption.
Qed.

Lemma get_count_l : forall ps m al, 0 <= al ->
  exists ps' m' n, parameter_get_count hook ps m al = (ps', m', n) /\ hooked hook ps m ps' m' /\
    n = zlen (filter (fun h => negb (Z.land (access_level h) al =? 0)) ps').
Proof.
  induction ps as [|h ps IH]; intros m al Ha; cbn [parameter_get_count].
  - exists [], m, 0. repeat split. constructor.
  - destruct (run_hook hook h m) as [h1 m1] eqn:Er. destruct (IH m1 al Ha) as (ps' & m' & n & E & H & C).
    rewrite E. eexists _, _, _. split; [reflexivity|]. split; [apply hooked_cons with m1; assumption|].
    assert (P : 0 <= Z.land (access_level h1) al) by (apply Z.land_nonneg; right; exact Ha).
    subst n. cbn [filter]. unfold zlen.
    destruct (Z.ltb_spec 0 (Z.land (access_level h1) al)), (Z.eqb_spec (Z.land (access_level h1) al) 0);
      cbn [negb length]; lia.
Qed.

End Hook.

Lemma hooked_det : forall hook ps m ps1 m1 ps2 m2, hooked hook ps m ps1 m1 -> hooked hook ps m ps2 m2 -> ps2 = ps1 /\ m2 = m1.
Proof.
  intros hook ps m ps1 m1 ps2 m2 H. revert ps2 m2.
  induction H as [m|f h m h' ma ps ps' mb Hr Hh H IH|h m ps ps' mb Hr H IH]; intros ps2 mm H'.
  - inversion H'; subst; auto.
  - inversion H' as [|f2 ? ? h2 ma2 ? ps2' ? Hr2 Hh2 H2|]; subst; [|congruence].
    assert (f2 = f) by congruence. subst f2. rewrite Hh in Hh2. injection Hh2 as <- <-. destruct (IH _ _ H2) as [-> ->]. auto.
  - inversion H' as [|f2 ? ? h2 ma2 ? ps2' ? Hr2 Hh2 H2|? ? ? ps2' ? Hr2 H2]; subst; [congruence|].
    destruct (IH _ _ H2) as [-> ->]. auto.
Qed.

Lemma hooked_app : forall hook a b m ps m', hooked hook (a ++ b) m ps m' ->
  exists a' b' m1, ps = a' ++ b' /\ hooked hook a m a' m1 /\ hooked hook b m1 b' m'.
Proof.
  intros hook. induction a as [|h a IH]; intros b m ps m' H; cbn [app] in H.
  - exists [], ps, m. repeat split; [constructor|exact H].
  - inversion H as [|f ? ? h' ma ? ps' ? Hr Hh H2|? ? ? ps' ? Hr H2]; subst.
    + destruct (IH _ _ _ _ H2) as (a' & b' & mm & -> & K1 & K2).
      exists (h' :: a'), b', mm. split; [reflexivity|]. split; [|exact K2]. econstructor; eassumption.
    + destruct (IH _ _ _ _ H2) as (a' & b' & mm & -> & K1 & K2).
      exists (h :: a'), b', mm. split; [reflexivity|]. split; [|exact K2]. apply hooked_none; assumption.
Qed.

Lemma count_agrees_l : forall hook ps m al num ps1 m1, 0 <= al -> 0 <= num < zlen ps ->
  hooked hook ps m ps1 m1 -> Forall (fun h => access_level h <> 0) ps1 ->
  exists n ps2 m2 k, parameter_get_count hook ps m al = (ps1, m1, n) /\
    parameter_get_handle hook ps m num al = Done (ps2, m2, k) /\ (k <> None <-> num < n).
Proof.
  intros hook ps m al num ps1 m1 Ha Hn HK F.
  assert (Eq : forall l, Forall (fun h => access_level h <> 0) l ->
    filter (fun h => negb (Z.land (access_level h) al =? 0)) l = filter (fun h => accessible h al) l).
  { induction l as [|h l IH]; intros Fl; [reflexivity|]. inversion Fl; subst. cbn [filter]. rewrite IH by assumption.
    replace (accessible h al) with (negb (Z.land (access_level h) al =? 0)); [reflexivity|].
    unfold accessible. destruct (Z.eqb_spec (access_level h) 0); [tauto|]. reflexivity. }
  destruct (get_count_l hook ps m al Ha) as (ps' & m' & n & E & H & C).
  destruct (hooked_det _ _ _ _ _ _ _ HK H) as [-> ->].
  destruct (get_handle_l hook ps m num al Ha Hn) as (ps2 & m2 & r & E2 & H2).
  rewrite Eq in C by exact F.
  exists n, ps2, m2, r. split; [exact E|]. split; [exact E2|]. destruct r as [k|].
  - destruct H2 as (pre & h & post & pre' & h' & S1 & S2 & S3 & S4 & S5 & S6).
    split; [|congruence]. intros _.
    replace ps with ((pre ++ [h]) ++ post) in HK by (rewrite <- app_assoc; symmetry; exact S1).
    apply hooked_app in HK. destruct HK as (a & b & mm & -> & K1 & _).
    destruct (hooked_det _ _ _ _ _ _ _ S4 K1) as [-> ->].
    rewrite <- app_assoc, filter_app in C. cbn [app filter] in C. rewrite S5 in C.
    unfold zlen in *. rewrite app_length in C. cbn [length] in C. lia.
  - destruct H2 as [H2 L]. destruct (hooked_det _ _ _ _ _ _ _ HK H2) as [-> ->].
    split; [congruence|]. lia.
Qed.

(** * All parameters *)

Lemma load_frame : forall m m' p n q k, 0 <= n -> changed_only m m' q k -> disjoint p n q k -> load m' p n = load m p n.
Proof.
  intros m m' p n q k Hn [L C] D. unfold load, zread, zlen. rewrite L.
  destruct (Z.ltb_spec p 0); [reflexivity|]. destruct (Z.ltb_spec n 0); [reflexivity|].
  destruct (Z.ltb_spec (Z.of_nat (length m)) (p + n)); [reflexivity|]. cbn [orb obind]. f_equal. f_equal.
  apply nth_error_ext. intros i. rewrite !nth_error_firstn, !nth_error_skipn.
  destruct (Nat.ltb_spec i (Z.to_nat n)); [|reflexivity].
  specialize (C (p + Z.of_nat i)). replace (Z.to_nat (p + Z.of_nat i)) with (Z.to_nat p + i)%nat in C by lia.
  apply C; [lia|]. unfold disjoint in D. lia.
Qed.

Lemma zget_nth : forall A (l : list A) i a, nth_error l i = Some a -> zget l (Z.of_nat i) = Done a.
Proof.
  intros A l i a E. unfold zget. destruct (Z.ltb_spec (Z.of_nat i) 0); [lia|]. rewrite Nat2Z.id, E. reflexivity.
Qed.
Arguments zget_nth {A}.

Section Tame.
Variable hook : Z -> handle -> mem -> handle * mem.
Hypothesis T : tame hook.

Definition cores : list handle -> list handle -> Prop := Forall2 same_core.

Lemma same_core_refl : forall h, same_core h h.
Proof. intros. unfold same_core. repeat split. Qed.
Lemma same_core_trans : forall a b c, same_core a b -> same_core b c -> same_core a c.
Proof. unfold same_core. intros. intuition congruence. Qed.
Lemma cores_refl : forall l, cores l l.
Proof. induction l; constructor; auto using same_core_refl. Qed.
Lemma cores_trans : forall a b c, cores a b -> cores b c -> cores a c.
Proof.
  intros a b c H. revert c. induction H; intros c Hc; inversion Hc; subst; constructor; eauto using same_core_trans.
  apply IHForall2. assumption.
Qed.

Lemma run_tame : forall h m h' m', run_hook hook h m = (h', m') -> m' = m /\ same_core h h'.
Proof.
  intros h m h' m' H. unfold run_hook in H. destruct (runtime h) as [f|]; [eapply T; exact H|].
  injection H as <- <-. split; [reflexivity|apply same_core_refl].
Qed.

Definition unsigned_levels (ps : list handle) : Prop := Forall (fun h => unsigned_int (access_level h)) ps.

Lemma run_level : forall ps h m, levels hook ps -> unsigned_int (access_level h) ->
  unsigned_int (access_level (fst (run_hook hook h m))).
Proof.
  intros ps h m [_ L] H. unfold run_hook. destruct (runtime h); [apply L; exact H|exact H].
Qed.

Lemma all_accessible : forall h, unsigned_int (access_level h) ->
  (access_level h =? 0) || (0 <? Z.land (access_level h) ALL) = true.
Proof.
  intros h H. unfold unsigned_int in H. unfold ALL. change 4294967295 with (2 ^ 32 - 1).
  rewrite land_ones by lia. rewrite Z.mod_small by exact H.
  destruct (Z.eqb_spec (access_level h) 0); [reflexivity|]. cbn [orb]. apply Z.ltb_lt. lia.
Qed.

Hypothesis LV : forall f h m, unsigned_int (access_level h) -> unsigned_int (access_level (fst (hook f h m))).

Lemma get_all : forall ps m i num, unsigned_levels ps -> 0 <= num < zlen ps ->
  exists ps', get_loop hook ps m i num ALL = (ps', m, Some (i + num)) /\ cores ps ps' /\ unsigned_levels ps'.
Proof.
  induction ps as [|h ps IH]; intros m i num U Hn; [unfold zlen in Hn; cbn in Hn; lia|].
  inversion U as [|? ? U1 U2]; subst. cbn [get_loop].
  destruct (run_hook hook h m) as [h1 m1] eqn:Er.
  destruct (run_tame _ _ _ _ Er) as [-> SC].
  assert (U3 : unsigned_int (access_level h1)).
  { pose proof (run_level (h :: ps) h m (conj U LV) U1) as R. rewrite Er in R. exact R. }
  rewrite all_accessible by exact U3.
  destruct (Z.eqb_spec num 0) as [->|N].
  - exists (h1 :: ps). rewrite Z.add_0_r. split; [reflexivity|]. split.
    + constructor; [exact SC|apply cores_refl].
    + constructor; assumption.
  - destruct (IH m (i + 1) (num - 1) U2) as (ps' & E & C & U4); [unfold zlen in *; cbn [length] in Hn; lia|].
    rewrite E. exists (h1 :: ps'). replace (i + 1 + (num - 1)) with (i + num) by lia. split; [reflexivity|]. split; constructor; assumption.
Qed.

Lemma get_handle_all : forall ps m num, unsigned_levels ps -> 0 <= num < zlen ps ->
  exists ps', parameter_get_handle hook ps m num ALL = Done (ps', m, Some num) /\ cores ps ps' /\ unsigned_levels ps'.
Proof.
  intros ps m num U Hn. unfold parameter_get_handle. destruct (Z.ltb_spec num (zlen ps)); [|lia].
  destruct (get_all ps m 0 num U Hn) as (ps' & E & C & U'). rewrite E. exists ps'. auto.
Qed.

Lemma cores_nth : forall a b i h, cores a b -> nth_error a i = Some h ->
  exists h', nth_error b i = Some h' /\ same_core h h'.
Proof.
  intros a b i h H. revert i. induction H; intros i E; [destruct i; discriminate|].
  destruct i as [|i]; cbn in E; [injection E as ->; exists y; auto|]. apply IHForall2. exact E.
Qed.

Lemma cores_length : forall a b, cores a b -> length b = length a.
Proof. intros a b H. induction H; cbn; auto. Qed.

Lemma default_core : forall h h' m, same_core h h' -> SET_DEFAULT h' m = SET_DEFAULT h m.
Proof. intros h h' m (H1 & H2 & H3 & H4 & H5 & H6 & H7 & H8). unfold SET_DEFAULT. congruence. Qed.

Lemma check_core : forall h h' m, same_core h h' -> CHECK_RANGE h' m = CHECK_RANGE h m.
Proof.
  intros h h' m (H1 & H2 & H3 & H4 & H5 & H6 & H7 & H8). unfold CHECK_RANGE, lower, upper.
  rewrite H1, H2, H3, H4, H5, H6. reflexivity.
Qed.

Lemma default_ok : forall h m, inside m (pointer h) (size (ptype_of h)) ->
  exists m', SET_DEFAULT h m = Done m' /\ raw_at m' (pointer h) (size (ptype_of h)) (defaultv h) /\
    changed_only m m' (pointer h) (size (ptype_of h)).
Proof.
  intros h m H. unfold SET_DEFAULT. destruct (store_ok m (pointer h) (size (ptype_of h)) (field (ptype_of h) (defaultv h)))
    as (m' & E & R & C); [pose proof (size_pos (ptype_of h)); lia|exact H|].
  exists m'. split; [exact E|]. split; [|exact C]. unfold field in R. rewrite <- pow256_2 in R by (pose proof (size_pos (ptype_of h)); lia).
  apply raw_at_mod. exact R.
Qed.

(** Changes confined to the parameters from the [i]-th on. *)
Definition changed_from (ps0 : list handle) (i : nat) (m m' : mem) : Prop :=
  length m' = length m /\
  forall a, 0 <= a -> (forall j h, (i <= j)%nat -> nth_error ps0 j = Some h -> ~ pointer h <= a < pointer h + size (ptype_of h)) ->
    nth_error m' (Z.to_nat a) = nth_error m (Z.to_nat a).

Lemma changed_from_step : forall ps0 i m m1 m' h, nth_error ps0 i = Some h ->
  changed_only m m1 (pointer h) (size (ptype_of h)) -> changed_from ps0 (S i) m1 m' -> changed_from ps0 i m m'.
Proof.
  intros ps0 i m m1 m' h E [L1 C1] [L2 C2]. split; [congruence|]. intros a Ha H.
  rewrite C2; [apply C1; [exact Ha|apply (H i h); [lia|exact E]]|exact Ha|].
  intros j h' Hj. apply H. lia.
Qed.

Lemma changed_from_weaken : forall ps0 i m m', changed_from ps0 (S i) m m' -> changed_from ps0 i m m'.
Proof. intros ps0 i m m' [L C]. split; [exact L|]. intros a Ha H. apply C; [exact Ha|]. intros j h Hj. apply H. lia. Qed.

Lemma changed_from_raw : forall ps0 i m m' h raw, distinct_storage ps0 m -> nth_error ps0 i = Some h ->
  changed_from ps0 (S i) m m' -> raw_at m (pointer h) (size (ptype_of h)) raw -> raw_at m' (pointer h) (size (ptype_of h)) raw.
Proof.
  intros ps0 i m m' h raw [_ D] E [_ C] [Hp R]. split; [exact Hp|]. intros k Hk. rewrite C; [apply R; exact Hk|lia|].
  intros j h' Hj E' B. assert (DD := D i j h h' ltac:(lia) E E'). unfold disjoint in DD. lia.
Qed.

Lemma changed_from_same : forall ps0 i m m' h, distinct_storage ps0 m -> nth_error ps0 i = Some h ->
  changed_from ps0 (S i) m m' -> same_bytes m (pointer h) m' (pointer h) (size (ptype_of h)).
Proof.
  intros ps0 i m m' h [I D] E [_ C] k Hk. destruct (I i h E) as [Hp _]. apply C; [lia|].
  intros j h' Hj E' B. assert (DD := D i j h h' ltac:(lia) E E'). unfold disjoint in DD. lia.
Qed.

Lemma distinct_frame : forall ps0 m m', length m' = length m -> distinct_storage ps0 m -> distinct_storage ps0 m'.
Proof.
  intros ps0 m m' L [I D]. split; [|exact D]. intros i h E. destruct (I i h E) as [A B]. split; [exact A|].
  unfold zlen in *. rewrite L. exact B.
Qed.

Lemma reset_loop : forall n i ps0 ps m, (length ps0 = i + n)%nat -> cores ps0 ps -> unsigned_levels ps ->
  distinct_storage ps0 m ->
  exists ps' m', for_up n (Z.of_nat i) (fun '(ps, m) i =>
    do (ps, m, r) <- parameter_get_handle hook ps m i ALL;
    match r with
    | None => Done (ps, m)
    | Some j => do h <- zget ps j; do m <- SET_DEFAULT h m; Done (ps, m)
    end) (ps, m) = Done (ps', m') /\ cores ps0 ps' /\ unsigned_levels ps' /\ changed_from ps0 i m m' /\
    forall j h, (i <= j)%nat -> nth_error ps0 j = Some h -> raw_at m' (pointer h) (size (ptype_of h)) (defaultv h).
Proof.
  induction n as [|n IH]; intros i ps0 ps m Hl HC HU HD; cbn [for_up].
  - exists ps, m. split; [reflexivity|]. split; [exact HC|]. split; [exact HU|]. split; [split; [reflexivity|auto]|].
    intros j h Hj E. assert (nth_error ps0 j <> None) by congruence.
    apply nth_error_Some in H. lia.
  - pose proof (cores_length _ _ HC) as CL.
    destruct (get_handle_all ps m (Z.of_nat i) HU) as (ps1 & E & C1 & U1); [unfold zlen; lia|].
    rewrite E. cbn [obind].
    destruct (nth_error ps0 i) as [h0|] eqn:E0; [|apply nth_error_None in E0; lia].
    destruct (cores_nth ps0 ps1 i h0) as (h1 & E1 & SC); [apply cores_trans with ps; assumption|exact E0|].
    rewrite (zget_nth ps1 i h1) by exact E1. cbn [obind].
    rewrite (default_core h0 h1) by exact SC.
    destruct (default_ok h0 m) as (m1 & Es & R1 & Ch); [apply HD with i; exact E0|].
    rewrite Es. cbn [obind].
    assert (HD1 : distinct_storage ps0 m1) by (apply distinct_frame with m; [apply Ch|exact HD]).
    destruct (IH (S i) ps0 ps1 m1) as (ps' & m' & E' & C' & U' & F' & R'); try assumption; [lia|apply cores_trans with ps; assumption|].
    replace (Z.of_nat i + 1) with (Z.of_nat (S i)) by lia. rewrite E'. exists ps', m'.
    split; [reflexivity|]. split; [exact C'|]. split; [exact U'|]. split; [apply changed_from_step with m1 h0; assumption|].
    intros j h Hj Ej. destruct (Nat.eq_dec j i) as [->|Nj].
    + assert (h = h0) by congruence. subst h. apply changed_from_raw with ps0 i m1; assumption.
    + apply R' with j; [lia|exact Ej].
Qed.

(** A parameter in memory and whether it is out of range. *)
Definition judged (m : mem) (h : handle) (bad : bool) : Prop :=
  exists r, CHECK_RANGE h m = Done r /\ bad = negb (r =? 0).

Lemma judged_frame : forall ps0 i j h0 h m m1 b, distinct_storage ps0 m -> limits_elsewhere ps0 -> i <> j ->
  nth_error ps0 i = Some h0 -> nth_error ps0 j = Some h ->
  changed_only m m1 (pointer h0) (size (ptype_of h0)) -> judged m h b -> judged m1 h b.
Proof.
  intros ps0 i j h0 h m m1 b [_ D] LE N E0 E C (r & Hr & Hb). exists r. split; [|exact Hb]. rewrite <- Hr.
  pose proof (size_pos (ptype_of h)) as P.
  unfold CHECK_RANGE, lower, upper.
  rewrite (load_frame m m1 (pointer h) _ (pointer h0) (size (ptype_of h0))); [|lia|exact C|apply (D j i); auto].
  replace (match pmin h with Some p => load m1 p (size (ptype_of h)) | None => Done (field (ptype_of h) (minv h)) end)
    with (match pmin h with Some p => load m p (size (ptype_of h)) | None => Done (field (ptype_of h) (minv h)) end).
  2:{ destruct (pmin h) as [q|] eqn:Eq; [|reflexivity]. symmetry.
      apply load_frame with (pointer h0) (size (ptype_of h0)); [lia|exact C|]. apply (LE j i h h0 q); auto. }
  replace (match pmax h with Some p => load m1 p (size (ptype_of h)) | None => Done (field (ptype_of h) (maxv h)) end)
    with (match pmax h with Some p => load m p (size (ptype_of h)) | None => Done (field (ptype_of h) (maxv h)) end).
  2:{ destruct (pmax h) as [q|] eqn:Eq; [|reflexivity]. symmetry.
      apply load_frame with (pointer h0) (size (ptype_of h0)); [lia|exact C|]. apply (LE j i h h0 q); auto. }
  reflexivity.
Qed.

Lemma check_loop : forall n i ps0 ps m c bad, (length ps0 = i + n)%nat -> cores ps0 ps -> unsigned_levels ps ->
  distinct_storage ps0 m -> limits_elsewhere ps0 ->
  (forall j h, (i <= j)%nat -> nth_error ps0 j = Some h -> judged m h (bad j)) ->
  exists ps' m', for_up n (Z.of_nat i) (fun '(ps, m, counter) i =>
    do (ps, m, r) <- parameter_get_handle hook ps m i ALL;
    match r with
    | None => Done (ps, m, counter)
    | Some j =>
        do h <- zget ps j;
        do c <- CHECK_RANGE h m;
        if c =? 0 then Done (ps, m, counter) else
        do m <- SET_DEFAULT h m; Done (ps, m, counter + 1)
    end) (ps, m, c) = Done (ps', m', c + zlen (filter bad (seq i n))) /\ cores ps0 ps' /\ unsigned_levels ps' /\
    changed_from ps0 i m m' /\
    (forall j h, (i <= j)%nat -> nth_error ps0 j = Some h ->
      if bad j then raw_at m' (pointer h) (size (ptype_of h)) (defaultv h)
      else same_bytes m (pointer h) m' (pointer h) (size (ptype_of h))) /\
    (filter bad (seq i n) = [] -> m' = m).
Proof.
  induction n as [|n IH]; intros i ps0 ps m c bad Hl HC HU HD HE HJ; cbn [for_up].
  - exists ps, m. split; [cbn [seq filter]; change (zlen (@nil nat)) with 0; rewrite Z.add_0_r; reflexivity|]. split; [exact HC|]. split; [exact HU|]. split; [split; [reflexivity|auto]|].
    split; [|reflexivity]. intros j h Hj E. assert (nth_error ps0 j <> None) by congruence. apply nth_error_Some in H. lia.
  - pose proof (cores_length _ _ HC) as CL.
    destruct (get_handle_all ps m (Z.of_nat i) HU) as (ps1 & E & C1 & U1); [unfold zlen; lia|].
    rewrite E. cbn [obind].
    destruct (nth_error ps0 i) as [h0|] eqn:E0; [|apply nth_error_None in E0; lia].
    destruct (cores_nth ps0 ps1 i h0) as (h1 & E1 & SC); [apply cores_trans with ps; assumption|exact E0|].
    rewrite (zget_nth ps1 i h1) by exact E1. cbn [obind].
    rewrite (check_core h0 h1) by exact SC. rewrite (default_core h0 h1) by exact SC.
    destruct (HJ i h0 (le_n i) E0) as (r & Er & Hb). rewrite Er. cbn [obind].
    assert (C01 : cores ps0 ps1) by (apply cores_trans with ps; assumption).
    cbn [seq filter]. destruct (Z.eqb_spec r 0) as [Z0|Z0]; cbn [negb] in Hb; rewrite Hb.
    + destruct (IH (S i) ps0 ps1 m c bad) as (ps' & m' & E' & C' & U' & F' & R' & S'); try assumption; [lia| |].
      { intros j h Hj. apply HJ. lia. }
      cbn [obind].
      replace (Z.of_nat i + 1) with (Z.of_nat (S i)) by lia. rewrite E'. exists ps', m'.
      split; [reflexivity|]. split; [exact C'|]. split; [exact U'|]. split; [apply changed_from_weaken; exact F'|].
      split; [|exact S'].
      intros j h Hj Ej. destruct (Nat.eq_dec j i) as [->|Nj].
      * rewrite Hb. assert (h = h0) by congruence. subst h. apply changed_from_same with ps0 i; assumption.
      * apply (R' j h); [lia|exact Ej].
    + destruct (default_ok h0 m) as (m1 & Es & R1 & Ch); [apply HD with i; exact E0|].
      rewrite Es. cbn [obind].
      assert (HD1 : distinct_storage ps0 m1) by (apply distinct_frame with m; [apply Ch|exact HD]).
      destruct (IH (S i) ps0 ps1 m1 (c + 1) bad) as (ps' & m' & E' & C' & U' & F' & R' & S'); try assumption; [lia| |].
      { intros j h Hj Ej. apply judged_frame with ps0 i j h0 m; try assumption; [lia|]. apply HJ; [lia|exact Ej]. }
      replace (Z.of_nat i + 1) with (Z.of_nat (S i)) by lia. rewrite E'. exists ps', m'.
      replace (c + 1 + zlen (filter bad (seq (S i) n))) with (c + zlen (i :: filter bad (seq (S i) n)))
        by (unfold zlen; cbn [length]; lia).
      split; [reflexivity|].
      split; [exact C'|]. split; [exact U'|]. split; [apply changed_from_step with m1 h0; assumption|].
      split; [|discriminate].
      intros j h Hj Ej. destruct (Nat.eq_dec j i) as [->|Nj].
      * rewrite Hb. assert (h = h0) by congruence. subst h. apply changed_from_raw with ps0 i m1; assumption.
      * specialize (R' j h ltac:(lia) Ej). destruct (bad j); [exact R'|].
        intros k Hk. rewrite R' by exact Hk. destruct HD as [I D]. destruct (I j h Ej) as [Hp _].
        apply Ch; [lia|]. assert (DD := D j i h h0 ltac:(lia) Ej E0). unfold disjoint in DD. lia.
Qed.

Lemma changed_params : forall ps0 m m', changed_from ps0 0 m m' -> only_parameters_changed ps0 m m'.
Proof.
  intros ps0 m m' [L C]. split; [exact L|]. intros a Ha H. apply C; [exact Ha|].
  intros j h _ E. apply H. apply nth_error_In in E. exact E.
Qed.

End Tame.

Lemma reset_l : forall hook ps m, tame hook -> levels hook ps -> distinct_storage ps m ->
  exists ps' m', parameter_reset_to_defaults hook ps m = Done (ps', m') /\ only_parameters_changed ps m m' /\
    forall h i, In h ps -> 0 <= i < size (ptype_of h) ->
      nth_error m' (Z.to_nat (pointer h + i)) = Some ((defaultv h / 256 ^ i) mod 256).
Proof.
  intros hook ps m T [U LV] D. unfold parameter_reset_to_defaults.
  destruct (reset_loop hook T LV (length ps) 0 ps ps m) as (ps' & m' & E & C & U' & F & R);
    try assumption; [reflexivity|apply cores_refl|].
  exists ps', m'. split; [exact E|]. split; [apply changed_params; exact F|].
  intros h i Hh Hi. apply In_nth_error in Hh. destruct Hh as [j Ej].
  apply (R j h ltac:(lia) Ej). exact Hi.
Qed.

Lemma union_raw : forall u ty v m p, union_holds u ty v -> raw_at m p (size ty) u -> holds m p ty v.
Proof.
  intros u ty v m p (Hi & Hr & E) R. apply raw_holds; [exact Hi|exact Hr|].
  apply raw_at_mod in R. apply raw_at_mod. rewrite pow256_2 in * by (pose proof (size_pos ty); lia).
  rewrite <- E. exact R.
Qed.

Lemma reset_values_l : forall hook ps m, tame hook -> levels hook ps -> distinct_storage ps m ->
  exists ps' m', parameter_reset_to_defaults hook ps m = Done (ps', m') /\ only_parameters_changed ps m m' /\
    (forall h d, In h ps -> union_holds (defaultv h) (ptype_of h) d -> holds m' (pointer h) (ptype_of h) d) /\
    (forall h d, In h ps -> union_fholds (defaultv h) (ptype_of h) d -> fholds m' (pointer h) (ptype_of h) d).
Proof.
  intros hook ps m T LV D. destruct (reset_l hook ps m T LV D) as (ps' & m' & E & F & R).
  exists ps', m'. split; [exact E|]. split; [exact F|].
  assert (RA : forall h, In h ps -> raw_at m' (pointer h) (size (ptype_of h)) (defaultv h)).
  { intros h Hh. split; [|intros i Hi; apply R; assumption]. apply In_nth_error in Hh. destruct Hh as [j Ej].
    destruct D as [D _]. destruct (D j h Ej) as [Hp _]. exact Hp. }
  split; intros h d Hh Hd.
  - apply union_raw with (defaultv h); [exact Hd|apply RA; exact Hh].
  - exists (defaultv h mod 2 ^ (8 * size (ptype_of h))). split; [exact Hd|].
    specialize (RA h Hh). apply raw_at_mod in RA. rewrite pow256_2 in RA by (pose proof (size_pos (ptype_of h)); lia).
    exact RA.
Qed.

(** * check_ranges on integers *)

Lemma judged_int : forall m h x, describes m h x -> judged m h (negb (in_range x)).
Proof.
  intros m h x (Hv & Hlo & Hhi & Hd).
  destruct (limit_rep _ _ _ _ _ Hlo) as [Hi Rlo]. destruct (limit_rep _ _ _ _ _ Hhi) as [_ Rhi].
  assert (Rv : representable (ptype_of h) (value x)) by apply Hv.
  unfold judged, CHECK_RANGE. rewrite (holds_load _ _ _ _ Hv), (limit_lower h m _ Hlo), (limit_upper h m _ Hhi).
  cbn [obind]. rewrite !gt_int by assumption. eexists. split; [reflexivity|]. unfold in_range. clear.
  destruct (Z.ltb_spec (hi x) (value x)), (Z.leb_spec (value x) (hi x)), (Z.ltb_spec (value x) (lo x)),
    (Z.leb_spec (lo x) (value x)); try lia; reflexivity.
Qed.

Definition bad_at (xs : list info) (j : nat) : bool :=
  match nth_error xs j with Some x => negb (in_range x) | None => false end.

Lemma filter_bad : forall xs k ys, xs = skipn k ys ->
  zlen (filter (bad_at ys) (seq k (length xs))) = zlen (filter (fun x => negb (in_range x)) xs).
Proof.
  induction xs as [|x xs IH]; intros k ys E; [reflexivity|].
  cbn [length seq filter].
  assert (N : nth_error ys k = Some x).
  { pose proof (nth_error_skipn _ ys k 0) as S. rewrite <- E in S. cbn in S. rewrite Nat.add_0_r in S. auto. }
  unfold bad_at at 1. rewrite N.
  assert (E2 : xs = skipn (S k) ys).
  { clear - E. revert ys E. induction k; intros ys E; destruct ys; cbn in *; try discriminate; [injection E as <- <-; reflexivity|].
    apply IHk in E. exact E. }
  specialize (IH (S k) ys E2). unfold zlen in *.
  destruct (negb (in_range x)); cbn [length]; lia.
Qed.

Definition repaired (x : info) : info := mkInfo (if in_range x then value x else deflt x) (lo x) (hi x) (deflt x).

Lemma Forall2_nth_l : forall A B (P : A -> B -> Prop) l l' i a, Forall2 P l l' -> nth_error l i = Some a ->
  exists b, nth_error l' i = Some b /\ P a b.
Proof.
  intros A B P l l' i a H. revert i. induction H; intros i E; [destruct i; discriminate|].
  destruct i as [|i]; cbn in E; [injection E as <-; exists y; auto|]. apply IHForall2. exact E.
Qed.

Lemma limit_frame : forall m m' p n u ty v, (forall q, p = Some q -> forall i, 0 <= i < size ty -> 0 <= q ->
    nth_error m' (Z.to_nat (q + i)) = nth_error m (Z.to_nat (q + i))) ->
  n = size ty -> limit m p u ty v -> limit m' p u ty v.
Proof.
  intros m m' p n u ty v H -> L. destruct p as [q|]; [|exact L]. destruct L as (H1 & H2 & H3 & H4).
  repeat split; try assumption; try apply H2. intros i Hi. rewrite (H q eq_refl i Hi H3). apply H4. exact Hi.
Qed.

Lemma Forall2_length_l : forall A B (P : A -> B -> Prop) l l', Forall2 P l l' -> length l = length l'.
Proof. intros A B P l l' H. induction H; cbn; auto. Qed.

Lemma limits_kept : forall ps m m' h q, limits_elsewhere ps -> only_parameters_changed ps m m' -> In h ps ->
  pmin h = Some q \/ pmax h = Some q -> forall i, 0 <= i < size (ptype_of h) -> 0 <= q ->
  nth_error m' (Z.to_nat (q + i)) = nth_error m (Z.to_nat (q + i)).
Proof.
  intros ps m m' h q LE [_ C] Hh Hq i Hi Hq0. apply C; [lia|]. intros h' Hh'.
  apply In_nth_error in Hh, Hh'. destruct Hh as [a Ea]. destruct Hh' as [b Eb].
  pose proof (LE a b h h' q Ea Eb Hq) as D. unfold disjoint in D. lia.
Qed.

Lemma check_ranges_int : forall hook ps m xs, tame hook -> levels hook ps -> distinct_storage ps m ->
  limits_elsewhere ps -> Forall2 (describes m) ps xs ->
  exists ps' m', parameter_check_ranges hook ps m = Done (ps', m', zlen (filter (fun x => negb (in_range x)) xs)) /\
    only_parameters_changed ps m m' /\ Forall2 (describes m') ps (map repaired xs) /\
    cores ps ps' /\ unsigned_levels ps' /\ (filter (fun x => negb (in_range x)) xs = [] -> m' = m).
Proof.
  intros hook ps m xs T [U LV] D LE X. unfold parameter_check_ranges.
  pose proof (Forall2_length_l _ _ _ _ _ X) as LX.
  destruct (check_loop hook T LV (length ps) 0 ps ps m 0 (bad_at xs)) as (ps' & m' & E & C & U' & F & R & S);
    try assumption; [reflexivity|apply cores_refl| |].
  { intros j h _ Ej. destruct (Forall2_nth_l _ _ _ _ _ _ _ X Ej) as (x & Ex & Hx). unfold bad_at. rewrite Ex.
    apply judged_int. exact Hx. }
  assert (Cn : zlen (filter (bad_at xs) (seq 0 (length ps))) = zlen (filter (fun x => negb (in_range x)) xs)).
  { rewrite LX. apply (filter_bad xs 0 xs). reflexivity. }
  apply changed_params in F.
  exists ps', m'. change (Z.of_nat 0) with 0 in E. rewrite E. rewrite Cn. split; [reflexivity|].
  split; [exact F|]. split; [|split; [exact C|split; [exact U'|]]].
  - assert (Q : forall l k ys, l = skipn k ps -> ys = skipn k xs -> Forall2 (describes m) l ys ->
      Forall2 (describes m') l (map repaired ys)).
    { induction l as [|h l IH]; intros k ys E1 E2 F2; destruct ys as [|y ys]; inversion F2 as [|? ? ? ? H1 H2]; [constructor|].
      assert (N1 : nth_error ps k = Some h).
      { pose proof (nth_error_skipn _ ps k 0) as SS. rewrite <- E1 in SS. cbn in SS. rewrite Nat.add_0_r in SS. auto. }
      assert (N2 : nth_error xs k = Some y).
      { pose proof (nth_error_skipn _ xs k 0) as SS. rewrite <- E2 in SS. cbn in SS. rewrite Nat.add_0_r in SS. auto. }
      assert (SK : forall A (a : A) l ys, a :: l = skipn k ys -> l = skipn (Datatypes.S k) ys).
      { clear. intros A a l. induction k; intros ys E; destruct ys; cbn in *; try discriminate;
        [injection E as _ <-; reflexivity|]. apply IHk in E. exact E. }
      cbn [map]. constructor.
      - assert (Hh : In h ps) by (apply nth_error_In in N1; exact N1).
        destruct H1 as (Hv & Hlo & Hhi & Hd). specialize (R k h ltac:(lia) N1). unfold bad_at in R. rewrite N2 in R.
        unfold describes. cbn [repaired value lo hi deflt]. split; [|split; [|split; [|exact Hd]]].
        + destruct (in_range y); cbn [negb] in R.
          * destruct Hv as (V1 & V2 & V3 & V4). repeat split; try assumption; try apply V2.
            intros i Hi. rewrite R by exact Hi. apply V4. exact Hi.
          * apply union_raw with (defaultv h); assumption.
        + apply limit_frame with m (size (ptype_of h)); [|reflexivity|exact Hlo]. intros q Eq.
          apply limits_kept with ps; auto.
        + apply limit_frame with m (size (ptype_of h)); [|reflexivity|exact Hhi]. intros q Eq.
          apply limits_kept with ps; auto.
      - apply IH with (Datatypes.S k); [eapply SK; exact E1|eapply SK; exact E2|assumption]. }
    apply (Q ps O xs); [reflexivity|reflexivity|exact X].
  - intros Z0. apply S. rewrite Z0 in Cn. unfold zlen in Cn. cbn in Cn.
    destruct (filter (bad_at xs) (seq 0 (length ps))); [reflexivity|cbn in Cn; lia].
Qed.

Lemma cores_storage : forall ps ps' m, cores ps ps' -> distinct_storage ps m -> distinct_storage ps' m.
Proof.
  intros ps ps' m C [I D]. assert (C' : Forall2 (fun a b => same_core b a) ps' ps).
  { clear - C. induction C; constructor; auto. }
  split.
  - intros i h E. destruct (Forall2_nth_l _ _ _ _ _ _ _ C' E) as (h0 & E0 & (S1 & S2 & _)). rewrite S1, S2. apply I with i. exact E0.
  - intros i j h h' N E E'. destruct (Forall2_nth_l _ _ _ _ _ _ _ C' E) as (h0 & E0 & (S1 & S2 & _)).
    destruct (Forall2_nth_l _ _ _ _ _ _ _ C' E') as (h0' & E0' & (S1' & S2' & _)). rewrite S1, S2, S1', S2'.
    apply D with i j; assumption.
Qed.

Lemma cores_limits : forall ps ps', cores ps ps' -> limits_elsewhere ps -> limits_elsewhere ps'.
Proof.
  intros ps ps' C D. assert (C' : Forall2 (fun a b => same_core b a) ps' ps).
  { clear - C. induction C; constructor; auto. }
  intros i j h h' q E E' Q. destruct (Forall2_nth_l _ _ _ _ _ _ _ C' E) as (h0 & E0 & (S1 & S2 & S3 & S4 & _)).
  destruct (Forall2_nth_l _ _ _ _ _ _ _ C' E') as (h0' & E0' & (S1' & S2' & _)). rewrite S1, S1', S2'.
  apply (D i j h0 h0' q E0 E0'). rewrite <- S3, <- S4. exact Q.
Qed.

Lemma cores_describes : forall ps ps' m xs, cores ps ps' -> Forall2 (describes m) ps xs -> Forall2 (describes m) ps' xs.
Proof.
  intros ps ps' m xs C. revert xs. induction C; intros xs X; inversion X; subst; constructor; auto.
  destruct H as (S1 & S2 & S3 & S4 & S5 & S6 & S7 & S8). unfold describes in *.
  rewrite S1, S2, S3, S4, S5, S6, S7. assumption.
Qed.

Lemma check_ranges_l : forall hook ps m xs, tame hook -> levels hook ps -> distinct_storage ps m ->
  limits_elsewhere ps -> Forall2 (describes m) ps xs ->
  exists ps' m', parameter_check_ranges hook ps m = Done (ps', m', zlen (filter (fun x => negb (in_range x)) xs)) /\
    only_parameters_changed ps m m' /\
    Forall2 (fun h x => holds m' (pointer h) (ptype_of h) (if in_range x then value x else deflt x)) ps xs /\
    (Forall (fun x => lo x <= deflt x <= hi x) xs ->
      exists ps'', parameter_check_ranges hook ps' m' = Done (ps'', m', 0)).
Proof.
  intros hook ps m xs T LV D LE X.
  destruct (check_ranges_int hook ps m xs T LV D LE X) as (ps' & m' & E & F & X' & C & U & _).
  exists ps', m'. split; [exact E|]. split; [exact F|]. split.
  - clear - X'. remember (map repaired xs) as ys. revert xs Heqys. induction X'; intros xs E; destruct xs; try discriminate; [constructor|].
    cbn [map] in E. injection E as E1 E2. constructor; [|apply IHX'; exact E2].
    destruct H as (H & _). rewrite E1 in H. exact H.
  - intros Df.
    assert (D' : distinct_storage ps' m').
    { apply distinct_frame with m; [apply F|]. apply cores_storage with ps; assumption. }
    assert (LV' : levels hook ps') by (split; [exact U|apply LV]).
    destruct (check_ranges_int hook ps' m' (map repaired xs) T LV' D') as (ps'' & m'' & E2 & _ & _ & _ & _ & S).
    { apply cores_limits with ps; assumption. } { apply cores_describes with ps; assumption. }
    assert (Z0 : filter (fun x => negb (in_range x)) (map repaired xs) = []).
    { clear - Df. induction Df as [|x l H Df IH]; [reflexivity|]. cbn [map filter]. rewrite IH.
      replace (in_range (repaired x)) with true; [reflexivity|]. unfold repaired, in_range. cbn [lo hi value].
      destruct ((lo x <=? value x) && (value x <=? hi x)) eqn:Q; [symmetry; exact Q|].
      symmetry. apply andb_true_intro. split; apply Z.leb_le; lia. }
    rewrite (S Z0) in E2. rewrite Z0 in E2. exists ps''. exact E2.
Qed.
