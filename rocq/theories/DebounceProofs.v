(** Proofs about the debounce filter. *)
From Coq Require Import ZifyBool.
From Verif Require Import Base BaseLemmas Loop DebounceModel DebounceSpec DebounceSystem.

Section P.
Variable W : nat.
Notation N := (Z.of_nat W).

Lemma NTH_testbit : forall x i, 0 <= i -> NTH x i = b2z (Z.testbit x i).
Proof.
  intros x i Hi. unfold NTH. change 1 with (Z.ones 1). rewrite Z.land_ones by lia.
  change (2 ^ 1) with 2. rewrite <- Z.bit0_mod. rewrite Z.shiftr_spec by lia.
  rewrite Z.add_0_l. destruct (Z.testbit x i); reflexivity.
Qed.

Lemma b2z_BOOL : forall b, BOOL (b2z b) = b.
Proof. destruct b; reflexivity. Qed.

Lemma inrange_bits : forall x, 0 <= x < 2 ^ N -> forall m, N <= m -> Z.testbit x m = false.
Proof.
  intros x Hx m Hm. destruct (Z.eq_dec x 0) as [->|]; [apply Z.bits_0|].
  apply Z.bits_above_log2; [lia|]. apply Z.log2_lt_pow2; [lia|].
  apply Z.lt_le_trans with (2 ^ N); [lia|]. apply Z.pow_le_mono_r; lia.
Qed.

Lemma bits_inrange : forall x, 0 <= x -> (forall m, N <= m -> Z.testbit x m = false) -> x < 2 ^ N.
Proof.
  intros x Hx Hb. destruct (Z.eq_dec x 0) as [->|]; [apply Z.pow_pos_nonneg; lia|].
  destruct (Z_lt_le_dec x (2 ^ N)); [assumption|].
  assert (N <= Z.log2 x) by (apply Z.log2_le_pow2; lia).
  pose proof (Z.bit_log2 x ltac:(lia)). rewrite (Hb _ H) in H0. discriminate.
Qed.

Lemma SET_NTH_bits : forall x i v j, 0 <= x < 2 ^ N -> 0 <= i < N -> 0 <= j ->
  Z.testbit (SET_NTH W x i v) j = if j =? i then BOOL v else Z.testbit x j.
Proof.
  intros x i v j Hx Hi Hj. unfold SET_NTH, NUM_INPUTS, wrap.
  rewrite Z.lor_spec, Z.land_spec, Z.shiftl_spec by lia.
  assert (E1 : Z.testbit ((Z.lnot (Z.shiftl 1 i)) mod 2 ^ N) j = (j <? N) && negb (j =? i)).
  { destruct (Z.ltb_spec j N).
    - rewrite Z.mod_pow2_bits_low, Z.lnot_spec, Z.shiftl_spec by lia. cbn [andb]. f_equal.
      destruct (Z.eqb_spec j i) as [->|].
      + now rewrite Z.sub_diag.
      + destruct (Z_lt_le_dec j i); [now rewrite Z.testbit_neg_r by lia|].
        apply (Z.pow2_bits_false 0). lia.
    - rewrite Z.mod_pow2_bits_high by lia. reflexivity. }
  rewrite E1. destruct (Z.eqb_spec j i) as [->|].
  - cbn [negb]. rewrite andb_false_r, andb_false_r, Z.sub_diag. destruct (BOOL v); reflexivity.
  - cbn [negb]. rewrite andb_true_r.
    assert (E2 : Z.testbit (b2z (BOOL v)) (j - i) = false).
    { destruct (Z_lt_le_dec j i); [now rewrite Z.testbit_neg_r by lia|].
      destruct (BOOL v); [apply (Z.pow2_bits_false 0); lia|apply Z.bits_0]. }
    rewrite E2, orb_false_r. destruct (Z.ltb_spec j N); [now rewrite andb_true_r|].
    rewrite andb_false_r. symmetry. now apply inrange_bits.
Qed.

Lemma SET_NTH_range : forall x i v, 0 <= x < 2 ^ N -> 0 <= i < N -> 0 <= SET_NTH W x i v < 2 ^ N.
Proof.
  intros x i v Hx Hi.
  assert (H0 : 0 <= SET_NTH W x i v).
  { unfold SET_NTH. apply Z.lor_nonneg. split; [apply Z.land_nonneg; lia|].
    apply Z.shiftl_nonneg. destruct (BOOL v); cbn; lia. }
  split; [exact H0|]. apply bits_inrange; [exact H0|].
  intros m Hm. rewrite SET_NTH_bits by lia. destruct (Z.eqb_spec m i); [lia|]. now apply inrange_bits.
Qed.

(** Reachable filters. *)
Definition wf (f : dfilter) : Prop :=
  old_input f = buffered f /\ 0 <= buffered f < 2 ^ N /\ length (debounce_count f) = W.

(** Reading and counter of a channel. *)
Definition rd (f : dfilter) (i : Z) : bool := Z.testbit (buffered f) i.
Definition cnt (f : dfilter) (i : Z) : Z := nth (Z.to_nat i) (debounce_count f) 0.

Variable D : Z.
Hypothesis HD : 0 <= D < 2 ^ N.

(** The counter automaton of one channel. *)
Definition cstep (s : bool * Z) (e : event) : bool * Z :=
  let (r, c) := s in
  match e with
  | Force b => (b, c)
  | Sample b =>
      if eqb b r then (r, 0)
      else let c' := if 0 <? c then c - 1 else D in
           if c' =? 0 then (b, 0) else (r, c')
  end.
Definition crun (s : bool * Z) (es : list event) : bool * Z := fold_left cstep es s.

Definition st (f : dfilter) (i : Z) : bool * Z := (rd f i, cnt f i).

Definition counts_ok (f : dfilter) : Prop := forall i, 0 <= i < N -> 0 <= cnt f i <= D.

Lemma b2z_inj : forall a b, b2z a = b2z b -> a = b.
Proof. now intros [] []. Qed.

Lemma cnt_upd_eq : forall f i x, 0 <= i < N -> length (debounce_count f) = W ->
  nth (Z.to_nat i) (upd (debounce_count f) (Z.to_nat i) x) 0 = x.
Proof. intros. apply nth_upd_eq. lia. Qed.

Lemma cnt_upd_neq : forall f i j x, 0 <= i -> 0 <= j -> i <> j ->
  nth (Z.to_nat j) (upd (debounce_count f) (Z.to_nat i) x) 0 = nth (Z.to_nat j) (debounce_count f) 0.
Proof. intros. apply nth_upd_neq. lia. Qed.

Lemma lxor_bit : forall a b, (forall j, 0 <= j -> Z.testbit a j = Z.testbit b j) -> a = b.
Proof. intros a b H. now apply Z.bits_inj'. Qed.

Lemma single_spec : forall f x i d, wf f -> counts_ok f -> 0 <= i < N -> 0 <= x -> wrap N d = D ->
  exists f' c, debounce_filter_single W f x i d = Done (f', c) /\ wf f' /\
    st f' i = cstep (st f i) (Sample (0 <? x)) /\
    (forall j, 0 <= j -> j <> i -> st f' j = st f j) /\
    c = Z.lxor (buffered f) (buffered f').
Proof.
  intros f x i d (W1 & W2 & W3) Hc Hi Hx Hd.
  unfold debounce_filter_single, NUM_INPUTS.
  destruct (Z.ltb_spec i 0); [lia|]. destruct (Z.leb_spec N i); [lia|]. cbn [orb].
  rewrite W1, NTH_testbit by lia. unfold st, rd, cnt, cstep.
  assert (HZ : forall y, zset (debounce_count f) i y = Done (upd (debounce_count f) (Z.to_nat i) y)).
  { intros y. apply zset_ok. unfold zlen. lia. }
  assert (HG : zget (debounce_count f) i = Done (nth (Z.to_nat i) (debounce_count f) 0)).
  { apply zget_ok. unfold zlen. lia. }
  change (0 <? x) with (BOOL x). specialize (Hc i Hi). unfold cnt in Hc.
  destruct (eqb (BOOL x) (Z.testbit (buffered f) i)) eqn:Eb.
  - apply eqb_prop in Eb. rewrite Eb, Z.eqb_refl, HZ. cbn [obind].
    do 2 eexists. split; [reflexivity|]. cbn [old_input buffered debounce_count].
    split; [split; [reflexivity|]; split; [exact W2|cbn [debounce_count]; now rewrite upd_length]|].
    rewrite nth_upd_eq by lia. split; [reflexivity|]. split.
    + intros j Hj Hne. now rewrite cnt_upd_neq by lia.
    + now rewrite Z.lxor_nilpotent.
  - apply eqb_false_iff in Eb.
    destruct (Z.eqb_spec (b2z (BOOL x)) (b2z (Z.testbit (buffered f) i))) as [E|_];
      [apply b2z_inj in E; contradiction|].
    rewrite HG. cbn [obind]. cbv zeta.
    set (c := nth (Z.to_nat i) (debounce_count f) 0) in *.
    assert (E : (if 0 <? c then wrap N (c - 1) else wrap N d) = if 0 <? c then c - 1 else D).
    { destruct (Z.ltb_spec 0 c); [apply wrap_small; lia|exact Hd]. }
    rewrite E. set (c' := if 0 <? c then c - 1 else D). rewrite HZ. cbn [obind].
    destruct (Z.eqb_spec c' 0) as [E0|].
    + do 2 eexists. split; [reflexivity|]. cbn [old_input buffered debounce_count].
      split; [split; [reflexivity|]; split; [now apply SET_NTH_range|cbn [debounce_count]; now rewrite upd_length]|].
      rewrite nth_upd_eq by lia. split; [|split].
      * rewrite SET_NTH_bits by lia. rewrite Z.eqb_refl. now rewrite E0.
      * intros j Hj Hne. rewrite cnt_upd_neq by lia. rewrite SET_NTH_bits by lia.
        destruct (Z.eqb_spec j i); [contradiction|reflexivity].
      * apply lxor_bit. intros j Hj. rewrite Z.lxor_spec.
        assert (0 < 2 ^ N) by (apply Z.pow_pos_nonneg; lia).
        rewrite !SET_NTH_bits by lia. rewrite Z.bits_0.
        destruct (Z.eqb_spec j i) as [->|].
        -- change (BOOL 1) with true. destruct (BOOL x), (Z.testbit (buffered f) i); try reflexivity; congruence.
        -- now rewrite xorb_nilpotent.
    + do 2 eexists. split; [reflexivity|]. cbn [old_input buffered debounce_count].
      split; [split; [reflexivity|]; split; [exact W2|cbn [debounce_count]; now rewrite upd_length]|].
      rewrite nth_upd_eq by lia. split; [reflexivity|]. split.
      * intros j Hj Hne. now rewrite cnt_upd_neq by lia.
      * now rewrite Z.lxor_nilpotent.
Qed.

Lemma cstep_bounds : forall s e, 0 <= snd s <= D -> 0 <= snd (cstep s e) <= D.
Proof.
  intros [r c] [b|b] H; cbn [cstep snd] in *; [|exact H].
  destruct (eqb b r); cbn [snd]; [lia|]. cbv zeta.
  destruct (Z.ltb_spec 0 c); [destruct (Z.eqb_spec (c - 1) 0)|destruct (Z.eqb_spec D 0)]; cbn [snd]; lia.
Qed.

Lemma filter_loop : forall d x, wrap N d = D -> 0 <= x < 2 ^ N ->
  forall n k f ch0 f0, (Z.of_nat n + k = N) -> 0 <= k -> wf f -> wf f0 -> counts_ok f ->
  ch0 = Z.lxor (buffered f0) (buffered f) ->
  (forall j, 0 <= j < k -> Z.testbit ch0 j = xorb (rd f0 j) (rd f j)) ->
  (forall j, k <= j -> rd f j = rd f0 j) ->
  exists f' ch, for_up n k (fun '(f, change) i =>
      do (f', c) <- debounce_filter_single W f (NTH x i) i d;
      Done (f', Z.lor change c)) (f, ch0) = Done (f', ch) /\ wf f' /\ counts_ok f' /\
    ch = Z.lxor (buffered f0) (buffered f') /\
    (forall j, 0 <= j < k -> st f' j = st f j) /\
    (forall j, k <= j < N -> st f' j = cstep (st f j) (Sample (Z.testbit x j))).
Proof.
  intros d x Hd Hx. induction n as [|n IH]; intros k f ch0 f0 Hn Hk Hf Hf0 Hc E0 H1 H2; cbn [for_up].
  - exists f, ch0. split; [reflexivity|]. split; [exact Hf|]. split; [exact Hc|]. split; [exact E0|].
    split; [reflexivity|]. intros; lia.
  - destruct (single_spec f (NTH x k) k d Hf Hc) as (f1 & c1 & E1 & Hf1 & S1 & S2 & C1); try lia.
    { rewrite NTH_testbit by lia. destruct (Z.testbit x k); cbn; lia. }
    rewrite E1. cbn [obind].
    assert (Ex : (0 <? NTH x k) = Z.testbit x k) by (rewrite NTH_testbit by lia; destruct (Z.testbit x k); reflexivity).
    rewrite Ex in S1.
    assert (Hc1 : counts_ok f1).
    { intros j Hj. change (cnt f1 j) with (snd (st f1 j)). destruct (Z.eq_dec j k) as [->|].
      - rewrite S1. apply cstep_bounds. apply Hc. lia.
      - rewrite S2 by lia. apply Hc. lia. }
    assert (Rd1 : forall j, 0 <= j -> j <> k -> rd f1 j = rd f j).
    { intros j Hj Hne. pose proof (S2 j Hj Hne) as S. unfold st in S. congruence. }
    assert (E2 : Z.lor ch0 c1 = Z.lxor (buffered f0) (buffered f1)).
    { apply lxor_bit. intros j Hj. rewrite Z.lor_spec, E0, C1, !Z.lxor_spec.
      change (Z.testbit (buffered f) j) with (rd f j). change (Z.testbit (buffered f1) j) with (rd f1 j).
      change (Z.testbit (buffered f0) j) with (rd f0 j).
      destruct (Z.eq_dec j k) as [->|].
      - rewrite (H2 k) by lia. rewrite xorb_nilpotent. reflexivity.
      - rewrite (Rd1 j) by lia. rewrite xorb_nilpotent, orb_false_r. reflexivity. }
    destruct (IH (k + 1) f1 (Z.lor ch0 c1) f0) as (f' & ch & E & Hf' & Hc' & Ech & Lo & Hi'); try assumption; try lia.
    + intros j Hj. rewrite E2, Z.lxor_spec. reflexivity.
    + intros j Hj. rewrite Rd1 by lia. apply H2. lia.
    + exists f', ch. split; [exact E|]. split; [exact Hf'|]. split; [exact Hc'|]. split; [exact Ech|]. split.
      * intros j Hj. rewrite Lo by lia. apply S2; lia.
      * intros j Hj. destruct (Z.eq_dec j k) as [->|].
        -- rewrite Lo by lia. exact S1.
        -- rewrite Hi' by lia. rewrite S2 by lia. reflexivity.
Qed.

Lemma filter_spec : forall f x d, wf f -> counts_ok f -> 0 <= x < 2 ^ N -> wrap N d = D ->
  exists f' ch, debounce_filter W f x d = Done (f', ch) /\ wf f' /\ counts_ok f' /\
    ch = Z.lxor (buffered f) (buffered f') /\
    (forall j, 0 <= j < N -> st f' j = cstep (st f j) (Sample (Z.testbit x j))).
Proof.
  intros f x d Hf Hc Hx Hd.
  destruct (filter_loop d x Hd Hx W 0 f 0 f) as (f' & ch & E & H1 & H2 & H3 & _ & H4); try assumption; try lia.
  - now rewrite Z.lxor_nilpotent.
  - exists f', ch. repeat (split; [assumption|]). intros j Hj. apply H4. lia.
Qed.

Lemma call_spec : forall f o d, wf f -> counts_ok f -> dop_ok W o -> wrap N d = D ->
  exists f' ch, dcall W d f o = Done (f', ch) /\ wf f' /\ counts_ok f' /\
    (is_set o = false -> ch = Z.lxor (buffered f) (buffered f')) /\
    (forall j, 0 <= j < N -> st f' j = crun (st f j) (events j o)).
Proof.
  intros f o d Hf Hc Ho Hd. destruct o as [x|i x|x]; cbn [dcall events dop_ok is_set] in *.
  - destruct (filter_spec f x d Hf Hc Ho Hd) as (f' & ch & E & H1 & H2 & H3 & H4).
    exists f', ch. repeat (split; [assumption|]). split; [auto|exact H4].
  - destruct (single_spec f x i d Hf Hc) as (f' & ch & E & H1 & H2 & H3 & H4); try lia.
    exists f', ch. split; [exact E|]. split; [exact H1|].
    assert (HS : forall j, 0 <= j < N -> st f' j = crun (st f j) (if i =? j then [Sample (0 <? x)] else [])).
    { intros j Hj. destruct (Z.eqb_spec i j) as [<-|]; [exact H2|]. apply H3; lia. }
    split; [|split; [auto|exact HS]].
    intros j Hj. change (cnt f' j) with (snd (st f' j)). rewrite HS by lia.
    destruct (i =? j); cbn [crun fold_left]; [apply cstep_bounds|]; apply Hc; lia.
  - exists (debounce_filter_set f x), 0. split; [reflexivity|].
    destruct Hf as (W1 & W2 & W3).
    split; [split; [reflexivity|]; split; assumption|].
    split; [exact Hc|]. split; [discriminate|]. intros j Hj. reflexivity.
Qed.

Lemma crun_app : forall a b s, crun s (a ++ b) = crun (crun s a) b.
Proof. intros. apply fold_left_app. Qed.

Lemma channel_app : forall i a b, channel i (a ++ b) = channel i a ++ channel i b.
Proof. intros. apply flat_map_app. Qed.

Lemma samples_app : forall i a b, samples i (a ++ b) = samples i a ++ samples i b.
Proof. intros. unfold samples. now rewrite channel_app, flat_map_app. Qed.

Lemma run_spec : forall d h f, wrap N d = D -> wf f -> counts_ok f -> Forall (dop_ok W) h ->
  exists f', drun W d f h = Done f' /\ wf f' /\ counts_ok f' /\
    (forall j, 0 <= j < N -> st f' j = crun (st f j) (channel j h)).
Proof.
  intros d h. induction h as [|o h IH]; intros f Hd Hf Hc Hh; cbn [drun].
  - exists f. repeat (split; [assumption || reflexivity|]). reflexivity.
  - apply Forall_cons_iff in Hh. destruct Hh as (Ho & Hh').
    destruct (call_spec f o d Hf Hc Ho Hd) as (f1 & ch & E & H1 & H2 & _ & H4).
    rewrite E. cbn [obind]. destruct (IH f1 Hd H1 H2 Hh') as (f' & E' & H1' & H2' & H4').
    exists f'. split; [exact E'|]. split; [exact H1'|]. split; [exact H2'|].
    intros j Hj. rewrite H4', H4 by lia. cbn [channel flat_map].
    change (events j o ++ flat_map (events j) h) with (events j o ++ channel j h). now rewrite crun_app.
Qed.

Lemma zero_loop : forall n k c, length c = W -> Z.of_nat n + k = N -> 0 <= k ->
  (forall j, 0 <= j < k -> nth (Z.to_nat j) c 0 = 0) ->
  exists c', for_up n k (fun c i => zset c i 0) c = Done c' /\ length c' = W /\
    forall j, 0 <= j < N -> nth (Z.to_nat j) c' 0 = 0.
Proof.
  induction n as [|n IH]; intros k c Hl Hn Hk Hz; cbn [for_up].
  - exists c. split; [reflexivity|]. split; [exact Hl|]. intros j Hj. apply Hz. lia.
  - rewrite zset_ok by (unfold zlen; lia). cbn [obind].
    apply IH; [now rewrite upd_length|lia|lia|].
    intros j Hj. destruct (Z.eq_dec j k) as [->|]; [apply nth_upd_eq; lia|].
    rewrite nth_upd_neq by lia. apply Hz. lia.
Qed.

Lemma start_spec : forall f v, length (debounce_count f) = W -> 0 <= v < 2 ^ N ->
  exists f', dstart W f v = Done f' /\ wf f' /\ counts_ok f' /\
    forall j, 0 <= j < N -> st f' j = (Z.testbit v j, 0).
Proof.
  intros f v Hl Hv. unfold dstart, debounce_filter_init.
  destruct (zero_loop W 0 (debounce_count f) Hl ltac:(lia) ltac:(lia) ltac:(intros; lia)) as (c & E & Hc & Hz).
  rewrite E. cbn [obind]. eexists. split; [reflexivity|].
  split; [split; [reflexivity|]; split; assumption|].
  assert (HS : forall j, 0 <= j < N -> st (debounce_filter_set {| old_input := 0; buffered := 0; debounce_count := c |} v) j
            = (Z.testbit v j, 0)).
  { intros j Hj. unfold st, rd, cnt; cbn. f_equal. now apply Hz. }
  split; [|exact HS]. intros j Hj. change (cnt ?f j) with (snd (st f j)). rewrite HS by lia. cbn. lia.
Qed.

Lemma history_spec : forall d f v h, wrap N d = D -> length (debounce_count f) = W -> 0 <= v < 2 ^ N ->
  Forall (dop_ok W) h ->
  exists f', dhistory W d f v h = Done f' /\ wf f' /\ counts_ok f' /\
    (forall j, 0 <= j < N -> st f' j = crun (Z.testbit v j, 0) (channel j h)).
Proof.
  intros d f v h Hd Hl Hv Hh. unfold dhistory.
  destruct (start_spec f v Hl Hv) as (f1 & E1 & H1 & H2 & H3). rewrite E1. cbn [obind].
  destruct (run_spec d h f1 Hd H1 H2 Hh) as (f2 & E2 & H4 & H5 & H6).
  exists f2. split; [exact E2|]. split; [exact H4|]. split; [exact H5|].
  intros j Hj. now rewrite H6, H3 by lia.
Qed.

(** *** The counter automaton *)

(** Enough equal samples are accepted. *)
Lemma accepted : forall n v s, 0 <= snd s <= D ->
  (fst s <> v -> (if 0 <? snd s then snd s else D + 1) <= Z.of_nat n) ->
  fst (crun s (repeat (Sample v) n)) = v.
Proof.
  induction n as [|n IH]; intros v [r c] Hb Hn; cbn [fst snd] in *.
  - destruct (Bool.bool_dec r v); [assumption|]. specialize (Hn n).
    destruct (Z.ltb_spec 0 c); lia.
  - cbn [repeat crun fold_left]. fold (crun (cstep (r, c) (Sample v)) (repeat (Sample v) n)).
    apply IH; [apply (cstep_bounds (r, c)); exact Hb|].
    cbn [cstep]. destruct (eqb v r) eqn:E.
    + apply eqb_prop in E. subst. intros H. now contradict H.
    + apply eqb_false_iff in E. specialize (Hn (not_eq_sym E)). cbv zeta.
      destruct (Z.ltb_spec 0 c).
      * destruct (Z.eqb_spec (c - 1) 0); cbn [fst snd]; [congruence|]. intros _.
        destruct (Z.ltb_spec 0 (c - 1)); lia.
      * destruct (Z.eqb_spec D 0); cbn [fst snd]; [congruence|]. intros _.
        destruct (Z.ltb_spec 0 D); lia.
Qed.

(** A pending counter witnesses a run of contrary samples under an unchanged reading. *)
Lemma pending : forall r0 h,
  (forall e, In e h -> exists b, e = Sample b) ->
  let s := crun (r0, 0) h in
  snd s = 0 \/ exists pre suf, h = pre ++ suf /\ suf = repeat (Sample (negb (fst s))) (length suf) /\
    Z.of_nat (length suf) = D + 1 - snd s /\
    forall mid rest, suf = mid ++ rest -> fst (crun (r0, 0) (pre ++ mid)) = fst s.
Proof.
  intros r0 h. induction h as [|e h IH] using rev_ind; intros Hs s; [left; reflexivity|].
  destruct (Hs e) as (b & ->); [apply in_or_app; right; now left|].
  assert (Hs' : forall e, In e h -> exists b, e = Sample b) by (intros e He; apply Hs; apply in_or_app; now left).
  specialize (IH Hs'). cbv zeta in IH.
  assert (Es : s = cstep (crun (r0, 0) h) (Sample b)) by (unfold s; now rewrite crun_app).
  assert (HB : 0 <= snd (crun (r0, 0) h) <= D).
  { clear IH Es s Hs Hs'. induction h using rev_ind; [cbn; lia|]. rewrite crun_app. now apply (cstep_bounds (crun (r0, 0) h)). }
  assert (Es2 : crun (r0, 0) (h ++ [Sample b]) = s) by reflexivity.
  destruct (crun (r0, 0) h) as [r c] eqn:Eh. cbn [fst snd cstep] in *.
  destruct (eqb b r) eqn:Eb; [left; now rewrite Es|]. apply eqb_false_iff in Eb.
  assert (Hb : b = negb r) by (clear - Eb; destruct b, r; try reflexivity; now contradict Eb).
  destruct (Z.ltb_spec 0 c).
  - destruct IH as [IH|IH]; [lia|]. destruct IH as (pre & suf & E1 & E2 & E3 & E4).
    destruct (Z.eqb_spec (c - 1) 0); [left; now rewrite Es|].
    right. exists pre, (suf ++ [Sample b]). rewrite Es. cbn [fst snd].
    split; [rewrite E1, app_assoc; reflexivity|].
    split; [rewrite E2 at 1; rewrite app_length; cbn [length]; rewrite repeat_app; cbn [repeat]; now rewrite Hb|].
    split; [rewrite app_length; cbn [length]; lia|].
    intros mid rest Em.
    destruct rest as [|e rest] using rev_ind.
    + rewrite app_nil_r in Em. subst mid. rewrite app_assoc, <- E1.
      rewrite Es2, Es. reflexivity.
    + rewrite app_assoc in Em. apply app_inj_tail in Em. destruct Em as (Em & _). now apply (E4 mid rest).
  - destruct (Z.eqb_spec D 0); [left; now rewrite Es|].
    right. exists h, [Sample b]. rewrite Es. cbn [fst snd].
    split; [reflexivity|]. split; [cbn [length repeat]; now rewrite Hb|]. split; [cbn [length]; lia|].
    intros mid rest Em. destruct mid as [|e mid]; [rewrite app_nil_r, Eh; reflexivity|].
    cbn [app] in Em. injection Em as <- Em. symmetry in Em. apply app_eq_nil in Em. destruct Em as (-> & _).
    rewrite Es2, Es. reflexivity.
Qed.

(** A change witnesses a complete run. *)
Lemma changed : forall r0 h b,
  (forall e, In e h -> exists b, e = Sample b) ->
  fst (crun (r0, 0) (h ++ [Sample b])) <> fst (crun (r0, 0) h) ->
  exists pre suf, h = pre ++ suf /\ fst (crun (r0, 0) (h ++ [Sample b])) = b /\
    suf ++ [Sample b] = repeat (Sample b) (Z.to_nat D + 1) /\
    forall mid rest, suf = mid ++ rest -> fst (crun (r0, 0) (pre ++ mid)) = negb b.
Proof.
  intros r0 h b Hs Hne. pose proof (pending r0 h Hs) as HP. cbv zeta in HP.
  rewrite crun_app in *. cbn [crun fold_left] in Hne |- *. fold (crun (r0, 0) h) in *.
  destruct (crun (r0, 0) h) as [r c] eqn:Eh. cbn [fst snd cstep] in *.
  destruct (eqb b r) eqn:Eb; [now contradict Hne|]. apply eqb_false_iff in Eb.
  assert (Hb : r = negb b) by (clear - Eb; destruct b, r; try reflexivity; now contradict Eb).
  destruct (Z.ltb_spec 0 c).
  - destruct (Z.eqb_spec (c - 1) 0); [|now contradict Hne].
    destruct HP as [HP|(pre & suf & E1 & E2 & E3 & E4)]; [lia|].
    exists pre, suf. split; [exact E1|]. split; [reflexivity|].
    split; [|intros mid rest Em; rewrite (E4 mid rest Em); exact Hb].
    rewrite E2. rewrite repeat_app. replace (Z.to_nat D) with (length suf) by lia. cbn [repeat].
    now rewrite Hb, negb_involutive.
  - destruct (Z.eqb_spec D 0) as [->|]; [|now contradict Hne].
    exists h, []. split; [now rewrite app_nil_r|]. split; [reflexivity|]. split; [reflexivity|].
    intros mid rest Em. symmetry in Em. apply app_eq_nil in Em. destruct Em as (-> & ->).
    rewrite app_nil_r, Eh. exact Hb.
Qed.

End P.

(** *** From channels back to calls *)

Lemma events_short : forall i o, (exists e, events i o = [e]) \/ events i o = [].
Proof. intros i [x|j x|x]; cbn; eauto. destruct (j =? i); eauto. Qed.

Lemma split_channel : forall i h a b, channel i h = a ++ b ->
  exists h1 h2, h = h1 ++ h2 /\ channel i h1 = a /\ channel i h2 = b.
Proof.
  intros i. induction h as [|o h IH]; intros a b E.
  - cbn in E. symmetry in E. apply app_eq_nil in E. destruct E as (-> & ->). exists [], []. auto.
  - cbn [channel flat_map] in E. fold (channel i h) in E.
    destruct (events_short i o) as [(e & Ee)|Ee]; rewrite Ee in E; cbn [app] in E.
    + destruct a as [|a0 a]; cbn [app] in E.
      * exists [], (o :: h). split; [reflexivity|]. split; [reflexivity|].
        cbn [channel flat_map]. rewrite Ee. exact E.
      * injection E as -> E. destruct (IH a b E) as (h1 & h2 & -> & <- & <-).
        exists (o :: h1), h2. split; [reflexivity|]. split; [|reflexivity].
        cbn [channel flat_map]. now rewrite Ee.
    + destruct (IH a b E) as (h1 & h2 & -> & <- & <-).
      exists (o :: h1), h2. split; [reflexivity|]. split; [|reflexivity].
      cbn [channel flat_map]. now rewrite Ee.
Qed.

Lemma no_set_samples : forall i h, Forall (fun o => is_set o = false) h ->
  forall e, In e (channel i h) -> exists b, e = Sample b.
Proof.
  intros i h Hn e He. apply in_flat_map in He. destruct He as (o & Ho & He).
  rewrite Forall_forall in Hn. specialize (Hn o Ho).
  destruct o as [x|j x|x]; cbn in *; [|destruct (j =? i); cbn in He|discriminate].
  - destruct He as [<-|[]]. eauto.
  - destruct He as [<-|[]]. eauto.
  - destruct He.
Qed.

Lemma samples_channel : forall i h bs, Forall (fun o => is_set o = false) h ->
  samples i h = bs <-> channel i h = map Sample bs.
Proof.
  intros i h bs Hn. pose proof (no_set_samples i h Hn) as HS. unfold samples.
  revert bs HS. generalize (channel i h). clear. induction l as [|e l IH]; intros bs HS.
  - cbn. destruct bs; cbn; split; congruence.
  - destruct (HS e) as (b & ->); [now left|]. cbn.
    assert (HS' : forall e, In e l -> exists b, e = Sample b) by (intros; apply HS; now right).
    split.
    + intros <-. cbn. f_equal. now apply IH.
    + destruct bs as [|b' bs]; cbn; [discriminate|]. intros E. injection E as <- E. f_equal. now apply IH.
Qed.

Lemma map_repeat : forall (b : bool) n, map Sample (repeat b n) = repeat (Sample b) n.
Proof. induction n; cbn; congruence. Qed.

Lemma read_spec : forall W f i, 0 <= i < Z.of_nat W -> debounce_read W f i = b2z (rd f i).
Proof.
  intros W f i Hi. unfold debounce_read, NUM_INPUTS. destruct (Z.leb_spec (Z.of_nat W) i); [lia|].
  rewrite NTH_testbit by lia. reflexivity.
Qed.

Lemma small_d : forall W d, 0 <= d < 2 ^ (Z.of_nat W - 1) -> 0 <= d < 2 ^ Z.of_nat W /\ wrap (Z.of_nat W) d = d.
Proof.
  intros W d Hd.
  assert (2 ^ (Z.of_nat W - 1) <= 2 ^ Z.of_nat W) by (apply Z.pow_le_mono_r; lia).
  split; [lia|]. apply wrap_small. lia.
Qed.

Section Final.
Variables (W : nat) (d : Z).
Hypothesis Hd : 0 <= d < 2 ^ (Z.of_nat W - 1).

Lemma defined_l : forall f v h, length (debounce_count f) = W -> 0 <= v < 2 ^ Z.of_nat W ->
  Forall (dop_ok W) h -> exists f', dhistory W d f v h = Done f'.
Proof.
  intros f v h Hl Hv Hh. destruct (small_d W d Hd) as (H1 & H2).
  destruct (history_spec W d H1 d f v h H2 Hl Hv Hh) as (f' & E & _). eauto.
Qed.

Lemma reading_l : forall f v h f' i, length (debounce_count f) = W -> 0 <= v < 2 ^ Z.of_nat W ->
  Forall (dop_ok W) h -> 0 <= i < Z.of_nat W -> dhistory W d f v h = Done f' ->
  debounce_read W f' i = b2z (fst (crun d (Z.testbit v i, 0) (channel i h))).
Proof.
  intros f v h f' i Hl Hv Hh Hi E. destruct (small_d W d Hd) as (H1 & H2).
  destruct (history_spec W d H1 d f v h H2 Hl Hv Hh) as (f2 & E2 & _ & _ & HS).
  rewrite E in E2. injection E2 as <-. rewrite read_spec by assumption.
  specialize (HS i Hi). now rewrite <- HS.
Qed.

Lemma change_l : forall f v h o i f1 f2, length (debounce_count f) = W -> 0 <= v < 2 ^ Z.of_nat W ->
  Forall (dop_ok W) (h ++ [o]) -> Forall (fun o => is_set o = false) (h ++ [o]) -> 0 <= i < Z.of_nat W ->
  dhistory W d f v h = Done f1 -> dhistory W d f v (h ++ [o]) = Done f2 ->
  debounce_read W f1 i <> debounce_read W f2 i ->
  exists pre suf b, h = pre ++ suf /\ debounce_read W f2 i = b2z b /\
    samples i (suf ++ [o]) = repeat b (Z.to_nat d + 1) /\
    forall mid rest, suf = mid ++ rest ->
      exists f', dhistory W d f v (pre ++ mid) = Done f' /\ debounce_read W f' i = b2z (negb b).
Proof.
  intros f v h o i f1 f2 Hl Hv Ho Hn Hi E1 E2 Hne.
  assert (Hh : Forall (dop_ok W) h) by (apply Forall_app in Ho; tauto).
  assert (Hnh : Forall (fun o => is_set o = false) h) by (apply Forall_app in Hn; tauto).
  rewrite (reading_l f v h f1 i) in Hne by assumption.
  pose proof (reading_l f v (h ++ [o]) f2 i Hl Hv Ho Hi E2) as R2.
  rewrite R2 in Hne |- *. rewrite channel_app in *.
  destruct (events_short i o) as [(e & Ee)|Ee].
  2:{ exfalso. apply Hne. cbn [channel flat_map]. rewrite Ee. cbn [app]. now rewrite app_nil_r. }
  assert (He : exists b, e = Sample b).
  { apply (no_set_samples i [o]); [apply Forall_app in Hn; tauto|]. cbn [channel flat_map]. rewrite Ee. now left. }
  destruct He as (b & ->).
  assert (Eo : channel i [o] = [Sample b]) by (cbn [channel flat_map]; now rewrite Ee).
  rewrite Eo in *.
  destruct (small_d W d Hd) as (H1 & H2).
  destruct (changed W d H1 (Z.testbit v i) (channel i h) b) as (pre' & suf' & C1 & C2 & C3 & C4).
  { now apply no_set_samples. }
  { intros H. apply Hne. now rewrite H. }
  destruct (split_channel i h pre' suf' C1) as (pre & suf & -> & <- & <-).
  exists pre, suf, b. split; [reflexivity|]. split; [now rewrite C2|]. split.
  - assert (Hns : Forall (fun o => is_set o = false) (suf ++ [o])).
    { rewrite <- app_assoc in Hn. apply Forall_app in Hn. tauto. }
    apply (samples_channel i _ _ Hns). rewrite channel_app, Eo, map_repeat. exact C3.
  - intros mid rest ->.
    assert (Hm : Forall (dop_ok W) (pre ++ mid)).
    { rewrite app_assoc in Hh. apply Forall_app in Hh. tauto. }
    destruct (defined_l f v (pre ++ mid) Hl Hv Hm) as (f' & E'). exists f'. split; [exact E'|].
    rewrite (reading_l f v (pre ++ mid) f' i) by assumption. rewrite channel_app.
    rewrite (C4 (channel i mid) (channel i rest)); [reflexivity|apply channel_app].
Qed.

Lemma accept_l : forall f v h hs i b f', length (debounce_count f) = W -> 0 <= v < 2 ^ Z.of_nat W ->
  Forall (dop_ok W) (h ++ hs) -> Forall (fun o => is_set o = false) hs -> 0 <= i < Z.of_nat W ->
  samples i hs = repeat b (Z.to_nat d + 1) ->
  dhistory W d f v (h ++ hs) = Done f' -> debounce_read W f' i = b2z b.
Proof.
  intros f v h hs i b f' Hl Hv Hh Hn Hi Hs E. destruct (small_d W d Hd) as (H1 & H2).
  rewrite (reading_l f v (h ++ hs) f' i) by assumption. f_equal.
  rewrite channel_app, crun_app. apply (samples_channel i hs _ Hn) in Hs. rewrite Hs, map_repeat.
  assert (HB : forall es s, 0 <= snd s <= d -> 0 <= snd (crun d s es) <= d).
  { induction es as [|e es IH]; intros s HBs; [exact HBs|]. cbn [crun fold_left]. apply IH. now apply (cstep_bounds W d H1). }
  apply (accepted W d H1); [apply HB; cbn; lia|].
  intros _. pose proof (HB (channel i h) (Z.testbit v i, 0) ltac:(cbn; lia)).
  destruct (0 <? _); lia.
Qed.

Lemma mask_l : forall f v h o f1, length (debounce_count f) = W -> 0 <= v < 2 ^ Z.of_nat W ->
  Forall (dop_ok W) (h ++ [o]) -> is_set o = false -> dhistory W d f v h = Done f1 ->
  exists f2 m, dcall W d f1 o = Done (f2, m) /\ dhistory W d f v (h ++ [o]) = Done f2 /\
    m = Z.lxor (debounce_value f1) (debounce_value f2) /\
    0 <= debounce_value f2 < 2 ^ Z.of_nat W /\
    forall i, 0 <= i -> debounce_read W f2 i = if i <? Z.of_nat W then b2z (Z.testbit (debounce_value f2) i) else -1.
Proof.
  intros f v h o f1 Hl Hv Ho Hn E. destruct (small_d W d Hd) as (H1 & H2).
  apply Forall_app in Ho. destruct Ho as (Hh & Ho). apply Forall_cons_iff in Ho. destruct Ho as (Ho & _).
  destruct (history_spec W d H1 d f v h H2 Hl Hv Hh) as (f1' & E1 & W1 & C1 & _).
  rewrite E in E1. injection E1 as <-.
  destruct (call_spec W d H1 f1 o d W1 C1 Ho H2) as (f2 & m & E2 & W2 & C2 & M2 & _).
  exists f2, m. split; [exact E2|]. split.
  - unfold dhistory in *. destruct (dstart W f v) as [f0| | |]; try discriminate. cbn [obind] in *.
    clear - E E2. revert f0 E. induction h as [|a h IH]; intros f0 E; cbn [drun app] in *.
    + injection E as ->. rewrite E2. reflexivity.
    + destruct (dcall W d f0 a) as [[f' ?]| | |]; try discriminate. cbn [obind] in *. now apply IH.
  - split; [now apply M2|]. split; [apply W2|]. intros i Hi.
    destruct (Z.ltb_spec i (Z.of_nat W)); [now apply read_spec|].
    unfold debounce_read, NUM_INPUTS. destruct (Z.leb_spec (Z.of_nat W) i); [reflexivity|lia].
Qed.

Lemma independent_l : forall f g v u h k i f' g', length (debounce_count f) = W -> length (debounce_count g) = W ->
  0 <= v < 2 ^ Z.of_nat W -> 0 <= u < 2 ^ Z.of_nat W -> Forall (dop_ok W) h -> Forall (dop_ok W) k ->
  0 <= i < Z.of_nat W -> Z.testbit v i = Z.testbit u i -> channel i h = channel i k ->
  dhistory W d f v h = Done f' -> dhistory W d g u k = Done g' ->
  debounce_read W f' i = debounce_read W g' i.
Proof.
  intros f g v u h k i f' g' Hf Hg Hv Hu Hh Hk Hi Ev Ec E1 E2.
  rewrite (reading_l f v h f' i), (reading_l g u k g' i) by assumption. now rewrite Ev, Ec.
Qed.

Lemma set_value_l : forall f v h x f', 0 <= x -> length (debounce_count f) = W -> 0 <= v < 2 ^ Z.of_nat W ->
  Forall (dop_ok W) h -> dhistory W d f v (h ++ [DSet x]) = Done f' -> debounce_value f' = x.
Proof.
  intros f v h x f' Hx Hl Hv Hh E. unfold dhistory in E.
  destruct (dstart W f v) as [f0| | |]; try discriminate. cbn [obind] in E. clear - E.
  revert f0 E. induction h as [|a h IH]; intros f0 E; cbn [drun app dcall obind] in E.
  - injection E as <-. reflexivity.
  - destruct (dcall W d f0 a) as [[f1 ?]| | |]; try discriminate. cbn [obind] in E. now apply (IH f1).
Qed.

Lemma set_fresh_l : forall f v h o x h2 i b f0 f1 f2, length (debounce_count f) = W -> 0 <= v < 2 ^ Z.of_nat W ->
  Forall (dop_ok W) (h ++ [o; DSet x] ++ h2) -> 0 <= i < Z.of_nat W ->
  events i o = [Sample b] -> dhistory W d f v h = Done f0 -> debounce_read W f0 i = b2z b ->
  dhistory W d f v (h ++ [o; DSet x] ++ h2) = Done f1 -> dhistory W d f x h2 = Done f2 ->
  debounce_read W f1 i = debounce_read W f2 i.
Proof.
  intros f v h o x h2 i b f0 f1 f2 Hl Hv Hh Hi Ee E0 R0 E1 E2.
  assert (Hh1 : Forall (dop_ok W) h) by (apply Forall_app in Hh; tauto).
  assert (Hh2 : Forall (dop_ok W) ([o; DSet x] ++ h2)) by (apply Forall_app in Hh; tauto).
  apply Forall_app in Hh2. destruct Hh2 as (Hos & Hh2).
  apply Forall_cons_iff in Hos. destruct Hos as (_ & Hos). apply Forall_cons_iff in Hos. destruct Hos as (Hx & _).
  rewrite (reading_l f v h f0 i) in R0 by assumption. apply (b2z_inj W d ltac:(now apply small_d)) in R0.
  rewrite (reading_l f v (h ++ [o; DSet x] ++ h2) f1 i) by assumption. rewrite (reading_l f x h2 f2 i) by assumption.
  rewrite channel_app, crun_app. cbn [channel flat_map app]. rewrite Ee. cbn [app events crun fold_left].
  fold (channel i h2). fold (crun d (Z.testbit v i, 0) (channel i h)).
  destruct (crun d (Z.testbit v i, 0) (channel i h)) as [r c]. cbn [fst] in R0. subst r.
  cbn [cstep]. rewrite eqb_reflx. reflexivity.
Qed.

End Final.

Lemma init_l : forall W f, length (debounce_count f) = W ->
  exists f', debounce_filter_init W f = Done f' /\ debounce_value f' = 0 /\
    (forall i, 0 <= i < Z.of_nat W -> debounce_read W f' i = 0) /\
    forall d h, drun W d f' h = dhistory W d f 0 h.
Proof.
  intros W f Hl. unfold dhistory, dstart.
  destruct (debounce_filter_init W f) as [f'| | |] eqn:E; unfold debounce_filter_init in E;
    destruct (zero_loop W W 0 (debounce_count f) Hl ltac:(lia) ltac:(lia) ltac:(intros; lia)) as (c & E1 & _);
    rewrite E1 in E; try discriminate.
  cbn [obind] in E. injection E as <-. eexists. split; [reflexivity|]. split; [reflexivity|].
  split; [|reflexivity]. intros i Hi. unfold debounce_read, NUM_INPUTS.
  destruct (Z.leb_spec (Z.of_nat W) i); [lia|]. cbn. unfold NTH. now rewrite Z.shiftr_0_l.
Qed.
