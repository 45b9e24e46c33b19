(** Histories in which every call has its own debounce argument. *)
From Coq Require Import ZifyBool.
From Verif Require Import Base BaseLemmas Loop DebounceModel DebounceSpec DebounceSystem DebounceProofs.

Section P.
Variable W : nat.
Notation N := (Z.of_nat W).
Notation wf := (wf W).

Definition ist (f : dfilter) (i : Z) : input := mkInput (rd f i) (cnt f i).
Definition counts_in (f : dfilter) : Prop := forall i, 0 <= i < N -> 0 <= cnt f i < 2 ^ N.

Lemma sampled_bounds : forall s b d, 0 <= missing s < 2 ^ N -> 0 <= missing (sampled W s b d) < 2 ^ N.
Proof.
  intros s b d H. unfold sampled. destruct (eqb b (reading s)); cbn [missing]; [lia|]. cbv zeta.
  pose proof (Z.mod_pos_bound d (2 ^ N) ltac:(lia)).
  destruct (Z.eqb_spec (missing s) 0) as [_|]; [destruct (d mod 2 ^ N =? 0)|destruct (missing s - 1 =? 0)];
    cbn [missing]; lia.
Qed.

Lemma single_vary : forall f x i d, wf f -> counts_in f -> 0 <= i < N -> 0 <= x ->
  exists f' c, debounce_filter_single W f x i d = Done (f', c) /\ wf f' /\ counts_in f' /\
    ist f' i = sampled W (ist f i) (0 <? x) d /\
    (forall j, 0 <= j -> j <> i -> ist f' j = ist f j) /\
    c = Z.lxor (buffered f) (buffered f').
Proof.
  intros f x i d Hf Hc Hi Hx.
  pose proof (Z.mod_pos_bound d (2 ^ N) ltac:(apply Z.pow_pos_nonneg; lia)) as Hd.
  (* the counters of the other channels do not matter: reduce to one bound *)
  set (D := wrap N d). assert (HD : 0 <= D < 2 ^ N) by exact Hd.
  assert (H : exists f' c, debounce_filter_single W f x i d = Done (f', c) /\ wf f' /\
    ist f' i = sampled W (ist f i) (0 <? x) d /\
    (forall j, 0 <= j -> j <> i -> ist f' j = ist f j) /\
    c = Z.lxor (buffered f) (buffered f')).
  { destruct Hf as (W1 & W2 & W3).
    unfold debounce_filter_single, NUM_INPUTS.
    destruct (Z.ltb_spec i 0); [lia|]. destruct (Z.leb_spec N i); [lia|]. cbn [orb].
    rewrite W1, NTH_testbit by lia. unfold ist, rd, cnt, sampled. cbn [reading missing].
    assert (HZ : forall y, zset (debounce_count f) i y = Done (upd (debounce_count f) (Z.to_nat i) y)).
    { intros y. apply zset_ok. unfold zlen. lia. }
    assert (HG : zget (debounce_count f) i = Done (nth (Z.to_nat i) (debounce_count f) 0)).
    { apply zget_ok. unfold zlen. lia. }
    change (0 <? x) with (BOOL x). specialize (Hc i Hi). unfold cnt in Hc.
    destruct (eqb (BOOL x) (Z.testbit (buffered f) i)) eqn:Eb.
    - apply eqb_prop in Eb. rewrite Eb, Z.eqb_refl, HZ. cbn [obind].
      do 2 eexists. split; [reflexivity|]. cbn [old_input buffered debounce_count].
      split; [split; [reflexivity|]; split; [exact W2|cbn [debounce_count]; now rewrite upd_length]|].
      rewrite nth_upd_eq by lia. split; [reflexivity|]. split.
      + intros j Hj Hne. now rewrite nth_upd_neq by lia.
      + now rewrite Z.lxor_nilpotent.
    - apply eqb_false_iff in Eb.
      destruct (Z.eqb_spec (b2z (BOOL x)) (b2z (Z.testbit (buffered f) i))) as [E|_];
        [apply (b2z_inj W D HD) in E; contradiction|].
      rewrite HG. cbn [obind]. cbv zeta.
      set (c := nth (Z.to_nat i) (debounce_count f) 0) in *.
      assert (E : (if 0 <? c then wrap N (c - 1) else wrap N d) = if c =? 0 then d mod 2 ^ N else c - 1).
      { destruct (Z.ltb_spec 0 c); destruct (Z.eqb_spec c 0); try lia; [apply wrap_small; lia|reflexivity]. }
      rewrite E. set (c' := if c =? 0 then d mod 2 ^ N else c - 1). rewrite HZ. cbn [obind].
      destruct (Z.eqb_spec c' 0) as [E0|].
      + do 2 eexists. split; [reflexivity|]. cbn [old_input buffered debounce_count].
        split; [split; [reflexivity|]; split; [now apply SET_NTH_range|cbn [debounce_count]; now rewrite upd_length]|].
        rewrite nth_upd_eq by lia. split; [|split].
        * rewrite SET_NTH_bits by lia. rewrite Z.eqb_refl. now rewrite E0.
        * intros j Hj Hne. rewrite nth_upd_neq by lia. rewrite SET_NTH_bits by lia.
          destruct (Z.eqb_spec j i); [contradiction|reflexivity].
        * apply lxor_bit. intros j Hj. rewrite Z.lxor_spec.
          assert (0 < 2 ^ N) by (apply Z.pow_pos_nonneg; lia).
          rewrite !SET_NTH_bits by lia. rewrite Z.bits_0.
          destruct (Z.eqb_spec j i) as [->|].
          -- change (BOOL 1) with true. destruct (BOOL x), (Z.testbit (buffered f) i); try reflexivity; congruence.
          -- now rewrite xorb_nilpotent.
      + do 2 eexists. split; [reflexivity|]. cbn [old_input buffered debounce_count].
        split; [split; [reflexivity|]; split; [exact W2|cbn [debounce_count]; now rewrite upd_length]|].
        rewrite nth_upd_eq by lia. split; [reflexivity|]. split.
        * intros j Hj Hne. now rewrite nth_upd_neq by lia.
        * now rewrite Z.lxor_nilpotent. }
  destruct H as (f' & c & E & Hf' & S1 & S2 & C). exists f', c.
  split; [exact E|]. split; [exact Hf'|]. split; [|auto].
  intros j Hj. change (cnt f' j) with (missing (ist f' j)). destruct (Z.eq_dec j i) as [->|].
  - rewrite S1. apply sampled_bounds. apply Hc. lia.
  - rewrite S2 by lia. apply Hc. lia.
Qed.

Lemma filter_loop_vary : forall d x,
  forall n k f ch0 f0, (Z.of_nat n + k = N) -> 0 <= k -> wf f -> wf f0 -> counts_in f ->
  ch0 = Z.lxor (buffered f0) (buffered f) ->
  (forall j, k <= j -> rd f j = rd f0 j) ->
  exists f' ch, for_up n k (fun '(f, change) i =>
      do (f', c) <- debounce_filter_single W f (NTH x i) i d;
      Done (f', Z.lor change c)) (f, ch0) = Done (f', ch) /\ wf f' /\ counts_in f' /\
    ch = Z.lxor (buffered f0) (buffered f') /\
    (forall j, 0 <= j < k -> ist f' j = ist f j) /\
    (forall j, k <= j < N -> ist f' j = sampled W (ist f j) (Z.testbit x j) d).
Proof.
  intros d x. induction n as [|n IH]; intros k f ch0 f0 Hn Hk Hf Hf0 Hc E0 H2; cbn [for_up].
  - exists f, ch0. split; [reflexivity|]. split; [exact Hf|]. split; [exact Hc|]. split; [exact E0|].
    split; [reflexivity|]. intros; lia.
  - destruct (single_vary f (NTH x k) k d Hf Hc) as (f1 & c1 & E1 & Hf1 & Hc1 & S1 & S2 & C1); try lia.
    { rewrite NTH_testbit by lia. destruct (Z.testbit x k); cbn; lia. }
    rewrite E1. cbn [obind].
    assert (Ex : (0 <? NTH x k) = Z.testbit x k) by (rewrite NTH_testbit by lia; destruct (Z.testbit x k); reflexivity).
    rewrite Ex in S1.
    assert (Rd1 : forall j, 0 <= j -> j <> k -> rd f1 j = rd f j).
    { intros j Hj Hne. pose proof (S2 j Hj Hne) as S. unfold ist in S. congruence. }
    assert (E2 : Z.lor ch0 c1 = Z.lxor (buffered f0) (buffered f1)).
    { apply lxor_bit. intros j Hj. rewrite Z.lor_spec, E0, C1, !Z.lxor_spec.
      change (Z.testbit (buffered f) j) with (rd f j). change (Z.testbit (buffered f1) j) with (rd f1 j).
      change (Z.testbit (buffered f0) j) with (rd f0 j).
      destruct (Z.eq_dec j k) as [->|].
      - rewrite (H2 k) by lia. rewrite xorb_nilpotent. reflexivity.
      - rewrite (Rd1 j) by lia. rewrite xorb_nilpotent, orb_false_r. reflexivity. }
    destruct (IH (k + 1) f1 (Z.lor ch0 c1) f0) as (f' & ch & E & Hf' & Hc' & Ech & Lo & Hi'); try assumption; try lia.
    + intros j Hj. rewrite Rd1 by lia. apply H2. lia.
    + exists f', ch. split; [exact E|]. split; [exact Hf'|]. split; [exact Hc'|]. split; [exact Ech|]. split.
      * intros j Hj. rewrite Lo by lia. apply S2; lia.
      * intros j Hj. destruct (Z.eq_dec j k) as [->|].
        -- rewrite Lo by lia. exact S1.
        -- rewrite Hi' by lia. rewrite S2 by lia. reflexivity.
Qed.

Lemma call_vary : forall f o, wf f -> counts_in f -> vop_ok W o ->
  exists f' ch, vcall W f o = Done (f', ch) /\ wf f' /\ counts_in f' /\
    (is_vset o = false -> ch = Z.lxor (buffered f) (buffered f')) /\
    (forall j, 0 <= j < N -> ist f' j = vstep W j (ist f j) o).
Proof.
  intros f o Hf Hc Ho. destruct o as [x d|i x d|x]; cbn [vcall vstep vop_ok is_vset] in *.
  - destruct (filter_loop_vary d x W 0 f 0 f) as (f' & ch & E & H1 & H2 & H3 & _ & H4); try assumption; try lia.
    { symmetry. apply Z.lxor_nilpotent. }
    exists f', ch. unfold debounce_filter. repeat (split; [assumption|]). split; [auto|].
    intros j Hj. apply H4. lia.
  - destruct (single_vary f x i d Hf Hc) as (f' & ch & E & H1 & H2 & H3 & H4 & H5); try lia.
    exists f', ch. repeat (split; [assumption|]). split; [auto|].
    intros j Hj. destruct (Z.eqb_spec i j) as [<-|]; [exact H3|]. apply H4; lia.
  - exists (debounce_filter_set f x), 0. split; [reflexivity|].
    destruct Hf as (W1 & W2 & W3).
    split; [split; [reflexivity|]; split; assumption|].
    split; [exact Hc|]. split; [discriminate|]. intros j Hj. reflexivity.
Qed.

Lemma run_vary : forall h f, wf f -> counts_in f -> Forall (vop_ok W) h ->
  exists f', vrun W f h = Done f' /\ wf f' /\ counts_in f' /\
    (forall j, 0 <= j < N -> ist f' j = fold_left (vstep W j) h (ist f j)).
Proof.
  induction h as [|o h IH]; intros f Hf Hc Hh; cbn [vrun fold_left].
  - exists f. repeat (split; [assumption || reflexivity|]). reflexivity.
  - apply Forall_cons_iff in Hh. destruct Hh as (Ho & Hh').
    destruct (call_vary f o Hf Hc Ho) as (f1 & ch & E & H1 & H2 & _ & H4).
    rewrite E. cbn [obind]. destruct (IH f1 H1 H2 Hh') as (f' & E' & H1' & H2' & H4').
    exists f'. split; [exact E'|]. split; [exact H1'|]. split; [exact H2'|].
    intros j Hj. now rewrite H4', H4 by lia.
Qed.

Lemma history_vary : forall f v h, length (debounce_count f) = W -> 0 <= v < 2 ^ N -> Forall (vop_ok W) h ->
  exists f', vhistory W f v h = Done f' /\ wf f' /\ counts_in f' /\
    (forall j, 0 <= j < N -> ist f' j = vinput W v j h).
Proof.
  intros f v h Hl Hv Hh. unfold vhistory.
  destruct (start_spec W 0 ltac:(lia) f v Hl Hv) as (f1 & E1 & H1 & H2 & H3). rewrite E1. cbn [obind].
  assert (HI : forall j, 0 <= j < N -> ist f1 j = mkInput (Z.testbit v j) 0).
  { intros j Hj. pose proof (H3 j Hj) as S. unfold st in S. injection S as S1 S2. unfold ist. congruence. }
  destruct (run_vary h f1 H1) as (f2 & E2 & H4 & H5 & H6); [|assumption|].
  { intros j Hj. change (cnt f1 j) with (missing (ist f1 j)). rewrite HI by lia. cbn. lia. }
  exists f2. split; [exact E2|]. split; [exact H4|]. split; [exact H5|].
  intros j Hj. unfold vinput. now rewrite H6, HI by lia.
Qed.

Lemma vary_l : forall f v h, length (debounce_count f) = W -> 0 <= v < 2 ^ N -> Forall (vop_ok W) h ->
  exists f', vhistory W f v h = Done f' /\
    (forall i, 0 <= i < N -> debounce_read W f' i = b2z (reading (vinput W v i h)) /\
       Z.testbit (debounce_value f') i = reading (vinput W v i h)) /\
    forall o, vop_ok W o -> is_vset o = false -> exists f2,
      vcall W f' o = Done (f2, Z.lxor (debounce_value f') (debounce_value f2)) /\
      vhistory W f v (h ++ [o]) = Done f2.
Proof.
  intros f v h Hl Hv Hh. destruct (history_vary f v h Hl Hv Hh) as (f' & E & Hf & Hc & HS).
  exists f'. split; [exact E|]. split.
  - intros i Hi. unfold debounce_value. change (Z.testbit (buffered f') i) with (reading (ist f' i)).
    rewrite HS by lia. split; [|reflexivity]. unfold debounce_read, NUM_INPUTS. destruct (Z.leb_spec N i); [lia|].
    rewrite NTH_testbit by lia. change (Z.testbit (buffered f') i) with (reading (ist f' i)). now rewrite HS.
  - intros o Ho Hs. destruct (call_vary f' o Hf Hc Ho) as (f2 & ch & E2 & H1 & H2 & H3 & H4).
    exists f2. unfold debounce_value. rewrite <- (H3 Hs). split; [exact E2|].
    unfold vhistory in *. destruct (dstart W f v) as [f0| | |]; try discriminate. cbn [obind] in *.
    clear - E E2. revert f0 E. induction h as [|p h IH]; intros f0 E; cbn [vrun app] in *.
    + injection E as ->. rewrite E2. reflexivity.
    + destruct (vcall W f0 p) as [[f1 c]| | |]; try discriminate. cbn [obind] in *. auto.
Qed.
End P.
