(** The pulse counter with a debounce argument for every call and any memory. *)
From Coq Require Import ZifyBool.
From Verif Require Import Base BaseLemmas Loop DebounceSpec PulseModel PulseSpec PulseSystem PulseProofs.

Section P.
Variable W : nat.
Notation N := (Z.of_nat W).

Lemma pow_pos : 0 < 2 ^ N.
Proof. apply Z.pow_pos_nonneg; lia. Qed.

Lemma filter_mod : forall p x d, pulse_filter W p x d = pulse_filter W p x (d mod 2 ^ N).
Proof.
  intros p x d. unfold pulse_filter.
  assert (E : forall n k s, for_up n k (pulse_body W x d) s = for_up n k (pulse_body W x (d mod 2 ^ N)) s).
  { assert (B : forall s i, pulse_body W x d s i = pulse_body W x (d mod 2 ^ N) s i).
    { intros [q ch] i. unfold pulse_body, PULSE_NUM.
      assert (Ed : wrap N (d mod 2 ^ N) = wrap N d) by (apply Z.mod_mod; pose proof pow_pos; lia).
      rewrite Ed. reflexivity. }
    induction n as [|n IH]; intros k s; cbn [for_up]; [reflexivity|]. rewrite B.
    destruct (pulse_body W x (d mod 2 ^ N) s k); cbn [obind]; auto. }
  apply E.
Qed.

(** State of an input against its reference: the count modulo 2^N. *)
Definition vrel (s : bool * Z * Z) (r : input * Z) : Prop :=
  s = (reading (fst r), missing (fst r), snd r mod 2 ^ N) /\ 0 <= missing (fst r) < 2 ^ N.

Lemma cdeb_sampled : forall t b d, 0 <= missing t < 2 ^ N ->
  cdeb (d mod 2 ^ N) (reading t, missing t) b = (reading (sampled W t b d), missing (sampled W t b d)) /\
  0 <= missing (sampled W t b d) < 2 ^ N.
Proof.
  intros [l m] b d Hm. cbn [reading missing] in *. unfold cdeb, sampled. cbn [reading missing].
  pose proof (Z.mod_pos_bound d (2 ^ N) pow_pos) as Hd.
  destruct (eqb b l); cbn [reading missing]; [split; [reflexivity|lia]|]. cbv zeta.
  destruct (Z.ltb_spec 0 m), (Z.eqb_spec m 0); try lia.
  - destruct (m - 1 =? 0); cbn [reading missing]; (split; [reflexivity|lia]).
  - destruct (d mod 2 ^ N =? 0); cbn [reading missing]; (split; [reflexivity|lia]).
Qed.

Lemma call_vary : forall high p o, wf W p -> ptype p = type_of high ->
  exists p' c, vpcall W p o = Done (p', c) /\ wf W p' /\ ptype p' = type_of high /\
    (forall j r, 0 <= j < N -> vrel (st p j) r -> vrel (st p' j) (vpulse_step W high j r o)) /\
    (forall x d, o = VPFilter x d -> c = b2z (existsb (fun k =>
       cedge (d mod 2 ^ N) high (st p (Z.of_nat k)) (Z.testbit x (Z.of_nat k))) (seq 0 W))).
Proof.
  intros high p o Hp Ht. destruct o as [x d|k]; cbn [vpcall].
  - rewrite filter_mod.
    destruct (filter_spec W (d mod 2 ^ N) (Z.mod_pos_bound d (2 ^ N) pow_pos) high p x Hp Ht) as (p' & E & H1 & H2 & H3).
    eexists. eexists. split; [exact E|]. split; [exact H1|]. split; [exact H2|]. split.
    + intros j [t n] Hj (Es & Hm). cbn [fst snd] in *. rewrite H3 by lia. rewrite Es.
      unfold cpulse. destruct (cdeb_sampled t (Z.testbit x j) d Hm) as (Ec & Hb). rewrite Ec.
      cbn [vpulse_step fst snd]. split; [|exact Hb]. cbn [fst snd]. f_equal.
      destruct (counted high _ _); [|reflexivity]. unfold wrap. apply Z.add_mod_idemp_l. pose proof pow_pos. lia.
    + intros x' d' Ho. injection Ho as <- <-. reflexivity.
  - destruct (clear_spec W p k Hp) as (p' & E & H1 & H2 & _ & _ & H3). rewrite E. cbn [obind].
    exists p', 0. split; [reflexivity|]. split; [exact H1|]. split; [congruence|]. split.
    + intros j [t n] Hj (Es & Hm). cbn [fst snd] in *. rewrite H3 by lia. rewrite Es. cbn [vpulse_step fst snd].
      split; [|exact Hm]. cbn [fst snd]. f_equal. destruct (k =? j); [|reflexivity].
      symmetry. apply Z.mod_0_l. pose proof pow_pos. lia.
    + discriminate.
Qed.

Lemma run_vary : forall high h p, wf W p -> ptype p = type_of high ->
  exists p', vprun W p h = Done p' /\ wf W p' /\ ptype p' = type_of high /\
    forall j r, 0 <= j < N -> vrel (st p j) r -> vrel (st p' j) (fold_left (vpulse_step W high j) h r).
Proof.
  intros high. induction h as [|o h IH]; intros p Hp Ht; cbn [vprun fold_left].
  - exists p. auto.
  - destruct (call_vary high p o Hp Ht) as (p1 & c & E & H1 & H2 & H3 & _). rewrite E. cbn [obind].
    destruct (IH p1 H1 H2) as (p' & E' & H1' & H2' & H3'). exists p'. repeat (split; [assumption|]).
    intros j r Hj Hr. apply H3'; [exact Hj|]. now apply H3.
Qed.

Lemma history_vary : forall high p init h, mem_ok W p -> 0 <= init < 2 ^ N ->
  exists p', vphistory W p high init h = Done p' /\ wf W p' /\ ptype p' = type_of high /\
    forall j, 0 <= j < N -> vrel (st p' j) (vpulse W high init (nth (Z.to_nat j) (filters p) 0) j h).
Proof.
  intros high p init h Hm Hi. unfold vphistory.
  destruct (init_spec W high p init Hm Hi) as (p1 & E1 & H1 & T1 & S1). rewrite E1. cbn [obind].
  destruct (run_vary high h p1 H1 T1) as (p2 & E2 & H2 & T2 & S2).
  exists p2. repeat (split; [assumption|]). intros j Hj. unfold vpulse. apply S2; [exact Hj|].
  rewrite S1 by exact Hj. split; cbn [fst snd reading missing].
  - rewrite Z.mod_0_l by (pose proof pow_pos; lia). reflexivity.
  - destruct Hm as (M1 & _ & M3). rewrite Forall_forall in M3. apply M3. apply nth_In. lia.
Qed.

Lemma pulse_vary_l : forall high p init h, mem_ok W p -> 0 <= init < 2 ^ N ->
  exists p', vphistory W p high init h = Done p' /\
    (forall i, 0 <= i < N ->
       let r := vpulse W high init (nth (Z.to_nat i) (filters p) 0) i h in
       pulse_level W p' i = b2z (reading (fst r)) /\ pulse_count W p' i = Done (swrap N (snd r))) /\
    forall x d, exists p2,
      pulse_filter W p' x d = Done (p2, b2z (some_pulse W high init (filters p) h x d)) /\
      vphistory W p high init (h ++ [VPFilter x d]) = Done p2.
Proof.
  intros high p init h Hm Hi.
  destruct (history_vary high p init h Hm Hi) as (p' & E & Hp & Ht & S). exists p'. split; [exact E|]. split.
  - intros i Hin. cbv zeta. destruct (S i Hin) as (Es & _).
    set (r := vpulse W high init (nth (Z.to_nat i) (filters p) 0) i h) in *. clearbody r.
    destruct Hp as (W1 & W2 & W3 & W4). unfold st in Es. injection Es as E1 E2 E3.
    unfold pulse_level, pulse_count, PULSE_NUM.
    destruct (Z.ltb_spec i 0); [lia|]. destruct (Z.leb_spec N i); [lia|]. cbn [orb].
    rewrite DebounceProofs.NTH_testbit by lia || rewrite PNTH_testbit by lia. split; [now rewrite E1|].
    rewrite (zget_ok _ _ _ 0) by (unfold zlen; lia). cbn [obind]. rewrite E3.
    unfold swrap. cbv zeta. rewrite Z.mod_mod; [reflexivity|]. pose proof pow_pos; lia.
  - intros x d. destruct (call_vary high p' (VPFilter x d) Hp Ht) as (p2 & c & E2 & _ & _ & _ & H).
    cbn [vpcall] in E2. rewrite (H x d eq_refl) in E2. exists p2. split.
    + rewrite E2. f_equal. f_equal. f_equal. unfold some_pulse.
      assert (HL : forall l, (forall k, In k l -> (k < W)%nat) ->
        existsb (fun k => cedge (d mod 2 ^ N) high (st p' (Z.of_nat k)) (Z.testbit x (Z.of_nat k))) l =
        existsb (fun k => let i := Z.of_nat k in
             let s := fst (vpulse W high init (nth k (filters p) 0) i h) in
             counted high (reading s) (reading (sampled W s (Z.testbit x i) d))) l).
      { induction l as [|k l IH]; intros Hk; [reflexivity|]. cbn [existsb].
        rewrite IH by (intros; apply Hk; now right). f_equal. cbv zeta.
        pose proof (Hk k ltac:(now left)) as Hkl. destruct (S (Z.of_nat k) ltac:(lia)) as (Es & Hb).
        rewrite Nat2Z.id in Es, Hb. rewrite Es. unfold cedge. cbn [fst].
        destruct (cdeb_sampled _ (Z.testbit x (Z.of_nat k)) d Hb) as (Ec & _). rewrite Ec. reflexivity. }
      apply HL. intros k Hk. apply in_seq in Hk. lia.
    + clear - E E2. unfold vphistory in *. destruct (pulse_filter_init W p (type_of high) init) as [p0| | |]; try discriminate.
      cbn [obind] in *. revert p0 E. induction h as [|o h IH]; intros p0 E; cbn [vprun app] in *.
      * injection E as ->. cbn [vpcall]. rewrite E2. reflexivity.
      * destruct (vpcall W p0 o) as [[p1 c1]| | |]; try discriminate. cbn [obind] in *. auto.
Qed.
End P.
