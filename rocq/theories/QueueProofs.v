(** Proofs about the queue model: refinement through unbounded ghost counters. *)
From Verif Require Import Base BaseLemmas QueueModel QueueSpec QueueSystem.

Section QueueProofs.
Context {A : Type}.

Definition pow2cap (cap : Z) : Prop := exists k, 0 <= k <= 15 /\ cap = 2 ^ k.

(** [R] items were ever removed, [W] ever accepted. *)
Record qrep (cap R W : Z) (q : queue A) (l : list A) : Prop := {
  q_cap : zlen (items q) = cap;
  q_pos : 0 <= R;
  q_len : W - R = zlen l;
  q_le : zlen l <= cap;
  q_rd : read_idx q = R mod 65536;
  q_wr : write_idx q = W mod 65536;
  q_cells : forall j a, nth_error l j = Some a ->
              nth_error (items q) (Z.to_nat ((R + Z.of_nat j) mod cap)) = Some a
}.

Lemma pow2cap_div : forall cap, pow2cap cap -> 1 <= cap <= 32768 /\ (cap | 65536).
Proof.
  intros cap (k & Hk & ->). split.
  - split; [apply (Z.pow_le_mono_r 2 0 k); lia|].
    apply (Z.pow_le_mono_r 2 k 15); lia.
  - exists (2 ^ (16 - k)). rewrite <- Z.pow_add_r by lia. replace (16 - k + k) with 16 by lia. reflexivity.
Qed.

Lemma index_eq : forall cap x, pow2cap cap ->
  wrap 16 (Z.land (x mod 65536) (wrap 64 (cap - 1))) = x mod cap.
Proof.
  intros cap x Hp. pose proof (pow2cap_div _ Hp) as (Hc & Hd).
  rewrite wrap64_small by lia.
  assert (E : Z.land (x mod 65536) (cap - 1) = x mod cap).
  { destruct Hp as (k & Hk & ->).
    replace (2 ^ k - 1) with (Z.ones k) by (rewrite Z.ones_equiv; lia).
    rewrite Z.land_ones by lia.
    symmetry. apply Znumtheory.Zmod_div_mod; [lia|lia|exact Hd]. }
  rewrite E. apply wrap16_small. pose proof (Z.mod_pos_bound x cap). lia.
Qed.

Lemma diff_mod : forall R W d, W - R = d -> 0 <= d < 65536 ->
  wrap 16 (W mod 65536 - R mod 65536) = d.
Proof.
  intros R W d H Hd. unfold wrap. change (2 ^ 16) with 65536.
  rewrite <- Zminus_mod. rewrite H. apply Z.mod_small; lia.
Qed.

Lemma succ_mod : forall x, wrap 16 (x mod 65536 + 1) = (x + 1) mod 65536.
Proof. intros. unfold wrap. change (2 ^ 16) with 65536. apply Zplus_mod_idemp_l. Qed.

Lemma mod_inj : forall cap x y, 0 < cap -> 0 <= y - x < cap -> x mod cap = y mod cap -> x = y.
Proof.
  intros cap x y Hc H E.
  assert (Hz : (y - x) mod cap = 0) by (rewrite Zminus_mod, E, Z.sub_diag; apply Z.mod_0_l; lia).
  rewrite Z.mod_small in Hz by lia. lia.
Qed.

Lemma step_rep : forall cap R W q l o,
  pow2cap cap -> qrep cap R W q l ->
  let r := snd (qspec_step cap l o) in
  exists q', queue_step q o = Done (q', r) /\
    qrep cap (R + removed o r) (W + accepted o r) q' (fst (qspec_step cap l o)).
Proof.
  intros cap R W q l o Hp Hq. pose proof (pow2cap_div _ Hp) as (Hc & Hd).
  pose proof (zlen_nonneg _ l) as Hl. destruct Hq.
  destruct q as [rd wr its]; cbn [read_idx write_idx items] in *.
  subst rd wr.
  assert (Hdiff : wrap 16 (W mod 65536 - R mod 65536) = zlen l)
    by (apply diff_mod; lia).
  destruct o; cbn -[wrap Z.modulo Z.add]; unfold queue_drop, queue_enqueue, queue_dequeue, queue_is_empty, queue_is_full, capacity, queued;
    cbn -[wrap Z.modulo Z.add]; fold (zlen l); rewrite ?Hdiff, ?q_cap0.
  - (* enqueue *)
    destruct (Z.eqb_spec (zlen l) cap).
    + destruct (Z.ltb_spec (zlen l) cap); [lia|]. cbn -[Z.modulo].
      eexists. split; [reflexivity|]. rewrite !Z.add_0_r.
      constructor; auto.
    + destruct (Z.ltb_spec (zlen l) cap); [|lia].
      rewrite index_eq by assumption.
      pose proof (Z.mod_pos_bound W cap).
      rewrite zset_ok by lia.
      cbn -[wrap Z.modulo Z.add].
      eexists. split; [reflexivity|]. rewrite Z.add_0_r.
      constructor; cbn [read_idx write_idx items]; auto.
      * now rewrite zlen_upd.
      * unfold zlen in *; rewrite app_length; cbn [length]; lia.
      * unfold zlen in *; rewrite app_length; cbn [length]; lia.
      * apply succ_mod.
      * intros j b Hj. rewrite nth_error_app in Hj.
        destruct (Nat.ltb_spec j (length l)).
        -- rewrite nth_error_upd_neq; auto.
           intro E. apply Z2Nat.inj in E; try (apply Z.mod_pos_bound; lia).
           symmetry in E. apply mod_inj in E; unfold zlen in *; lia.
        -- destruct (j - length l)%nat eqn:Ej; cbn in Hj; [|destruct n0; discriminate].
           injection Hj as <-.
           replace (R + Z.of_nat j) with W by (unfold zlen in *; lia).
           apply nth_error_upd_eq. unfold zlen in *; lia.
  - (* dequeue *)
    destruct l as [|x l'].
    + cbn -[Z.modulo]. eexists. split; [reflexivity|]. rewrite !Z.add_0_r. constructor; auto.
    + destruct (Z.eqb_spec (zlen (x :: l')) 0) as [E|E]; [unfold zlen in E; cbn in E; lia|].
      rewrite index_eq by assumption.
      assert (Hx : nth_error its (Z.to_nat (R mod cap)) = Some x).
      { specialize (q_cells0 O x eq_refl). now rewrite Z.add_0_r in q_cells0. }
      assert (Hg : zget its (R mod cap) = Done x).
      { unfold zget. pose proof (Z.mod_pos_bound R cap).
        destruct (Z.ltb_spec (R mod cap) 0); [lia|]. now rewrite Hx. }
      rewrite Hg. cbn -[wrap Z.modulo Z.add].
      eexists. split; [reflexivity|]. rewrite Z.add_0_r.
      unfold zlen in *; cbn [length] in *.
      constructor; cbn [read_idx write_idx items]; unfold zlen; auto; try lia.
      * apply succ_mod.
      * intros j b Hj. specialize (q_cells0 (S j) b Hj).
        replace (R + 1 + Z.of_nat j) with (R + Z.of_nat (S j)) by lia. exact q_cells0.
  - (* drop *)
    destruct l as [|x l'].
    + cbn -[Z.modulo]. eexists. split; [reflexivity|]. rewrite !Z.add_0_r. constructor; auto.
    + destruct (Z.eqb_spec (zlen (x :: l')) 0) as [E|E]; [unfold zlen in E; cbn in E; lia|].
      cbn -[wrap Z.modulo Z.add].
      eexists. split; [reflexivity|]. rewrite Z.add_0_r.
      unfold zlen in *; cbn [length] in *.
      constructor; cbn [read_idx write_idx items]; unfold zlen; auto; try lia.
      * apply succ_mod.
      * intros j b Hj. specialize (q_cells0 (S j) b Hj).
        replace (R + 1 + Z.of_nat j) with (R + Z.of_nat (S j)) by lia. exact q_cells0.
  - assert (E : (W mod 65536 - R mod 65536 =? 0) = (zlen l =? 0)).
    { rewrite <- Hdiff. unfold wrap. change (2 ^ 16) with 65536.
      pose proof (Z.mod_pos_bound W 65536). pose proof (Z.mod_pos_bound R 65536).
      destruct (Z.eqb_spec (W mod 65536 - R mod 65536) 0) as [E|E].
      + rewrite E. reflexivity.
      + symmetry. apply Z.eqb_neq. intro E2.
        apply Z.mod_divide in E2; [|lia]. destruct E2 as [z E2]. lia. }
    rewrite E. eexists. rewrite !Z.add_0_r. split; [reflexivity|]. constructor; auto.
  - eexists. rewrite !Z.add_0_r. split; [reflexivity|]. constructor; auto.
Qed.

Lemma run_rep : forall ops cap R W q l,
  pow2cap cap -> qrep cap R W q l ->
  let rs := snd (qspec_run cap l ops) in
  exists q', queue_run q ops = Done (q', rs) /\
    qrep cap (R + total removed ops rs) (W + total accepted ops rs) q' (fst (qspec_run cap l ops)).
Proof.
  induction ops as [|o ops IH]; intros cap R W q l Hp Hq.
  - cbn. eexists. split; [reflexivity|]. now rewrite !Z.add_0_r.
  - destruct (step_rep cap R W q l o Hp Hq) as (q1 & E1 & H1).
    cbn [queue_run qspec_run]. rewrite E1. cbn [obind].
    destruct (qspec_step cap l o) as [l1 r1]; cbn [fst snd] in *.
    destruct (IH _ _ _ _ _ Hp H1) as (q2 & E2 & H2). rewrite E2. cbn [obind].
    destruct (qspec_run cap l1 ops) as [l2 rs2]; cbn [fst snd total] in *.
    eexists. split; [reflexivity|].
    rewrite !Z.add_assoc. exact H2.
Qed.

Lemma init_rep : forall q, qrep (zlen (items q)) 0 0 (queue_init q) ([] : list A).
Proof.
  intros. constructor; cbn; auto; try lia; try (apply zlen_nonneg).
  intros j a H. destruct j; discriminate.
Qed.

Lemma queue_fifo_l : forall (q : queue A) ops,
  pow2cap (zlen (items q)) ->
  exists q', queue_run (queue_init q) ops = Done (q', snd (qspec_run (zlen (items q)) [] ops)).
Proof.
  intros q ops Hp. destruct (run_rep ops _ _ _ _ _ Hp (init_rep q)) as (q' & E & _).
  eauto.
Qed.

Lemma queue_count_exact_l : forall (q : queue A) ops,
  pow2cap (zlen (items q)) ->
  let cap := zlen (items q) in
  let l := fst (qspec_run cap [] ops) in
  let rs := snd (qspec_run cap [] ops) in
  exists q', queue_run (queue_init q) ops = Done (q', rs) /\
    queue_count q' =
      if (total removed ops rs) mod 65536 <=? (total accepted ops rs) mod 65536
      then queued l else 2 ^ 64 - 65536 + queued l.
Proof.
  intros q ops Hp cap l rs.
  destruct (run_rep ops _ _ _ _ _ Hp (init_rep q)) as (q' & E & H).
  exists q'. split; [exact E|]. destruct H. fold cap in q_len0, q_rd0, q_wr0, q_le0.
  fold l rs in q_len0, q_rd0, q_wr0, q_le0. rewrite !Z.add_0_l in *.
  unfold queue_count. rewrite q_rd0, q_wr0. unfold queued. fold (zlen l).
  pose proof (pow2cap_div _ Hp) as (Hc & _). fold cap in Hc.
  set (R := total removed ops rs) in *. set (W := total accepted ops rs) in *.
  pose proof (zlen_nonneg _ l).
  assert (HD : wrap 16 (W mod 65536 - R mod 65536) = zlen l) by (apply diff_mod; lia).
  unfold wrap in HD. change (2 ^ 16) with 65536 in HD.
  pose proof (Z.mod_pos_bound W 65536). pose proof (Z.mod_pos_bound R 65536).
  destruct (Z.leb_spec (R mod 65536) (W mod 65536)).
  - rewrite Z.mod_small in HD by lia. rewrite HD. apply wrap64_small. lia.
  - replace (W mod 65536 - R mod 65536) with (zlen l - 65536).
    + unfold wrap. symmetry. apply Z.mod_unique with (q := -1); lia.
    + rewrite <- HD.
      rewrite <- (Z.mod_unique (W mod 65536 - R mod 65536) 65536 (-1) (W mod 65536 - R mod 65536 + 65536)); lia.
Qed.

Lemma total_bounds : forall (ops : list (qop A)) cap l,
  let rs := snd (qspec_run cap l ops) in
  0 <= total removed ops rs /\ 0 <= total accepted ops rs <= Z.of_nat (length ops).
Proof.
  induction ops as [|o ops IH]; intros cap l; [cbn; lia|].
  cbn [qspec_run]. destruct (qspec_step cap l o) as [l1 r1].
  specialize (IH cap l1). destruct (qspec_run cap l1 ops) as [l2 rs2].
  cbn [snd total length] in *.
  assert (0 <= removed o r1 <= 1) by (destruct o; cbn; try destruct (fst r1 =? 0); lia).
  assert (0 <= accepted o r1 <= 1) by (destruct o; cbn; try destruct (fst r1 =? 0); lia).
  lia.
Qed.

Lemma queue_count_short_l : forall (q : queue A) ops,
  pow2cap (zlen (items q)) ->
  let cap := zlen (items q) in
  let rs := snd (qspec_run cap [] ops) in
  total accepted ops rs < 65536 ->
  exists q', queue_run (queue_init q) ops = Done (q', rs) /\
    queue_count q' = queued (fst (qspec_run cap [] ops)).
Proof.
  intros q ops Hp cap rs Hlt.
  destruct (run_rep ops _ _ _ _ _ Hp (init_rep q)) as (q0 & E0 & H0).
  destruct (queue_count_exact_l q ops Hp) as (q' & E & H).
  exists q'. split; [exact E|]. rewrite H.
  destruct H0. rewrite !Z.add_0_l in *. fold cap in q_len0. fold rs in q_len0.
  fold cap. fold rs.
  pose proof (total_bounds ops cap []) as HB. cbn zeta in HB. fold rs in HB.
  pose proof (zlen_nonneg _ (fst (qspec_run cap [] ops))).
  rewrite !Z.mod_small by lia.
  destruct (Z.leb_spec (total removed ops rs) (total accepted ops rs)); [reflexivity|lia].
Qed.

(** *** Only powers of two work. *)

(** [n] enqueues into a queue that has room for them. *)
Lemma enqueues : forall n cap (q : queue A) a w,
  zlen (items q) = cap -> read_idx q = 0 -> write_idx q = w -> 0 <= w ->
  w + Z.of_nat n <= cap -> w + Z.of_nat n <= 65535 -> cap < 2 ^ 64 ->
  exists q', queue_run q (repeat (Enqueue a) n) = Done (q', repeat (0, []) n) /\
    zlen (items q') = cap /\ read_idx q' = 0 /\ write_idx q' = w + Z.of_nat n.
Proof.
  induction n as [|n IH]; intros cap q a w Hcap Hr Hw H0 Hle H16 H64.
  - exists q. cbn. repeat split; auto. lia.
  - assert (Hidx : 0 <= wrap 16 (Z.land w (wrap 64 (cap - 1))) < cap).
    { rewrite wrap64_small by lia.
      assert (HL : 0 <= Z.land w (cap - 1) <= w).
      { split; [apply Z.land_nonneg; lia|].
        rewrite <- (Z.lor_ldiff_and w (cap - 1)).
        assert (Hd : 0 <= Z.ldiff w (cap - 1)) by (apply Z.ldiff_nonneg; lia).
        assert (Hand : Z.land (Z.ldiff w (cap - 1)) (Z.land w (cap - 1)) = 0).
        { apply Z.bits_inj'. intros m Hm. rewrite !Z.land_spec, Z.ldiff_spec, Z.bits_0.
          destruct (Z.testbit w m), (Z.testbit (cap - 1) m); reflexivity. }
        assert (Hand2 : Z.land w (cap - 1) = Z.land (Z.lor (Z.ldiff w (cap - 1)) (Z.land w (cap - 1))) (cap - 1))
          by (now rewrite Z.lor_ldiff_and).
        rewrite <- Hand2.
        rewrite <- Z.lxor_lor by exact Hand. rewrite <- Z.add_nocarry_lxor by exact Hand. lia. }
      rewrite wrap16_small by lia. lia. }
    cbn [repeat queue_run queue_step]. unfold queue_enqueue, capacity.
    rewrite Hr, Hw, Hcap, Z.sub_0_r, (wrap16_small w) by lia.
    destruct (Z.eqb_spec w cap); [lia|].
    rewrite zset_ok by lia. cbn [obind].
    destruct (IH cap (mkQueue 0 (wrap 16 (w + 1)) (upd (items q) (Z.to_nat (wrap 16 (Z.land w (wrap 64 (cap - 1))))) a)) a (w + 1))
      as (q' & E & H1 & H2 & H3); cbn [items read_idx write_idx]; auto; try lia.
    + now rewrite zlen_upd.
    + apply wrap16_small; lia.
    + rewrite E. cbn [obind].
      exists q'. repeat split; auto. lia.
Qed.

Lemma queue_run_app : forall ops1 ops2 (q : queue A),
  queue_run q (ops1 ++ ops2) =
  do (q', rs) <- queue_run q ops1; do (q'', rs') <- queue_run q' ops2; Done (q'', rs ++ rs').
Proof.
  induction ops1 as [|o ops1 IH]; intros ops2 q; cbn [app queue_run obind].
  - destruct (queue_run q ops2) as [[q' rs]| | |]; reflexivity.
  - destruct (queue_step q o) as [[q1 r1]| | |]; cbn [obind]; auto.
    rewrite IH. destruct (queue_run q1 ops1) as [[q2 rs2]| | |]; cbn [obind]; auto.
    destruct (queue_run q2 ops2) as [[q3 rs3]| | |]; reflexivity.
Qed.

Lemma qspec_run_app : forall ops1 ops2 cap (l : list A),
  qspec_run cap l (ops1 ++ ops2) =
  let (l1, rs1) := qspec_run cap l ops1 in
  let (l2, rs2) := qspec_run cap l1 ops2 in (l2, rs1 ++ rs2).
Proof.
  induction ops1 as [|o ops1 IH]; intros ops2 cap l; cbn [app qspec_run].
  - now destruct (qspec_run cap l ops2).
  - destruct (qspec_step cap l o) as [l1 r1]. rewrite IH.
    destruct (qspec_run cap l1 ops1) as [l2 rs2].
    destruct (qspec_run cap l2 ops2) as [l3 rs3]. reflexivity.
Qed.

Lemma qspec_enqueues : forall n cap (l : list A) a,
  queued l + Z.of_nat n <= cap ->
  qspec_run cap l (repeat (Enqueue a) n) = (l ++ repeat a n, repeat (0, []) n).
Proof.
  induction n as [|n IH]; intros cap l a H; cbn [repeat qspec_run].
  - now rewrite app_nil_r.
  - cbn [qspec_step]. unfold queued in *.
    destruct (Z.ltb_spec (Z.of_nat (length l)) cap); [|lia].
    rewrite IH.
    + rewrite <- app_assoc. reflexivity.
    + unfold queued. rewrite app_length; cbn [length]; lia.
Qed.

Lemma not_pow2_bit : forall cap, 1 <= cap -> (forall k, 0 <= k -> cap <> 2 ^ k) ->
  exists b, 0 <= b /\ 2 ^ b < cap /\ Z.land (2 ^ b) (cap - 1) = 0.
Proof.
  intros cap Hc Hn.
  assert (H1 : cap <> 1) by (apply (Hn 0); lia).
  (* a cleared bit below the top bit of cap-1 *)
  set (n := cap - 1).
  assert (Hn0 : 0 < n) by (unfold n; lia).
  pose proof (Z.log2_spec n Hn0) as (L1 & L2).
  pose proof (Z.log2_nonneg n).
  destruct (Z.eq_dec (n + 1) (2 ^ Z.succ (Z.log2 n))) as [E|E].
  - exfalso. apply (Hn (Z.succ (Z.log2 n))); [lia|]. unfold n in *; lia.
  - assert (Hex : exists b, 0 <= b < Z.log2 n /\ Z.testbit n b = false).
    { assert (Hdec : forall m : nat, (forall b, 0 <= b < Z.of_nat m -> Z.testbit n b = true) \/
                exists b, 0 <= b < Z.of_nat m /\ Z.testbit n b = false).
      { induction m as [|m [IH|(b & Hb & Eb)]].
        - left; intros; lia.
        - destruct (Z.testbit n (Z.of_nat m)) eqn:Em.
          + left. intros b Hb. destruct (Z.eq_dec b (Z.of_nat m)); [now subst|apply IH; lia].
          + right. exists (Z.of_nat m). split; [lia|auto].
        - right. exists b. split; [lia|auto]. }
      destruct (Hdec (Z.to_nat (Z.log2 n))) as [Hall|(b & Hb & Eb)].
      - exfalso. apply E.
        assert (EN : n = Z.ones (Z.succ (Z.log2 n))).
        { apply Z.bits_inj'. intros m Hm.
          destruct (Z.lt_ge_cases m (Z.succ (Z.log2 n))).
          - rewrite Z.ones_spec_low by lia.
            destruct (Z.eq_dec m (Z.log2 n)) as [->|]; [apply Z.bit_log2; lia|].
            apply Hall. lia.
          - rewrite Z.ones_spec_high by lia.
            apply Z.bits_above_log2; lia. }
        rewrite Z.ones_equiv in EN. lia.
      - exists b. split; [lia|auto]. }
    destruct Hex as (b & Hb & Eb). exists b. split; [lia|]. split.
    + assert (2 ^ b < 2 ^ Z.log2 n) by (apply Z.pow_lt_mono_r; lia). lia.
    + fold n. apply Z.bits_inj'. intros m Hm.
      rewrite Z.land_spec, Z.pow2_bits_eqb, Z.bits_0 by lia.
      destruct (Z.eqb_spec b m); [subst; now rewrite Eb|reflexivity].
Qed.

Lemma queue_only_pow2_l : forall (q : queue A) (x y : A), x <> y ->
  1 <= zlen (items q) < 2 ^ 64 -> ~ pow2cap (zlen (items q)) ->
  exists ops, forall q' rs, queue_run (queue_init q) ops = Done (q', rs) ->
    rs <> snd (qspec_run (zlen (items q)) [] ops).
Proof.
  intros q x y Hxy Hcap Hnp. set (cap := zlen (items q)) in *.
  destruct (Z.le_gt_cases 65536 cap) as [Hbig|Hsmall].
  - (* 65536 enqueues make both indices equal: dequeue reports an empty queue *)
    assert (HN : exists N, Z.of_nat N = 65535) by (exists (Z.to_nat 65535); apply Z2Nat.id; lia).
    destruct HN as (N & HN).
    exists (repeat (Enqueue x) N ++ [Enqueue x; Dequeue]).
    intros q' rs Hrun Heq.
    destruct (enqueues N cap (queue_init q) x 0) as (q1 & E1 & C1 & R1 & W1);
      auto; try lia.
    rewrite queue_run_app, E1 in Hrun. cbn [obind] in Hrun.
    rewrite qspec_run_app, qspec_enqueues in Heq by (unfold queued; cbn [length]; lia).
    cbn [queue_run queue_step] in Hrun. unfold queue_enqueue, capacity in Hrun.
    rewrite C1, R1, W1 in Hrun.
    replace (wrap 16 (0 + Z.of_nat N - 0)) with 65535 in Hrun
      by (rewrite HN; reflexivity).
    destruct (Z.eqb_spec 65535 cap); [lia|].
    destruct (zset (items q1) _ x) as [its| | |]; cbn [obind] in Hrun; try discriminate.
    unfold queue_dequeue in Hrun. cbn [read_idx write_idx] in Hrun.
    replace (wrap 16 (wrap 16 (0 + Z.of_nat N + 1) - 0)) with 0 in Hrun
      by (rewrite HN; reflexivity).
    cbn [Z.eqb obind olist] in Hrun. injection Hrun as <- <-.
    cbn [qspec_run qspec_step] in Heq.
    destruct (queued ([] ++ repeat x N) <? cap).
    + rewrite app_nil_l in Heq.
      assert (HR : exists l', repeat x N ++ [x] = x :: l').
      { destruct N as [|N']; [lia|]. cbn [repeat app]. eauto. }
      destruct HR as (l' & HR). rewrite HR in Heq. cbn [fst snd] in Heq.
      apply app_inv_head in Heq. discriminate.
    + rewrite app_nil_l in Heq.
      assert (HR : exists l', repeat x N = x :: l').
      { destruct N as [|N']; [lia|]. cbn [repeat]. eauto. }
      destruct HR as (l' & HR). rewrite HR in Heq. cbn [fst snd] in Heq.
      apply app_inv_head in Heq. discriminate.
  - (* two slots coincide *)
    destruct (not_pow2_bit cap) as (b & Hb & Hlt & Hland); [lia| |].
    { intros k Hk E. apply Hnp. exists k. split; [|exact E]. split; [lia|].
      destruct (Z.le_gt_cases k 15); [lia|].
      assert (2 ^ 16 <= 2 ^ k) by (apply Z.pow_le_mono_r; lia). lia. }
    assert (Hpos : 0 < 2 ^ b) by (apply Z.pow_pos_nonneg; lia).
    exists (repeat (Enqueue x) (Z.to_nat (2 ^ b)) ++ [Enqueue y; Dequeue]).
    intros q' rs Hrun Heq.
    destruct (enqueues (Z.to_nat (2 ^ b)) cap (queue_init q) x 0) as (q1 & E1 & C1 & R1 & W1);
      auto; try lia.
    rewrite queue_run_app, E1 in Hrun. cbn [obind] in Hrun.
    rewrite qspec_run_app, qspec_enqueues in Heq by (unfold queued; cbn [length]; lia).
    cbn [queue_run queue_step] in Hrun. unfold queue_enqueue, capacity in Hrun.
    rewrite C1, R1, W1 in Hrun. rewrite Z2Nat.id in Hrun by lia.
    rewrite !Z.add_0_l, Z.sub_0_r in Hrun.
    rewrite (wrap16_small (2 ^ b)) in Hrun by lia.
    destruct (Z.eqb_spec (2 ^ b) cap); [lia|].
    rewrite (wrap64_small (cap - 1)) in Hrun by lia. rewrite Hland in Hrun.
    change (wrap 16 0) with 0 in Hrun.
    rewrite zset_ok in Hrun by lia. cbn [obind] in Hrun.
    unfold queue_dequeue, capacity in Hrun. cbn [read_idx write_idx items] in Hrun.
    rewrite (wrap16_small (2 ^ b + 1)), Z.sub_0_r, (wrap16_small (2 ^ b + 1)) in Hrun by lia.
    destruct (Z.eqb_spec (2 ^ b + 1) 0); [lia|].
    rewrite Z.land_0_l in Hrun. change (wrap 16 0) with 0 in Hrun.
    unfold zget in Hrun. change (0 <? 0) with false in Hrun. cbn iota in Hrun.
    rewrite nth_error_upd_eq in Hrun by (unfold zlen in *; lia).
    cbn [obind olist] in Hrun. injection Hrun as <- <-.
    cbn [qspec_run qspec_step] in Heq.
    destruct (Z.ltb_spec (queued ([] ++ repeat x (Z.to_nat (2 ^ b)))) cap) as [Hq|Hq].
    + rewrite app_nil_l in Heq.
      assert (HR : exists l', repeat x (Z.to_nat (2 ^ b)) ++ [y] = x :: l').
      { replace (Z.to_nat (2 ^ b)) with (S (Z.to_nat (2 ^ b - 1))) by lia. cbn [repeat app]. eauto. }
      destruct HR as (l' & HR). rewrite HR in Heq. cbn [fst snd] in Heq.
      apply app_inv_head in Heq. congruence.
    + unfold queued in Hq. rewrite app_nil_l, repeat_length in Hq. lia.
Qed.

End QueueProofs.
