(** Proofs about integer parameters stepped again and again. *)
From Verif Require Import Base BaseLemmas ParameterModel ParameterSpec ParameterProofs ParameterTableProofs ParameterFloatProofs ParamCycleSpec.
From Coq Require Import ZifyBool.

Lemma div_step : forall a q, 0 < q -> (a - q) / q = a / q - 1.
Proof. intros a q H. replace (a - q) with (a + -1 * q) by lia. rewrite Z.div_add by lia. lia. Qed.

Lemma up_next : forall lo hi q v n, 0 < q -> lo <= v <= hi -> 0 <= n ->
  up_cycle lo hi q v (n + 1) = up_cycle lo hi q (if v + q <=? hi then v + q else lo) n.
Proof.
  intros lo hi q v n Hq Hv Hn. unfold up_cycle. destruct (Z.leb_spec (v + q) hi) as [H|H].
  - replace (hi - (v + q)) with (hi - v - q) by lia. rewrite div_step by exact Hq.
    destruct (Z.leb_spec (n + 1) ((hi - v) / q)), (Z.leb_spec n ((hi - v) / q - 1)); try lia.
    f_equal. f_equal. f_equal. lia.
  - assert (E : (hi - v) / q = 0) by (apply Z.div_small; lia). rewrite E. destruct (Z.leb_spec (n + 1) 0); [lia|].
    assert (P : 0 <= (hi - lo) / q) by (apply Z.div_pos; lia). replace (n + 1 - 1 - 0) with n by lia.
    destruct (Z.leb_spec n ((hi - lo) / q)); [rewrite Z.mod_small by lia; reflexivity|].
    replace n with (n - 1 - (hi - lo) / q + 1 * ((hi - lo) / q + 1)) at 1 by lia. rewrite Z.mod_add by lia. reflexivity.
Qed.

Lemma down_up : forall lo hi q v n, down_cycle lo hi q v n = - up_cycle (- hi) (- lo) q (- v) n.
Proof.
  intros lo hi q v n. unfold down_cycle, up_cycle. replace (- lo - - v) with (v - lo) by lia. replace (- lo - - hi) with (hi - lo) by lia.
  destruct (n <=? (v - lo) / q); lia.
Qed.

Lemma down_next : forall lo hi q v n, 0 < q -> lo <= v <= hi -> 0 <= n ->
  down_cycle lo hi q v (n + 1) = down_cycle lo hi q (if lo <=? v - q then v - q else hi) n.
Proof.
  intros lo hi q v n Hq Hv Hn. rewrite !down_up, up_next by lia. do 2 f_equal.
  destruct (Z.leb_spec lo (v - q)), (Z.leb_spec (- v + q) (- lo)); lia.
Qed.

Lemma cycle_start : forall lo hi q v, 0 < q -> lo <= v <= hi -> up_cycle lo hi q v 0 = v /\ down_cycle lo hi q v 0 = v.
Proof.
  intros lo hi q v Hq Hv. unfold up_cycle, down_cycle. assert (0 <= (hi - v) / q) by (apply Z.div_pos; lia). assert (0 <= (v - lo) / q) by (apply Z.div_pos; lia).
  destruct (Z.leb_spec 0 ((hi - v) / q)), (Z.leb_spec 0 ((v - lo) / q)); lia.
Qed.

Lemma cycle_l : forall n h m d lo hi v s, limits_elsewhere [h] ->
  limit m (pmin h) (minv h) (ptype_of h) lo -> limit m (pmax h) (maxv h) (ptype_of h) hi ->
  holds m (pointer h) (ptype_of h) v -> union_holds (step h) (ptype_of h) s -> computable (ptype_of h) (s * d) ->
  lo <= v <= hi -> 0 < s ->
  (0 < d -> representable (ptype_of h) (hi + s * d) ->
     exists m', operations n h m d = Done m' /\ holds m' (pointer h) (ptype_of h) (up_cycle lo hi (s * d) v (Z.of_nat n))) /\
  (d < 0 -> representable (ptype_of h) (lo + s * d) ->
     exists m', operations n h m d = Done m' /\ holds m' (pointer h) (ptype_of h) (down_cycle lo hi (s * - d) v (Z.of_nat n))).
Proof.
  induction n as [|n IH]; intros h m d lo hi v s LE Hlo Hhi Hv Hs Hc Hr Sp; cbn [operations].
  - split; intros D R; exists m; (split; [reflexivity|]); cbn [Z.of_nat].
    + rewrite (proj1 (cycle_start lo hi (s * d) v ltac:(nia) Hr)). exact Hv.
    + rewrite (proj2 (cycle_start lo hi (s * - d) v ltac:(nia) Hr)). exact Hv.
  - destruct (limit_rep _ _ _ _ _ Hlo) as [_ Rl]. destruct (limit_rep _ _ _ _ _ Hhi) as [_ Rh].
    assert (G : representable (ptype_of h) (v + s * d) -> exists m1, parameter_operator (Some h) m d = Done (m1, 0) /\
      limit m1 (pmin h) (minv h) (ptype_of h) lo /\ limit m1 (pmax h) (maxv h) (ptype_of h) hi /\
      holds m1 (pointer h) (ptype_of h) (stepped lo hi v s d)).
    { intros R. destruct (operator_steps_l h m d lo hi v s Hlo Hhi Hv Hs Hc R) as (m1 & E & C & F). exists m1. split; [exact E|].
      split; [apply (limit_frame m m1 _ _ _ _ _ _ C); [intros a Ea; apply own_limits; auto|exact Hlo]|].
      split; [apply (limit_frame m m1 _ _ _ _ _ _ C); [intros a Ea; apply own_limits; auto|exact Hhi]|exact F]. }
    rewrite Nat2Z.inj_succ. unfold Z.succ.
    split; intros D R.
    + assert (0 < s * d) by nia. destruct G as (m1 & E & L1 & L2 & F); [unfold representable in *; lia|]. rewrite E. cbn [obind fst].
      assert (Es : stepped lo hi v s d = if v + s * d <=? hi then v + s * d else lo).
      { unfold stepped. destruct (Z.leb_spec lo (v + s * d)), (Z.leb_spec (v + s * d) hi), (Z.ltb_spec 0 d); try lia; reflexivity. }
      rewrite Es in F. rewrite up_next by lia.
      refine (proj1 (IH h m1 d lo hi _ s LE L1 L2 F Hs Hc _ Sp) D R). destruct (Z.leb_spec (v + s * d) hi); lia.
    + assert (s * d < 0) by nia. destruct G as (m1 & E & L1 & L2 & F); [unfold representable in *; lia|]. rewrite E. cbn [obind fst].
      assert (Es : stepped lo hi v s d = if lo <=? v - s * - d then v - s * - d else hi).
      { unfold stepped. replace (v - s * - d) with (v + s * d) by ring.
        destruct (Z.leb_spec lo (v + s * d)), (Z.leb_spec (v + s * d) hi), (Z.ltb_spec 0 d), (Z.ltb_spec d 0); try lia; reflexivity. }
      rewrite Es in F. rewrite down_next by lia.
      refine (proj2 (IH h m1 d lo hi _ s LE L1 L2 F Hs Hc _ Sp) D R). destruct (Z.leb_spec lo (v - s * - d)); lia.
Qed.

(** * There and back *)

Lemma back_l : forall h m d lo hi v s, limits_elsewhere [h] ->
  limit m (pmin h) (minv h) (ptype_of h) lo -> limit m (pmax h) (maxv h) (ptype_of h) hi ->
  holds m (pointer h) (ptype_of h) v -> union_holds (step h) (ptype_of h) s -> computable (ptype_of h) (s * d) -> computable (ptype_of h) (s * - d) ->
  lo <= v <= hi -> 0 < s -> 0 < d -> representable (ptype_of h) (hi + s * d) -> representable (ptype_of h) (lo - s * d) ->
  exists m1 m2, parameter_operator (Some h) m d = Done (m1, 0) /\ parameter_operator (Some h) m1 (- d) = Done (m2, 0) /\
    holds m2 (pointer h) (ptype_of h) (if v + s * d <=? hi then v else hi).
Proof.
  intros h m d lo hi v s LE Hlo Hhi Hv Hs Hc1 Hc2 Hr Sp D R1 R2.
  destruct (limit_rep _ _ _ _ _ Hlo) as [_ Rl]. destruct (limit_rep _ _ _ _ _ Hhi) as [_ Rh]. assert (Q : 0 < s * d) by nia.
  destruct (operator_steps_l h m d lo hi v s Hlo Hhi Hv Hs Hc1 ltac:(unfold representable in *; lia)) as (m1 & E & C & F).
  assert (L1 : limit m1 (pmin h) (minv h) (ptype_of h) lo) by (apply (limit_frame m m1 _ _ _ _ _ _ C); [intros a Ea; apply own_limits; auto|exact Hlo]).
  assert (L2 : limit m1 (pmax h) (maxv h) (ptype_of h) hi) by (apply (limit_frame m m1 _ _ _ _ _ _ C); [intros a Ea; apply own_limits; auto|exact Hhi]).
  assert (Es : stepped lo hi v s d = if v + s * d <=? hi then v + s * d else lo).
  { unfold stepped. destruct (Z.leb_spec lo (v + s * d)), (Z.leb_spec (v + s * d) hi), (Z.ltb_spec 0 d); try lia; reflexivity. }
  rewrite Es in F. set (y := if v + s * d <=? hi then v + s * d else lo) in *.
  assert (Em : s * - d = - (s * d)) by ring.
  assert (Hy : lo <= y <= hi /\ representable (ptype_of h) (y + s * - d)).
  { unfold y, representable in *. rewrite Em. destruct (Z.leb_spec (v + s * d) hi); lia. }
  destruct (operator_steps_l h m1 (- d) lo hi y s L1 L2 F Hs Hc2 (proj2 Hy)) as (m2 & E2 & _ & F2).
  exists m1, m2. split; [exact E|]. split; [exact E2|].
  replace (if v + s * d <=? hi then v else hi) with (stepped lo hi y s (- d)); [exact F2|].
  unfold stepped, y. rewrite Em. destruct (Z.leb_spec (v + s * d) hi).
  - destruct (Z.leb_spec lo (v + s * d + - (s * d))), (Z.leb_spec (v + s * d + - (s * d)) hi); cbn [andb]; lia.
  - destruct (Z.leb_spec lo (lo + - (s * d))), (Z.ltb_spec 0 (- d)), (Z.ltb_spec (- d) 0); cbn [andb]; try lia.
Qed.
