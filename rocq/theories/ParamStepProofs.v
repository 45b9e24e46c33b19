(** Proofs about steps of floating point parameters. *)
From Verif Require Import Base BaseLemmas Float FloatProofs FloatSpec FloatExact FloatRound FloatStep ParameterModel ParameterSpec
  ParameterProofs ParameterTableProofs ParameterFloatProofs ParamStepSpec.
From Coq Require Import Floats.SpecFloat ZifyBool.

Lemma step_format : forall ty, is_int ty = false -> exists prec emax, 1 < prec /\ prec < emax /\ 32 < emax /\ 3 - emax - prec <= 0 /\
  fsum ty = SFadd prec emax /\ fproduct ty = SFmul prec emax /\ (forall z, nearest ty z = binary_normalize prec emax z 0 false) /\
  (forall v, last_place ty v = place prec emax v) /\
  forall raw x, ieee_of ty raw x -> x <> S754_nan -> number prec emax x.
Proof.
  intros ty Hi. destruct ty; try discriminate Hi.
  - exists 24, 128. do 4 (split; [lia|]). do 3 (split; [reflexivity|]). split; [intros []; reflexivity|].
    intros raw x I Nx. exact (proj1 (ieee_good 23 8 (-149) raw x ltac:(lia) ltac:(lia) eq_refl I Nx)).
  - exists 53, 1024. do 4 (split; [lia|]). do 3 (split; [reflexivity|]). split; [intros []; reflexivity|].
    intros raw x I Nx. exact (proj1 (ieee_good 52 11 (-1074) raw x ltac:(lia) ltac:(lia) eq_refl I Nx)).
Qed.

Lemma finite_not_nan : forall x, finite x -> x <> S754_nan.
Proof. intros [] F; try contradiction; discriminate. Qed.

Lemma int_32 : forall d, INT_MIN <= d <= INT_MAX -> Z.abs d < 2 ^ 32.
Proof. intros d H. unfold INT_MIN, INT_MAX in H. change (2 ^ 32) with 4294967296. lia. Qed.

Lemma fholds_float : forall m p ty x, fholds m p ty x -> is_int ty = false /\ exists raw, ieee_of ty raw x.
Proof. intros m p ty x (raw & I & _). split; [exact (ieee_float _ _ _ I)|eauto]. Qed.

(** * Direction *)

Lemma fstepped_direction : forall ty lo hi v s d rv rs, ieee_of ty rv v -> ieee_of ty rs s -> finite v -> finite s -> upward s ->
  INT_MIN <= d <= INT_MAX ->
  (0 <= d -> SFleb v (fstepped ty lo hi v s d) = true \/ 0 < d /\ fstepped ty lo hi v s d = lo) /\
  (d <= 0 -> SFleb (fstepped ty lo hi v s d) v = true \/ d < 0 /\ fstepped ty lo hi v s d = hi).
Proof.
  intros ty lo hi v s d rv rs Iv Is Fv Fs Us Hd.
  destruct (step_format ty (ieee_float _ _ _ Iv)) as (prec & emax & P1 & P2 & P3 & P4 & E1 & E2 & E3 & _ & G).
  pose proof (G _ _ Iv (finite_not_nan _ Fv)) as Nv. pose proof (G _ _ Is (finite_not_nan _ Fs)) as Ns. pose proof (int_32 d Hd) as D.
  unfold fstepped. rewrite E1, E2, E3.
  pose proof (product_num prec emax P1 P2 s d P4 P3 Ns Fs D) as Np.
  destruct (product_zero prec emax s Fs) as [Z1 Z2].
  assert (N0 : number prec emax (SFmul prec emax s (binary_normalize prec emax 0 0 false))) by (apply product_num; try assumption; lia).
  assert (NZ : number prec emax (S754_zero false)) by reflexivity.
  set (p := SFmul prec emax s (binary_normalize prec emax d 0 false)) in *.
  split; intros S.
  - assert (U : SFleb v (SFadd prec emax v p) = true).
    { apply add_up; try assumption. apply (leb_trans prec emax P1 P2 _ _ _ NZ N0 Np Z1).
      apply product_mono; try assumption; lia. }
    destruct (within lo (SFadd prec emax v p) hi); [now left|]. destruct (Z.ltb_spec 0 d); [right; split; [assumption|reflexivity]|].
    destruct (Z.ltb_spec d 0); [lia|]. now left.
  - assert (U : SFleb (SFadd prec emax v p) v = true).
    { apply add_down; try assumption. refine (leb_trans prec emax P1 P2 _ _ _ Np N0 NZ _ Z2).
      apply product_mono; try assumption; lia. }
    destruct (within lo (SFadd prec emax v p) hi); [now left|]. destruct (Z.ltb_spec 0 d); [lia|].
    destruct (Z.ltb_spec d 0); [right; split; [assumption|reflexivity]|]. now left.
Qed.

Lemma step_direction_l : forall h m d lo hi v s, INT_MIN <= d <= INT_MAX ->
  flimit m (pmin h) (minv h) (ptype_of h) lo -> flimit m (pmax h) (maxv h) (ptype_of h) hi -> lo <> S754_nan -> hi <> S754_nan ->
  fholds m (pointer h) (ptype_of h) v -> union_fholds (step h) (ptype_of h) s -> finite v -> finite s -> upward s ->
  exists m' y, parameter_operator (Some h) m d = Done (m', 0) /\ fholds m' (pointer h) (ptype_of h) y /\
    (0 <= d -> SFleb v y = true \/ 0 < d /\ y = lo) /\ (d <= 0 -> SFleb y v = true \/ d < 0 /\ y = hi).
Proof.
  intros h m d lo hi v s Hd Hlo Hhi Nlo Nhi Hv Hs Fv Fs Us.
  destruct (operator_float_l h m d lo hi v s Hd Hlo Hhi Nlo Nhi Hv Hs Fv Fs) as (m' & E & _ & F).
  exists m'. eexists. split; [exact E|]. split; [exact F|]. destruct Hv as (rv & Iv & _).
  exact (fstepped_direction _ lo hi v s d rv _ Iv Hs Fv Fs Us Hd).
Qed.

(** * Order *)

Lemma step_monotone_l : forall h m1 m2 d1 d2 lo hi v1 v2 s, INT_MIN <= d1 -> d1 <= d2 -> d2 <= INT_MAX ->
  flimit m1 (pmin h) (minv h) (ptype_of h) lo -> flimit m1 (pmax h) (maxv h) (ptype_of h) hi ->
  flimit m2 (pmin h) (minv h) (ptype_of h) lo -> flimit m2 (pmax h) (maxv h) (ptype_of h) hi ->
  SFleb lo hi = true ->
  fholds m1 (pointer h) (ptype_of h) v1 -> fholds m2 (pointer h) (ptype_of h) v2 -> union_fholds (step h) (ptype_of h) s ->
  finite v1 -> finite v2 -> finite s -> upward s -> SFleb v1 v2 = true ->
  within lo v1 hi = true -> within lo v2 hi = true ->
  exists m1' m2' y1 y2, parameter_operator (Some h) m1 d1 = Done (m1', 0) /\ parameter_operator (Some h) m2 d2 = Done (m2', 0) /\
    fholds m1' (pointer h) (ptype_of h) y1 /\ fholds m2' (pointer h) (ptype_of h) y2 /\
    (SFleb y1 y2 = true \/ 0 < d2 /\ y2 = lo \/ d1 < 0 /\ y1 = hi).
Proof.
  intros h m1 m2 d1 d2 lo hi v1 v2 s D1 D12 D2 Hlo1 Hhi1 Hlo2 Hhi2 Le Hv1 Hv2 Hs Fv1 Fv2 Fs Us L W1 W2.
  assert (Nlo : lo <> S754_nan) by (intros ->; discriminate Le).
  assert (Nhi : hi <> S754_nan) by (intros ->; destruct lo; discriminate Le).
  destruct (operator_float_l h m1 d1 lo hi v1 s ltac:(lia) Hlo1 Hhi1 Nlo Nhi Hv1 Hs Fv1 Fs) as (m1' & E1 & _ & F1).
  destruct (operator_float_l h m2 d2 lo hi v2 s ltac:(lia) Hlo2 Hhi2 Nlo Nhi Hv2 Hs Fv2 Fs) as (m2' & E2 & _ & F2).
  exists m1', m2'. do 2 eexists. split; [exact E1|]. split; [exact E2|]. split; [exact F1|]. split; [exact F2|].
  destruct Hv1 as (r1 & I1 & _). destruct Hv2 as (r2 & I2 & _). pose proof Hs as Is.
  assert (Il : exists rl, ieee_of (ptype_of h) rl lo).
  { unfold flimit in Hlo1. destruct (pmin h); [destruct Hlo1 as (rl & I & _); eauto|eexists; exact Hlo1]. }
  assert (Ih : exists rh, ieee_of (ptype_of h) rh hi).
  { unfold flimit in Hhi1. destruct (pmax h); [destruct Hhi1 as (rh & I & _); eauto|eexists; exact Hhi1]. }
  destruct Il as (rl & Il). destruct Ih as (rh & Ih). unfold union_fholds in Is. clear - D1 D12 D2 Le I1 I2 Il Ih Is Fv1 Fv2 Fs Us L W1 W2 Nlo Nhi.
  set (ty := ptype_of h) in *. clearbody ty. set (rs := step h mod 2 ^ (8 * size ty)) in *. clearbody rs.
  destruct (step_format ty (ieee_float _ _ _ I1)) as (prec & emax & P1 & P2 & P3 & P4 & E1 & E2 & E3 & _ & G).
  pose proof (G _ _ I1 (finite_not_nan _ Fv1)) as N1. pose proof (G _ _ I2 (finite_not_nan _ Fv2)) as N2.
  pose proof (G _ _ Is (finite_not_nan _ Fs)) as Ns. pose proof (G _ _ Il Nlo) as Nl. pose proof (G _ _ Ih Nhi) as Nh.
  assert (R1 : INT_MIN <= d1 <= INT_MAX) by lia. assert (R2 : INT_MIN <= d2 <= INT_MAX) by lia.
  pose proof (int_32 d1 R1) as B1. pose proof (int_32 d2 R2) as B2.
  unfold fstepped. rewrite E1, E2, !E3.
  pose proof (product_num prec emax P1 P2 s d1 P4 P3 Ns Fs B1) as M1. pose proof (product_num prec emax P1 P2 s d2 P4 P3 Ns Fs B2) as M2.
  pose proof (product_mono prec emax P1 P2 s d1 d2 P4 P3 Ns Fs Us B1 B2 D12) as PM.
  destruct (product_zero prec emax s Fs) as [Z1 Z2].
  assert (N0 : number prec emax (SFmul prec emax s (binary_normalize prec emax 0 0 false))) by (apply product_num; try assumption; lia).
  assert (NZ : number prec emax (S754_zero false)) by reflexivity.
  assert (UP : forall d, Z.abs d < 2 ^ 32 -> 0 <= d -> SFleb (S754_zero false) (SFmul prec emax s (binary_normalize prec emax d 0 false)) = true).
  { intros d B S. apply (leb_trans prec emax P1 P2 _ _ _ NZ N0 (product_num prec emax P1 P2 s d P4 P3 Ns Fs B) Z1). apply product_mono; try assumption; lia. }
  assert (DN : forall d, Z.abs d < 2 ^ 32 -> d <= 0 -> SFleb (SFmul prec emax s (binary_normalize prec emax d 0 false)) (S754_zero false) = true).
  { intros d B S. refine (leb_trans prec emax P1 P2 _ _ _ (product_num prec emax P1 P2 s d P4 P3 Ns Fs B) N0 NZ _ Z2). apply product_mono; try assumption; lia. }
  pose proof (UP d1 B1) as U1. pose proof (UP d2 B2) as U2. pose proof (DN d1 B1) as L1. pose proof (DN d2 B2) as L2. clear UP DN.
  set (p1 := SFmul prec emax s (binary_normalize prec emax d1 0 false)) in *. set (p2 := SFmul prec emax s (binary_normalize prec emax d2 0 false)) in *.
  pose proof (add_mono prec emax P1 P2 v1 p1 v2 p2 N1 N2 M1 M2 Fv1 Fv2 L PM) as A.
  pose proof (fun H => add_up prec emax P1 P2 v1 p1 N1 M1 Fv1 (U1 H)) as A1. pose proof (fun H => add_down prec emax P1 P2 v1 p1 N1 M1 Fv1 (L1 H)) as B1'.
  pose proof (fun H => add_up prec emax P1 P2 v2 p2 N2 M2 Fv2 (U2 H)) as A2. pose proof (fun H => add_down prec emax P1 P2 v2 p2 N2 M2 Fv2 (L2 H)) as B2'.
  assert (X : number prec emax (SFadd prec emax v1 p1) /\ number prec emax (SFadd prec emax v2 p2)).
  { destruct (sum_number ty r1 rs v1 s d1 I1 Is Fv1 Fs R1) as (x1 & _ & Ix1 & Nx1). destruct (sum_number ty r2 rs v2 s d2 I2 Is Fv2 Fs R2) as (x2 & _ & Ix2 & Nx2).
    rewrite E1, E2, E3 in Ix1, Ix2, Nx1, Nx2. split; [exact (G _ _ Ix1 Nx1)|exact (G _ _ Ix2 Nx2)]. }
  destruct X as [X1 X2]. set (x1 := SFadd prec emax v1 p1) in *. set (x2 := SFadd prec emax v2 p2) in *. clearbody x1 x2 p1 p2.
  unfold within in *. apply andb_prop in W1 as [W1 W1']. apply andb_prop in W2 as [W2 W2'].
  pose proof (fun x y z => leb_trans prec emax P1 P2 x y z) as T.
  destruct (Z.ltb_spec 0 d1) as [Ga|Ga], (Z.ltb_spec 0 d2) as [Gb|Gb], (Z.ltb_spec d1 0) as [Gc|Gc], (Z.ltb_spec d2 0) as [Gd|Gd];
    try (exfalso; clear - D12 Ga Gb Gc Gd; lia);
    destruct (SFleb lo x1) eqn:Q1, (SFleb x1 hi) eqn:Q2, (SFleb lo x2) eqn:Q3, (SFleb x2 hi) eqn:Q4; cbn [andb];
    try (left; exact A); try (right; left; split; [assumption|reflexivity]); try (right; right; split; [assumption|reflexivity]);
    try (left; exact Q1); try (left; exact Q3);
    exfalso.
  all: try (rewrite (T x1 x2 hi X1 X2 Nh A Q4) in Q2; discriminate).
  all: try (rewrite (T lo x1 x2 Nl X1 X2 Q1 A) in Q3; discriminate).
  all: try (rewrite (T lo v1 x1 Nl N1 X1 W1 (A1 ltac:(assumption))) in Q1; discriminate).
  all: try (rewrite (T lo v2 x2 Nl N2 X2 W2 (A2 ltac:(assumption))) in Q3; discriminate).
  all: try (rewrite (T x1 v1 hi X1 N1 Nh (B1' ltac:(assumption)) W1') in Q2; discriminate).
  all: try (rewrite (T x2 v2 hi X2 N2 Nh (B2' ltac:(assumption)) W2') in Q4; discriminate).
Qed.

(** * Progress *)

Lemma fstepped_progress : forall ty lo hi v s d rv rs b j, ieee_of ty rv v -> ieee_of ty rs s -> finite v -> finite s ->
  INT_MIN <= d <= INT_MAX -> worth (increment ty s d) b j ->
  (0 < d -> le_number 1 (last_place ty v) b j -> SFltb v (fstepped ty lo hi v s d) = true \/ fstepped ty lo hi v s d = lo) /\
  (d < 0 -> le_number 1 (last_place ty v) (- b) j -> SFltb (fstepped ty lo hi v s d) v = true \/ fstepped ty lo hi v s d = hi).
Proof.
  intros ty lo hi v s d rv rs b j Iv Is Fv Fs Hd W.
  destruct (step_format ty (ieee_float _ _ _ Iv)) as (prec & emax & P1 & P2 & P3 & P4 & E1 & E2 & E3 & E4 & G).
  destruct (sum_number ty rv rs v s d Iv Is Fv Fs Hd) as (x & _ & Ix & Nx).
  pose proof (G _ _ Iv (finite_not_nan _ Fv)) as Nv. pose proof (G _ _ Is (finite_not_nan _ Fs)) as Ns. pose proof (int_32 d Hd) as D.
  unfold increment in W. unfold fstepped. rewrite E4. rewrite E1, E2, E3 in *.
  pose proof (product_num prec emax P1 P2 s d P4 P3 Ns Fs D) as Np.
  set (p := SFmul prec emax s (binary_normalize prec emax d 0 false)) in *.
  split; intros S H; match goal with |- context [if ?w then _ else _] => destruct w end;
    destruct (Z.ltb_spec 0 d); try lia; try (now right).
  - left. rewrite ltb_leb; [|exact (finite_not_nan _ Fv)|exact Nx]. rewrite (add_progress prec emax P1 P2 v p b j); try assumption. reflexivity.
  - left. rewrite ltb_leb; [|exact Nx|exact (finite_not_nan _ Fv)]. rewrite (add_regress prec emax P1 P2 v p b j); try assumption. reflexivity.
  - destruct (Z.ltb_spec d 0); [now right|lia].
Qed.

Lemma step_progress_l : forall h m d lo hi v s b j, INT_MIN <= d <= INT_MAX ->
  flimit m (pmin h) (minv h) (ptype_of h) lo -> flimit m (pmax h) (maxv h) (ptype_of h) hi -> lo <> S754_nan -> hi <> S754_nan ->
  fholds m (pointer h) (ptype_of h) v -> union_fholds (step h) (ptype_of h) s -> finite v -> finite s ->
  worth (increment (ptype_of h) s d) b j ->
  exists m' y, parameter_operator (Some h) m d = Done (m', 0) /\ fholds m' (pointer h) (ptype_of h) y /\
    (0 < d -> le_number 1 (last_place (ptype_of h) v) b j -> SFltb v y = true \/ y = lo) /\
    (d < 0 -> le_number 1 (last_place (ptype_of h) v) (- b) j -> SFltb y v = true \/ y = hi).
Proof.
  intros h m d lo hi v s b j Hd Hlo Hhi Nlo Nhi Hv Hs Fv Fs W.
  destruct (operator_float_l h m d lo hi v s Hd Hlo Hhi Nlo Nhi Hv Hs Fv Fs) as (m' & E & _ & F).
  exists m'. eexists. split; [exact E|]. split; [exact F|]. destruct Hv as (rv & Iv & _).
  exact (fstepped_progress _ lo hi v s d rv _ b j Iv Hs Fv Fs Hd W).
Qed.

(** * Loss *)

Lemma limit_frame : forall h m m' p u x, limits_elsewhere [h] -> p = pmin h \/ p = pmax h ->
  changed_only m m' (pointer h) (size (ptype_of h)) -> flimit m p u (ptype_of h) x -> flimit m' p u (ptype_of h) x.
Proof.
  intros h m m' p u x L Hp C F. apply (flimit_frame m m' p u _ x (pointer h) (size (ptype_of h)) C); [|exact F].
  intros a E. apply (L 0%nat 0%nat h h a eq_refl eq_refl). destruct Hp as [<- | <-]; [left|right]; exact E.
Qed.

Lemma absorbed_l : forall n h m d lo hi v s b j, limits_elsewhere [h] -> INT_MIN <= d <= INT_MAX ->
  flimit m (pmin h) (minv h) (ptype_of h) lo -> flimit m (pmax h) (maxv h) (ptype_of h) hi -> within lo v hi = true ->
  fholds m (pointer h) (ptype_of h) v -> union_fholds (step h) (ptype_of h) s -> nonzero v -> finite s ->
  worth (increment (ptype_of h) s d) b j -> ~ le_number 1 (last_place (ptype_of h) v - 2) (Z.abs b) j ->
  after n h m d v.
Proof.
  intros n h m d lo hi v s b j Lm Hd Hlo Hhi W Hv Hs Zv Fs Wb H.
  assert (Nlo : lo <> S754_nan) by (intros ->; discriminate W).
  assert (Nhi : hi <> S754_nan) by (intros ->; unfold within in W; apply andb_prop in W as [_ W]; destruct v; discriminate W).
  assert (Fv : finite v) by (destruct v; try contradiction; exact I).
  assert (E : fstepped (ptype_of h) lo hi v s d = v).
  { destruct Hv as (rv & Iv & _).
    destruct (step_format _ (ieee_float _ _ _ Iv)) as (prec & emax & P1 & P2 & P3 & P4 & E1 & E2 & E3 & E4 & G).
    pose proof (G _ _ Iv (finite_not_nan _ Fv)) as Nv. pose proof (G _ _ Hs (finite_not_nan _ Fs)) as Ns. pose proof (int_32 d Hd) as D.
    unfold increment in Wb. unfold fstepped. rewrite E4 in H. rewrite E1, E2, E3 in *.
    pose proof (product_num prec emax P1 P2 s d P4 P3 Ns Fs D) as Np.
    rewrite (absorb prec emax P1 P2 v _ b j Nv Np Zv Wb H), W. reflexivity. }
  revert m Hlo Hhi Hv. induction n as [|n IH]; intros m Hlo Hhi Hv.
  - exists m. split; [reflexivity|exact Hv].
  - destruct (operator_float_l h m d lo hi v s Hd Hlo Hhi Nlo Nhi Hv Hs Fv Fs) as (m' & Eo & C & F). rewrite E in F.
    destruct (IH m' (limit_frame h m m' _ _ _ Lm (or_introl eq_refl) C Hlo) (limit_frame h m m' _ _ _ Lm (or_intror eq_refl) C Hhi) F) as (m2 & O2 & F2).
    exists m2. split; [|exact F2]. cbn [operations]. rewrite Eo. exact O2.
Qed.

(** * Round the limits *)

Lemma after_step : forall n h m m' d v, parameter_operator (Some h) m d = Done (m', 0) -> (after n h m' d v <-> after (S n) h m d v).
Proof. intros n h m m' d v E. unfold after. cbn [operations]. rewrite E. reflexivity. Qed.

Lemma wraps_l : forall h m d lo hi v s b j P, limits_elsewhere [h] -> INT_MIN <= d <= INT_MAX ->
  flimit m (pmin h) (minv h) (ptype_of h) lo -> flimit m (pmax h) (maxv h) (ptype_of h) hi -> finite lo -> finite hi -> within lo v hi = true ->
  fholds m (pointer h) (ptype_of h) v -> union_fholds (step h) (ptype_of h) s -> finite s ->
  worth (increment (ptype_of h) s d) b j -> last_place (ptype_of h) lo <= P -> last_place (ptype_of h) hi <= P ->
  (0 < d -> le_number 1 P b j ->
     exists n, after (S n) h m d lo /\
       forall i, (i < n)%nat -> exists y z, after i h m d y /\ after (S i) h m d z /\ SFltb y z = true /\ within lo z hi = true) /\
  (d < 0 -> le_number 1 P (- b) j ->
     exists n, after (S n) h m d hi /\
       forall i, (i < n)%nat -> exists y z, after i h m d y /\ after (S i) h m d z /\ SFltb z y = true /\ within lo z hi = true).
Proof.
  intros h m d lo hi v s b j P Lm Hd Hlo Hhi Flo Fhi W Hv Hs Fs Wb L1 L2.
  destruct (fholds_float _ _ _ _ Hv) as [Ti _].
  destruct (step_format _ Ti) as (prec & emax & P1 & P2 & P3 & P4 & E1 & E2 & E3 & E4 & G).
  assert (Il : exists rl, ieee_of (ptype_of h) rl lo).
  { unfold flimit in Hlo. destruct (pmin h); [destruct Hlo as (rl & I & _); eauto|eexists; exact Hlo]. }
  assert (Ih : exists rh, ieee_of (ptype_of h) rh hi).
  { unfold flimit in Hhi. destruct (pmax h); [destruct Hhi as (rh & I & _); eauto|eexists; exact Hhi]. }
  destruct Il as (rl & Il). destruct Ih as (rh & Ih).
  pose proof (G _ _ Il (finite_not_nan _ Flo)) as Nl. pose proof (G _ _ Ih (finite_not_nan _ Fhi)) as Nh.
  assert (B : forall u, within lo u hi = true -> finite u).
  { unfold within. intros u K. apply andb_prop in K as [K1 K2]. destruct u as [|[]| |]; try exact I.
    - destruct lo as [|[]| |[]]; try contradiction; discriminate K1.
    - destruct hi as [|[]| |[]]; try contradiction; discriminate K2.
    - destruct lo as [|[]| |[]]; discriminate K1. }
  assert (One : forall m v, flimit m (pmin h) (minv h) (ptype_of h) lo -> flimit m (pmax h) (maxv h) (ptype_of h) hi ->
    within lo v hi = true -> fholds m (pointer h) (ptype_of h) v ->
    number prec emax v /\ exists m' y, parameter_operator (Some h) m d = Done (m', 0) /\ fholds m' (pointer h) (ptype_of h) y /\
      flimit m' (pmin h) (minv h) (ptype_of h) lo /\ flimit m' (pmax h) (maxv h) (ptype_of h) hi /\
      (0 < d -> le_number 1 P b j -> SFltb v y = true /\ within lo y hi = true \/ y = lo) /\
      (d < 0 -> le_number 1 P (- b) j -> SFltb y v = true /\ within lo y hi = true \/ y = hi)).
  { clear m v Hlo Hhi W Hv. intros m v Hlo Hhi W Hv.
    destruct (fholds_float _ _ _ _ Hv) as [_ (rv & Iv)]. pose proof (B v W) as Fv. pose proof (G _ _ Iv (finite_not_nan _ Fv)) as Nv.
    split; [exact Nv|].
    destruct (operator_float_l h m d lo hi v s Hd Hlo Hhi (finite_not_nan _ Flo) (finite_not_nan _ Fhi) Hv Hs Fv Fs) as (m' & E & C & F).
    exists m'. eexists. split; [exact E|]. split; [exact F|].
    split; [exact (limit_frame h m m' _ _ _ Lm (or_introl eq_refl) C Hlo)|]. split; [exact (limit_frame h m m' _ _ _ Lm (or_intror eq_refl) C Hhi)|].
    destruct (fstepped_progress _ lo hi v s d rv _ b j Iv Hs Fv Fs Hd Wb) as [Q1 Q2].
    assert (Lv : last_place (ptype_of h) v <= P).
    { rewrite E4 in *. unfold within in W. apply andb_prop in W as [W1 W2]. exact (place_between prec emax P1 P2 lo v hi P Nl Nv Nh Flo Fv Fhi W1 W2 L1 L2). }
    assert (Tr : forall c, le_number 1 P c j -> le_number 1 (last_place (ptype_of h) v) c j).
    { intros c K. refine (le_trans _ _ _ _ _ _ _ K). rewrite (le_iff _ _ _ _ (last_place (ptype_of h) v)) by lia.
      rewrite Z.sub_diag. change (2 ^ 0) with 1. assert (0 < 2 ^ (P - last_place (ptype_of h) v)) by (apply Z.pow_pos_nonneg; lia). lia. }
    unfold fstepped in *. set (x := fsum _ _ _) in *. clearbody x.
    split; intros S K; [specialize (Q1 S (Tr _ K)); clear Q2|specialize (Q2 S (Tr _ K)); clear Q1]; destruct (within lo x hi) eqn:Wx.
    - destruct Q1 as [Q|Q]; [left|right]; tauto.
    - right. destruct (Z.ltb_spec 0 d); [reflexivity|lia].
    - destruct Q2 as [Q|Q]; [left|right]; tauto.
    - right. destruct (Z.ltb_spec 0 d); [lia|]. destruct (Z.ltb_spec d 0); [reflexivity|lia]. }
  assert (LT : forall x y, number prec emax x -> number prec emax y -> finite x -> finite y -> SFltb x y = true -> ticks prec emax x < ticks prec emax y).
  { intros x y Nx Ny Fx Fy K. rewrite ltb_leb in K by (apply finite_not_nan; assumption). rewrite (ticks_leb prec emax P1 P2) in K by assumption. lia. }
  split; intros S K.
  - remember (Z.to_nat (ticks prec emax hi - ticks prec emax v)) as k eqn:Ek. revert m v Hlo Hhi W Hv Ek. induction k as [k IH] using lt_wf_ind.
    intros m v Hlo Hhi W Hv Ek. destruct (One m v Hlo Hhi W Hv) as (Nv & m' & y & E & F & Hlo' & Hhi' & Q & _).
    destruct (Q S K) as [[Q1 Q2]| ->].
    + destruct (One m' y Hlo' Hhi' Q2 F) as (Ny & _). pose proof (LT _ _ Nv Ny (B _ W) (B _ Q2) Q1) as T.
      assert (T2 : ticks prec emax y <= ticks prec emax hi).
      { pose proof (B _ Q2) as Fy. unfold within in Q2. apply andb_prop in Q2 as [_ Q2']. rewrite (ticks_leb prec emax P1 P2) in Q2' by assumption. lia. }
      destruct (IH (Z.to_nat (ticks prec emax hi - ticks prec emax y)) ltac:(lia) m' y Hlo' Hhi' Q2 F eq_refl) as (n & A & I').
      exists (Datatypes.S n). split; [apply (after_step (Datatypes.S n) h m m' d lo E); exact A|].
      intros [|i] Hi.
      * exists v, y. split; [exists m; split; [reflexivity|exact Hv]|]. split; [apply (after_step 0 h m m' d y E); exists m'; split; [reflexivity|exact F]|]. tauto.
      * destruct (I' i ltac:(lia)) as (y1 & z & A1 & A2 & A3). exists y1, z. split; [apply (after_step i h m m' d y1 E); exact A1|].
        split; [apply (after_step (Datatypes.S i) h m m' d z E); exact A2|exact A3].
    + exists 0%nat. split; [apply (after_step 0 h m m' d lo E); exists m'; split; [reflexivity|exact F]|]. intros i Hi. lia.
  - remember (Z.to_nat (ticks prec emax v - ticks prec emax lo)) as k eqn:Ek. revert m v Hlo Hhi W Hv Ek. induction k as [k IH] using lt_wf_ind.
    intros m v Hlo Hhi W Hv Ek. destruct (One m v Hlo Hhi W Hv) as (Nv & m' & y & E & F & Hlo' & Hhi' & _ & Q).
    destruct (Q S K) as [[Q1 Q2]| ->].
    + destruct (One m' y Hlo' Hhi' Q2 F) as (Ny & _). pose proof (LT _ _ Ny Nv (B _ Q2) (B _ W) Q1) as T.
      assert (T2 : ticks prec emax lo <= ticks prec emax y).
      { pose proof (B _ Q2) as Fy. unfold within in Q2. apply andb_prop in Q2 as [Q2' _]. rewrite (ticks_leb prec emax P1 P2) in Q2' by assumption. lia. }
      destruct (IH (Z.to_nat (ticks prec emax y - ticks prec emax lo)) ltac:(lia) m' y Hlo' Hhi' Q2 F eq_refl) as (n & A & I').
      exists (Datatypes.S n). split; [apply (after_step (Datatypes.S n) h m m' d hi E); exact A|].
      intros [|i] Hi.
      * exists v, y. split; [exists m; split; [reflexivity|exact Hv]|]. split; [apply (after_step 0 h m m' d y E); exists m'; split; [reflexivity|exact F]|]. tauto.
      * destruct (I' i ltac:(lia)) as (y1 & z & A1 & A2 & A3). exists y1, z. split; [apply (after_step i h m m' d y1 E); exact A1|].
        split; [apply (after_step (Datatypes.S i) h m m' d z E); exact A2|exact A3].
    + exists 0%nat. split; [apply (after_step 0 h m m' d hi E); exists m'; split; [reflexivity|exact F]|]. intros i Hi. lia.
Qed.
