From Coq Require Import ZifyBool Floats.SpecFloat.
From Verif Require Import Base BaseLemmas Loop Float FloatProofs FloatSpec FloatExact PidModel PidSpec PidSystem PidProofs PidFltModel PidFltSpec PidFltSystem.

(** * Numbers *)

Lemma prec24 : 1 < 24 < 128. Proof. lia. Qed.
Local Hint Resolve prec24 : core.

Lemma num_number : forall k x a, num k x a -> number 24 128 x. Proof. intros k x a H. apply H. Qed.

Lemma num_good : forall k x a, num k x a -> good 24 128 x.
Proof. intros k x a [H W]. split; [exact H|]. intros ->. exact W. Qed.

Lemma num_finite : forall k x a, num k x a -> is_finite x.
Proof. intros k [s|s| |s m e] a [_ W]; try contradiction; exact Logic.I. Qed.

Lemma num_zero : forall k s, num k (S754_zero s) 0.
Proof. intros k s. split; [reflexivity|]. reflexivity. Qed.

Lemma num_opp : forall k x a, num k x a -> num k (SFopp x) (- a).
Proof. intros k x a [H W]. split; [|now apply worth_opp]. destruct x; exact H. Qed.

Lemma num_add : forall k x y a b, num k x a -> num k y b -> Z.abs (a + b) < 2 ^ 24 -> -149 <= k <= 104 -> num k (SFadd 24 128 x y) (a + b).
Proof.
  intros k x y a b X Y B K. split.
  - apply (add_good 24 128 ltac:(lia) x y (num_good _ _ _ X) (num_good _ _ _ Y) (num_finite _ _ _ X)).
  - apply (add_exact 24 128 ltac:(lia) x y a b k); [apply X|apply Y|apply same_refl|]. split; [exact B|lia].
Qed.

Lemma sub_add : forall k x y a b, num k x a -> num k y b -> SFsub 24 128 x y = SFadd 24 128 x (SFopp y).
Proof.
  intros k x y a b [_ X] [_ Y].
  destruct x as [sx|sx| |sx mx ex]; try contradiction; destruct y as [sy|sy| |sy my ey]; try contradiction; try reflexivity.
  cbn [SFsub SFadd SFopp]. f_equal. unfold cond_Zopp. destruct sy; cbn [negb]; lia.
Qed.

Lemma num_sub : forall k x y a b, num k x a -> num k y b -> Z.abs (a - b) < 2 ^ 24 -> -149 <= k <= 104 -> num k (SFsub 24 128 x y) (a - b).
Proof. intros k x y a b X Y B K. rewrite (sub_add _ _ _ _ _ X Y). apply (num_add k x (SFopp y) a (- b)); auto using num_opp. Qed.

Lemma num_mul : forall k j x y a b, num k x a -> num j y b -> Z.abs (a * b) < 2 ^ 24 -> -149 <= k + j <= 104 -> num (k + j) (SFmul 24 128 x y) (a * b).
Proof.
  intros k j x y a b X Y B K. split.
  - apply (mul_good 24 128 ltac:(lia) x y); eauto using num_good, num_finite. unfold emin. lia.
  - apply (mul_exact 24 128 ltac:(lia) x y a k b j); [apply X|apply Y|lia|apply X|apply Y|apply same_refl|]. split; [exact B|lia].
Qed.

Lemma compare_swap : forall x y, SFcompare y x = option_map CompOpp (SFcompare x y).
Proof.
  intros [sx|sx| |sx mx ex] [sy|sy| |sy my ey]; try destruct sx; try destruct sy; try reflexivity; cbn [SFcompare option_map]; f_equal;
    rewrite (Z.compare_antisym ex ey); destruct (ex ?= ey); cbn [CompOpp]; try reflexivity; change (Pos.compare_cont Eq ?a ?b) with (Pos.compare a b);
    rewrite (Pos.compare_antisym mx my); reflexivity.
Qed.

Lemma num_ltb : forall k x y a b, num k x a -> num k y b -> SFltb x y = (a <? b).
Proof.
  intros k x y a b X Y. assert (E := leb_exact 24 128 ltac:(lia) y x b a k (proj1 Y) (proj1 X) (proj2 Y) (proj2 X)).
  unfold SFltb, SFleb in *. rewrite (compare_swap x y) in E.
  assert (S : exists c, SFcompare x y = Some c).
  { destruct X as [_ X], Y as [_ Y]. destruct x, y; try contradiction; cbn [SFcompare]; eauto. }
  destruct S as [c S]. rewrite S in *. destruct c; cbn in E; lia.
Qed.

Lemma num_of_int : forall t, 0 <= t < 2 ^ 24 -> num 0 (F32 (of_int t)) t.
Proof.
  intros t Ht. unfold F32, of_int. split.
  - apply (normalize_good 24 128 ltac:(lia) t 0 false).
  - apply normalize_exact; [lia|apply same_refl|]. split; lia.
Qed.

Lemma num_scale : forall k x a, k <= 0 -> num 0 x a -> num k x (a * 2 ^ (- k)).
Proof.
  intros k x a Hk [H W]. split; [exact H|]. apply (worth_same x a 0); [exact W|]. unfold same_number. rewrite Z.min_r by lia.
  rewrite Z.sub_diag. change (2 ^ 0) with 1. replace (0 - k) with (- k) by lia. lia.
Qed.

(** * Lists *)

Lemma forall2_upd : forall k l l' i x a, Forall2 (num k) l l' -> num k x a -> Forall2 (num k) (upd l i x) (upd l' i a).
Proof. intros k l l' i x a H Hx. revert i. induction H as [|y b l l' Hy H IH]; intros [|i]; cbn [upd]; constructor; auto. Qed.

Lemma forall2_repeat : forall k n, Forall2 (num k) (repeat f0 n) (repeat 0 n).
Proof. intros k n. induction n; cbn [repeat]; constructor; auto. apply num_zero. Qed.

Lemma forall2_len : forall k l l', Forall2 (num k) l l' -> length l = length l'.
Proof. intros k l l' H. induction H; cbn; congruence. Qed.

Definition isnan (x : spec_float) : Z := match x with S754_nan => 1 | _ => 0 end.

(** A number worth a, or no number. *)
Definition numn (k : Z) (x : spec_float) (a : Z) : Prop := x = S754_nan \/ num k x a.

Lemma numn_num : forall k x a, numn k x a -> isnan x = 0 -> num k x a.
Proof. intros k x a [->|H] E; [discriminate|exact H]. Qed.

Lemma nth_upd : forall A (l : list A) i j x d, (i < length l)%nat -> nth j (upd l i x) d = if Nat.eqb j i then x else nth j l d.
Proof.
  intros A. induction l as [|a l IH]; intros [|i] [|j] x d Hi; cbn [length] in Hi; try lia; cbn [upd nth Nat.eqb]; auto. apply IH. lia.
Qed.

(** The list [l] of floats stands for [l'] where the flags [b] say that there is a number. *)
Record flagged (k : Z) (l : list spec_float) (l' b : list Z) : Prop := mkFl {
  fl_len : length l = length l';
  fl_lenb : length b = length l';
  fl_cell : forall i, nth i b 0 = 0 -> num k (nth i l f0) (nth i l' 0) }.

Lemma flagged_repeat : forall k n, flagged k (repeat f0 n) (repeat 0 n) (repeat 0 n).
Proof. intros k n. constructor; rewrite ?repeat_length; auto. intros i _. rewrite !nth_repeat. apply num_zero. Qed.

Lemma flagged_upd : forall k l l' b i x a, (i < length l')%nat -> flagged k l l' b -> numn k x a -> flagged k (upd l i x) (upd l' i a) (upd b i (isnan x)).
Proof.
  intros k l l' b i x a Hi F X. destruct F. constructor; rewrite ?upd_length; auto.
  intros j. rewrite !nth_upd by lia. destruct (Nat.eqb j i); [apply numn_num; exact X|apply fl_cell0].
Qed.

Lemma forall2_nth : forall k l l' i, Forall2 (num k) l l' -> num k (nth i l f0) (nth i l' 0).
Proof. intros k l l' i H. revert i. induction H as [|y b l l' Hy H IH]; intros [|i]; cbn [nth]; auto; apply num_zero. Qed.

Definition fadd_cell (l : list spec_float) (acc : spec_float) (i : Z) : outcome spec_float := do x <- zget l i; Done (F32 (fadd acc x)).

Lemma floop_ok : forall k B rest rest' done acc a, -149 <= k <= 104 -> 0 <= B -> Forall2 (num k) rest rest' -> Forall (fun x => Z.abs x <= B) rest' ->
  num k acc a -> Z.abs a + zlen rest * B < 2 ^ 24 ->
  exists r, for_up (length rest) (zlen done) (fadd_cell (done ++ rest)) acc = Done r /\ num k r (a + sum rest').
Proof.
  intros k B. induction rest as [|x rest IH]; intros rest' done acc a HK HB H2 H Ha Hb; inversion H2 as [|? b ? rest0 Hx H2']; subst; cbn [length for_up].
  - exists acc. split; [reflexivity|]. cbn. rewrite Z.add_0_r. exact Ha.
  - inversion H as [|? ? Hbx H']; subst. unfold fadd_cell at 1. rewrite (zget_ok _ _ _ f0) by (unfold zlen; rewrite app_length; cbn [length]; lia).
    unfold zlen at 1. rewrite Nat2Z.id, app_nth2, Nat.sub_diag by lia. cbn [nth obind].
    unfold zlen in Hb. cbn [length] in Hb. rewrite Nat2Z.inj_succ in Hb. assert (0 <= Z.of_nat (length rest) * B) by nia.
    replace (done ++ x :: rest) with ((done ++ [x]) ++ rest) by (rewrite <- app_assoc; reflexivity).
    replace (zlen done + 1) with (zlen (done ++ [x])) by (unfold zlen; rewrite app_length; cbn; lia).
    destruct (IH rest0 (done ++ [x]) (F32 (fadd acc x)) (a + b)) as (r & Hr & Nr); [exact HK|exact HB|exact H2'|exact H'| |unfold zlen; lia|].
    + apply num_add; [exact Ha|exact Hx|lia|exact HK].
    + exists r. split; [exact Hr|]. replace (a + sum (b :: rest0)) with (a + b + sum rest0) by (unfold sum; cbn; lia). exact Nr.
Qed.

(** * The float controller does what the integer controller does *)

(** A threshold of the float controller, and one of the integer controller which has the same effect on errors that are not too large. *)
Definition thr (k : Z) (x : spec_float) (t : Z) : Prop := exists T, num k x T /\ t = Z.min T INT_MAX.

Record sim (k : Z) (f : fpid) (p : pid) : Prop := mkSim {
  s_gains : f_Kp f = Kp p /\ f_Ki f = Ki p /\ f_Kd f = Kd p;
  s_index : f_index f = index p;
  s_dindex : f_dindex f = derivative_index p;
  s_dsize : f_dsize f = derivative_history_size p;
  s_history : Forall2 (num k) (f_history f) (history p);
  s_input : numn k (f_input f) (input p);
  s_sp : num k (f_sp f) (sp p);
  s_low : thr k (f_low f) (integral_low_threshold p);
  s_high : thr k (f_high f) (integral_high_threshold p);
  s_dlow : num k (f_dlow f) (derivative_low_threshold p);
  s_flags : f_first f = first_value p /\ f_auto f = auto_clear p /\ f_dthr f = derivative_threshold p /\ f_hen f = high_enabled p /\ f_len f = low_enabled p;
  s_sign : f_sign f = sign p }.

Section Sim.
Variables N D : nat.
Variable k : Z.
Hypothesis Hk : -149 <= k <= 0.

Lemma thr_zero : thr k f0 0.
Proof. exists 0. split; [apply num_zero|reflexivity]. Qed.

Lemma sim_init : sim k (fpid_init N D) (pid_init N D).
Proof. constructor; cbn; auto using forall2_repeat, num_zero, thr_zero; try apply num_zero. right. apply num_zero. Qed.

Lemma fabs_num : forall x a, num k x a -> num k (fABS x) (Z.abs a).
Proof.
  intros x a H. unfold fABS. rewrite (num_ltb k f0 x 0 a (num_zero k false) H). destruct (Z.ltb_spec 0 a).
  - rewrite Z.abs_eq by lia. exact H.
  - rewrite Z.abs_neq by lia. now apply num_opp.
Qed.

Lemma thr_ltb : forall x a t s, num k x a -> thr k t s -> a < INT_MAX -> SFltb x t = (a <? s).
Proof. intros x a t s X (T & HT & ->) Ha. rewrite (num_ltb k x t a T X HT). lia. Qed.

Lemma sim_error : forall f p e, sim k f p -> pid_current_error p = Done e -> Z.abs e < 2 ^ 24 -> numn k (fpid_current_error f) e.
Proof.
  intros f p e S H He. apply int_op_l in H. destruct H as [-> _]. unfold fpid_current_error, F32, fsub.
  destruct (s_input _ _ _ S) as [->|X].
  - left. pose proof (proj2 (s_sp _ _ _ S)). destruct (f_sp f); try contradiction; reflexivity.
  - right. apply num_sub; [apply S|exact X|exact He|lia].
Qed.

(** An error that is not a number is taken for 0. *)
Definition sees (x : spec_float) (e : Z) : Prop := num k x e \/ (x = S754_nan /\ e = 0).

Lemma sees_pos : forall x e, sees x e -> SFltb f0 x = (0 <? e).
Proof. intros x e [X|[-> ->]]; [|reflexivity]. apply (num_ltb k f0 x 0 e (num_zero k false) X). Qed.

Lemma sees_neg : forall x e, sees x e -> SFltb x f0 = (e <? 0).
Proof. intros x e [X|[-> ->]]; [|reflexivity]. apply (num_ltb k x f0 e 0 X (num_zero k false)). Qed.

Lemma sim_store : forall f p x e l, sim k f p -> sees x e -> Z.abs e < 2 ^ 24 -> 0 <= index p < zlen (history p) -> store_error p e = Done l ->
  exists fl, fstore_error f x = Done fl /\ Forall2 (num k) fl l.
Proof.
  intros f p x e l S X He Hi H. unfold store_error in H. unfold fstore_error.
  rewrite (sees_pos x e X), (sees_neg x e X). destruct X as [X|[-> ->]]; [|injection H as <-; exists (f_history f); split; [reflexivity|apply S]].
  assert (Z1 : forall a y, num k y a -> exists fl, zset (f_history f) (f_index f) y = Done fl /\ Forall2 (num k) fl (upd (history p) (Z.to_nat (index p)) a)).
  { intros a y Y. rewrite (s_index _ _ _ S), zset_ok by (unfold zlen in *; rewrite (forall2_len _ _ _ (s_history _ _ _ S)); exact Hi).
    eexists. split; [reflexivity|]. apply forall2_upd; [apply S|exact Y]. }
  assert (Z2 : forall a, zset (history p) (index p) a = Done (upd (history p) (Z.to_nat (index p)) a)) by (intros a; now apply zset_ok).
  assert (Zx := Z1 e x X). assert (Z0 := Z1 0 f0 (num_zero k false)).
  rewrite !Z2 in H.
  destruct (s_flags _ _ _ S) as (_ & _ & _ & Eh & El). rewrite Eh, El. clear Eh El. pose proof (fabs_num x e X) as A.
  assert (HM : Z.abs e < INT_MAX) by (unfold INT_MAX; lia).
  rewrite (thr_ltb _ _ _ _ A (s_low _ _ _ S) HM), (thr_ltb _ _ _ _ A (s_high _ _ _ S) HM).
  assert (Ha : ABS e = Done (Z.abs e)) by (apply ABS_ok; lia). rewrite Ha in H. cbn [obind] in H.
  destruct (0 <? e); [|destruct (e <? 0)].
  - destruct (low_enabled p =? 0); [injection H as <-; exact Zx|]. cbn [orb]. destruct (Z.abs e <? integral_low_threshold p); injection H as <-; assumption.
  - destruct (high_enabled p =? 0); [injection H as <-; exact Zx|]. cbn [orb]. destruct (Z.abs e <? integral_high_threshold p); injection H as <-; assumption.
  - injection H as <-. eexists. split; [reflexivity|]. apply S.
Qed.

Lemma sim_clear : forall f p, sim k f p -> sim k (fpid_clear_integral_history N f) (pid_clear_integral_history N p).
Proof. intros f p S. destruct S. constructor; cbn; auto. apply forall2_repeat. Qed.

Lemma sim_input : forall f p v x p' b, sim k f p -> flagged k (f_dhistory f) (derivative_history p) b -> num k x v \/ (x = S754_nan /\ v = sp p) -> Z.abs (sp p - input p) < 2 ^ 24 -> Z.abs (sp p - v) < 2 ^ 24 ->
  (0 < N)%nat -> length (history p) = N -> 0 <= index p < Z.of_nat N -> 0 <= derivative_index p < zlen (derivative_history p) ->
  pid_add_input N D p v = Done p' -> exists f', fpid_add_input N D f x = Done f' /\ sim k f' p' /\
    flagged k (f_dhistory f') (derivative_history p') (if f_first f =? 0 then b else upd b (Z.to_nat (derivative_index p)) (isnan (f_input f))) /\
    f_input f' = x /\ f_first f' = 1 /\ derivative_index p' = if first_value p =? 0 then derivative_index p else (derivative_index p + 1) mod Z.of_nat D.
Proof.
  intros f p v x p' b S Fl X B1 B2 HN L1 I1 I2 H. unfold pid_add_input in H. unfold fpid_add_input.
  destruct (pid_current_error p) as [oe| | |] eqn:Eoe; try discriminate. cbn [obind] in H.
  assert (Noe : numn k (fpid_current_error f) oe) by (apply (sim_error f p); auto; apply int_op_l in Eoe; destruct Eoe as [-> _]; exact B1).
  assert (Hnan : isnan (fpid_current_error f) = isnan (f_input f)).
  { destruct (s_input _ _ _ S) as [Y|Y].
    - unfold fpid_current_error, F32, fsub. rewrite Y. pose proof (proj2 (s_sp _ _ _ S)). destruct (f_sp f); try contradiction; reflexivity.
    - apply int_op_l in Eoe. destruct Eoe as [-> _]. assert (Q : num k (fpid_current_error f) (sp p - input p)) by (apply num_sub; [apply S|exact Y|exact B1|lia]).
      destruct Q as [_ Q], Y as [_ Y]. destruct (fpid_current_error f), (f_input f); try contradiction; reflexivity. }
  set (fo := fpid_current_error f) in *. clearbody fo. clear Eoe.
  assert (X' : numn k x v) by (destruct X as [X|[X _]]; [right|left]; exact X).
  assert (S1 : sim k (fset_input f x) (set_input p v)) by (destruct S; constructor; cbn; auto).
  destruct (pid_current_error (set_input p v)) as [e| | |] eqn:Ee; try discriminate. cbn [obind] in H.
  assert (Be : Z.abs e < 2 ^ 24) by (apply int_op_l in Ee; destruct Ee as [-> _]; exact B2).
  assert (Ne : sees (fpid_current_error (fset_input f x)) e).
  { apply int_op_l in Ee. destruct Ee as [Ee _]. cbn [set_input sp input] in Ee. unfold fpid_current_error, F32, fsub. cbn [fset_input f_sp f_input].
    destruct X as [X|[-> ->]].
    - left. rewrite Ee. apply num_sub; [apply S|exact X|exact B2|lia].
    - right. split; [|lia]. pose proof (proj2 (s_sp _ _ _ S)). destruct (f_sp f); try contradiction; reflexivity. }
  clear Ee.
  set (fe := fpid_current_error (fset_input f x)) in *. clearbody fe.
  rewrite (sees_pos fe e Ne), (sees_neg fe e Ne). rewrite (s_sign _ _ _ S1).
  set (ns := if 0 <? e then 1 else if e <? 0 then -1 else sign (set_input p v)) in *. clearbody ns.
  cbv zeta in H |- *.
  set (p1 := if sign (set_input p v) =? ns then _ else _) in H. set (f1 := if sign (set_input p v) =? ns then _ else _).
  assert (S2 : sim k f1 p1 /\ length (history p1) = N /\ 0 <= index p1 < Z.of_nat N /\ derivative_index p1 = derivative_index p /\ derivative_history p1 = derivative_history p /\
    f_dindex f1 = f_dindex f /\ f_dhistory f1 = f_dhistory f /\ f_first f1 = f_first f /\ f_input f1 = x /\ first_value p1 = first_value p).
  { unfold f1, p1. destruct (sign (set_input p v) =? ns); [repeat split; auto; try (apply S1); exact (proj1 I1) || exact (proj2 I1)|].
    change (f_auto (fset_sign (fset_input f x) ns)) with (f_auto f). change (auto_clear (set_sign (set_input p v) ns)) with (auto_clear p).
    replace (f_auto f) with (auto_clear p) by (symmetry; apply S).
    assert (S3 : sim k (fset_sign (fset_input f x) ns) (set_sign (set_input p v) ns)) by (destruct S1; constructor; cbn in *; auto).
    destruct (auto_clear p =? 0); [split; [exact S3|]; cbn; tauto|]. split; [apply sim_clear; exact S3|]. cbn. rewrite repeat_length. repeat split; lia. }
  clearbody p1 f1. destruct S2 as (S2 & L & I & E1 & E2 & G1 & G2 & G3 & G4 & G5). clear S1.
  destruct (store_error p1 e) as [l| | |] eqn:El; try discriminate. cbn [obind] in H.
  destruct (sim_store _ _ _ _ _ S2 Ne Be ltac:(unfold zlen; lia) El) as (fl & Efl & Hfl). rewrite Efl. cbn [obind].
  assert (S4 : sim k (fset_history f1 ((f_index f1 + 1) mod Z.of_nat N) fl) (set_history p1 ((index p1 + 1) mod Z.of_nat N) l)).
  { destruct S2. constructor; cbn; auto. congruence. }
  set (f2 := fset_history _ _ _) in *. set (p2 := set_history _ _ _) in *.
  assert (E1' : derivative_index p2 = derivative_index p) by exact E1. assert (E2' : derivative_history p2 = derivative_history p) by exact E2.
  assert (G1' : f_dindex f2 = f_dindex f) by exact G1. assert (G2' : f_dhistory f2 = f_dhistory f) by exact G2. assert (G3' : f_first f2 = f_first f) by exact G3.
  assert (G4' : f_input f2 = x) by exact G4. assert (G5' : first_value p2 = first_value p) by exact G5.
  clearbody f2 p2. clear S2 E1 E2. assert (Ef : f_first f = first_value p) by apply S. rewrite Ef, <- G5'.
  replace (f_first f2) with (first_value p2) by (symmetry; apply S4). rewrite <- E1', <- E2' in *.
  destruct (first_value p2 =? 0).
  - injection H as <-. eexists. split; [reflexivity|]. split; [destruct S4; constructor; cbn; auto; tauto|]. cbn. rewrite G2', E1'. auto.
  - rewrite zset_ok in H by exact I2. cbn [obind] in H. injection H as <-.
    rewrite (s_dindex _ _ _ S4), zset_ok by (unfold zlen in *; rewrite G2', (fl_len _ _ _ _ Fl); exact I2). cbn [obind].
    eexists. split; [reflexivity|]. split.
    { destruct S4. constructor; cbn; auto; try congruence; [rewrite s_dsize0; reflexivity|tauto]. }
    cbn. rewrite G2', E1', <- Hnan. split; [|auto]. apply flagged_upd; auto. unfold zlen in I2. rewrite <- E1'. lia.
Qed.

End Sim.

(** * Bounds *)

Lemma error_w : forall B h, 0 <= B -> Forall (within B) h -> Z.abs (error h) <= 2 * B.
Proof. exact (error_within 1 1 ltac:(lia) ltac:(lia)). Qed.

Lemma past_w : forall B h, 0 <= B -> Forall (within B) h -> Forall (fun x => Z.abs x <= 2 * B) (past_errors h).
Proof.
  intros B h HB H. induction H as [|o h Ho H IH]; [constructor|]. destruct o; try exact IH.
  cbn [past_errors]. destruct (existsb _ h); [|constructor]. constructor; [now apply error_w|exact IH].
Qed.

(** * Thresholds beyond INT_MAX *)

Definition clip (o : pop) : pop :=
  match o with LowThreshold t => LowThreshold (Z.min t INT_MAX) | HighThreshold t => HighThreshold (Z.min t INT_MAX) | _ => o end.

Lemma latest_clip : forall A (f : pop -> option A) d h, (forall o, f (clip o) = f o) -> latest f d (map clip h) = latest f d h.
Proof. intros A f d h Hf. induction h as [|o h IH]; [reflexivity|]. cbn [map latest]. rewrite Hf, IH. reflexivity. Qed.

Lemma setpoint_clip : forall h, setpoint (map clip h) = setpoint h. Proof. intros h. apply latest_clip. now intros []. Qed.
Lemma reading_clip : forall h, reading (map clip h) = reading h. Proof. intros h. apply latest_clip. now intros []. Qed.
Lemma autoclear_clip : forall h, autoclear (map clip h) = autoclear h. Proof. intros h. apply latest_clip. now intros []. Qed.
Lemma low_on_clip : forall h, low_on (map clip h) = low_on h. Proof. intros h. apply latest_clip. now intros []. Qed.
Lemma high_on_clip : forall h, high_on (map clip h) = high_on h. Proof. intros h. apply latest_clip. now intros []. Qed.
Lemma deriv_on_clip : forall h, deriv_on (map clip h) = deriv_on h. Proof. intros h. apply latest_clip. now intros []. Qed.
Lemma deriv_limit_clip : forall h, deriv_limit (map clip h) = deriv_limit h. Proof. intros h. apply latest_clip. now intros []. Qed.
Lemma gain_p_clip : forall h, gain_p (map clip h) = gain_p h. Proof. intros h. apply latest_clip. now intros []. Qed.
Lemma gain_i_clip : forall h, gain_i (map clip h) = gain_i h. Proof. intros h. apply latest_clip. now intros []. Qed.
Lemma gain_d_clip : forall h, gain_d (map clip h) = gain_d h. Proof. intros h. apply latest_clip. now intros []. Qed.
Lemma error_clip : forall h, error (map clip h) = error h. Proof. intros h. unfold error. now rewrite setpoint_clip, reading_clip. Qed.

Lemma low_limit_clip : forall h, low_limit (map clip h) = Z.min (low_limit h) INT_MAX.
Proof. intros h. unfold low_limit. induction h as [|o h IH]; [reflexivity|]. destruct o; cbn [map clip latest]; auto. Qed.
Lemma high_limit_clip : forall h, high_limit (map clip h) = Z.min (high_limit h) INT_MAX.
Proof. intros h. unfold high_limit. induction h as [|o h IH]; [reflexivity|]. destruct o; cbn [map clip latest]; auto. Qed.

Lemma last_sign_clip : forall h, last_sign (map clip h) = last_sign h.
Proof.
  induction h as [|o h IH]; [reflexivity|]. pose proof (error_clip (o :: h)) as E. destruct o; try exact IH.
  cbn [map clip] in E |- *. cbn [last_sign]. rewrite E, IH. reflexivity.
Qed.

Lemma accepted_clip : forall h e, Z.abs e < INT_MAX -> accepted (map clip h) e = accepted h e.
Proof.
  intros h e He. unfold accepted. rewrite low_on_clip, high_on_clip, low_limit_clip, high_limit_clip.
  replace (Z.min (low_limit h) INT_MAX <=? e) with (low_limit h <=? e) by lia.
  replace (Z.min (high_limit h) INT_MAX <=? - e) with (high_limit h <=? - e) by lia. reflexivity.
Qed.

Lemma contributions_clip : forall N B h, 0 <= B -> 2 * B < INT_MAX -> Forall (within B) h -> contributions N (map clip h) = contributions N h.
Proof.
  intros N B h HB HB2. induction h as [|o h IH]; intros H; [reflexivity|]. inversion H as [|? ? Ho H']; subst. specialize (IH H').
  destruct o; try exact IH; [|reflexivity].
  pose proof (error_clip (Input v :: h)) as E. pose proof (error_w B _ HB H) as Be. cbn [map clip] in E |- *. cbn [contributions].
  assert (T : turns (Input v :: map clip h) = turns (Input v :: h)) by (unfold turns; cbn [tl]; rewrite E, last_sign_clip; reflexivity).
  rewrite autoclear_clip, T, IH, E, accepted_clip by lia. reflexivity.
Qed.

Lemma past_errors_clip : forall h, past_errors (map clip h) = past_errors h.
Proof.
  assert (X : forall h, existsb (fun o => match o with Input _ => true | _ => false end) (map clip h) = existsb (fun o => match o with Input _ => true | _ => false end) h).
  { induction h as [|o h IH]; [reflexivity|]. cbn [map existsb]. rewrite IH. destruct o; reflexivity. }
  induction h as [|o h IH]; [reflexivity|]. destruct o; try exact IH. cbn [map clip past_errors]. rewrite X, IH, error_clip. reflexivity.
Qed.

Lemma within_clip : forall B h, Forall (within B) h -> Forall (within B) (map clip h).
Proof. intros B h H. induction H as [|o h Ho H IH]; constructor; auto. destruct o; exact Ho. Qed.

(** * Runs *)

Section Runs.
Variables N D : nat.
Hypothesis HN : (0 < N)%nat.
Hypothesis HD : (0 < D)%nat.
Variable k : Z.
Hypothesis Hk : -149 <= k <= 0.
Variable B : Z.
Hypothesis HB : 0 <= B.
Hypothesis HB4 : 4 * B < 2 ^ 24.

Lemma matches_fit : forall H h, matches k H h -> Forall thresholds_fit (map clip h).
Proof using HN HD Hk.
  induction H as [|F H IH]; intros [|o h] M; try contradiction; constructor; destruct M as [Ho M]; [|now apply IH].
  destruct o; try exact Logic.I; destruct F as [[]| | | | | | | | | |]; try contradiction; destruct Ho as [Ht ->];
    (assert (0 <= t0 * 2 ^ (- k)) by (apply Z.mul_nonneg_nonneg; [lia|apply Z.pow_nonneg; lia])); cbn; unfold INT_MIN, INT_MAX; lia.
Qed.

Lemma matches_length : forall H h, matches k H h ->
  existsb (fun o => match o with Input _ => true | _ => false end) h = negb (Nat.eqb (length (freadings H)) 0) /\ length (past_errors h) = length (tl (freadings H)).
Proof using HN HD Hk.
  induction H as [|F H IH]; intros [|o h] M; try contradiction; [split; reflexivity|]. destruct M as [Ho M]. destruct (IH h M) as [IH1 IH2].
  destruct F as [v| | | | | | | | | |], o; try (destruct v; contradiction); try contradiction; try (split; assumption).
  cbn [existsb orb freadings length Nat.eqb negb tl past_errors]. split; [reflexivity|]. rewrite IH1.
  destruct (freadings H) as [|x r]; cbn [length Nat.eqb negb tl] in *; [reflexivity|]. now rewrite IH2.
Qed.

(** The float controller follows the integer one; flags say which of the errors remembered are numbers. *)
Definition follows (H : list fop) (f : fpid) (p : pid) : Prop :=
  sim k f p /\ (exists b, flagged k (f_dhistory f) (derivative_history p) b /\ ring D (derivative_index p) b (map isnan (tl (freadings H)))) /\
  f_input f = hd f0 (freadings H) /\ f_first f = (match freadings H with [] => 0 | _ => 1 end).

Lemma run_sim : forall H h, matches k H h -> Forall (within B) h ->
  exists f p, frun N D H = Done f /\ prun N D (map clip h) = Done p /\ follows H f p.
Proof using HN HD Hk HB HB4.
  induction H as [|F H IH]; intros [|o h] M W; try contradiction.
  - exists (fpid_init N D), (pid_init N D). split; [reflexivity|]. split; [reflexivity|]. split; [apply sim_init|]. split; [|split; reflexivity].
    exists (repeat 0 D). split; [apply flagged_repeat|apply ring_init; exact HD].
  - pose proof (matches_fit _ _ M) as Fit'. destruct M as [Ho M]. pose proof (matches_fit _ _ M) as Fit.
    inversion W as [|? ? Wo W']; subst. destruct (IH h M W') as (f & p & Rf & Rp & S & Fo).
    cbn [map frun]. rewrite Rf. cbn [obind].
    assert (HB2 : 2 * B <= INT_MAX) by (unfold INT_MAX; lia).
    destruct (run_ok N D HN HD B (map clip (o :: h)) HB HB2 Fit' (within_clip _ _ W)) as (p' & Rp').
    cbn [map prun] in Rp' |- *. rewrite Rp in Rp' |- *. cbn [obind] in Rp' |- *.
    assert (Keep : forall f' p', (forall v, F <> FInput v) -> sim k f' p' -> f_dhistory f' = f_dhistory f -> derivative_history p' = derivative_history p ->
      derivative_index p' = derivative_index p -> f_input f' = f_input f -> f_first f' = f_first f -> follows (F :: H) f' p').
    { intros f' q' NF S' K1 K2 K3 K4 K5. split; [exact S'|]. rewrite K1, K2, K3, K4, K5.
      replace (freadings (F :: H)) with (freadings H); [exact Fo|]. destruct F; try reflexivity. now destruct (NF v). }
    destruct F as [x| | | | | | | | | |], o as [w| | | | | | | | | |]; try (destruct x; contradiction); try contradiction; cbn [clip pstep fstep alike] in *.
    + pose proof (run_inv N D HN HD _ _ Fit Rp) as (_ & R1 & R2 & _ & Hin & Hsp & _).
      pose proof (error_w B _ HB W) as E1. pose proof (error_w B _ HB W') as E2. destruct Fo as ((b & Fl & Rb) & Fi & Ff).
      destruct (sim_input N D k Hk f p w x p' b S Fl) as (f' & Rf' & S' & Fl' & Fi' & Ff' & Fx); auto.
      * rewrite setpoint_clip in Hsp. destruct x; try (left; exact Ho). right. split; [reflexivity|congruence].
      * rewrite Hin, Hsp, reading_clip, setpoint_clip. unfold error in E2. lia.
      * rewrite Hsp, setpoint_clip. change (error (Input w :: h)) with (setpoint h - w) in E1. lia.
      * apply R1.
      * exact (ring_index _ _ _ _ HN R1).
      * unfold zlen. rewrite (proj1 R2). exact (ring_index _ _ _ _ HD R2).
      * exists f', p'. split; [exact Rf'|]. split; [exact Rp'|]. split; [exact S'|]. split; [|split; [exact Fi'|exact Ff']].
        eexists. split; [exact Fl'|]. rewrite Fx. replace (first_value p) with (f_first f) by apply S. cbn [freadings tl].
        destruct (freadings H) as [|y r] eqn:Er.
        { rewrite Ff. cbn [Z.eqb]. cbn [map tl] in *. exact Rb. }
        { rewrite Ff. cbn [Z.eqb]. rewrite Fi. cbn [hd map tl] in *. apply ring_push; [exact HD|exact Rb]. }
    + do 2 eexists. split; [reflexivity|]. split; [reflexivity|]. apply Keep; try reflexivity; [discriminate|]. destruct S; constructor; cbn; auto.
    + do 2 eexists. split; [reflexivity|]. split; [reflexivity|]. apply Keep; try reflexivity; [discriminate|]. destruct S; constructor; cbn; auto; tauto.
    + do 2 eexists. split; [reflexivity|]. split; [reflexivity|]. apply Keep; try reflexivity; [discriminate|]. now apply sim_clear.
    + do 2 eexists. split; [reflexivity|]. split; [reflexivity|]. apply Keep; try reflexivity; [discriminate|]. destruct S; constructor; cbn; auto; tauto.
    + do 2 eexists. split; [reflexivity|]. split; [reflexivity|]. apply Keep; try reflexivity; [discriminate|]. inversion Fit' as [|? ? Q _]; subst. cbn [thresholds_fit] in Q. destruct Ho as [Ht ->].
      destruct S; constructor; cbn; auto. rewrite swrap_small by (change (2 ^ (32 - 1)) with 2147483648; unfold INT_MIN, INT_MAX in *; lia).
      eexists. split; [apply num_scale; [lia|]; apply num_of_int; exact Ht|reflexivity].
    + do 2 eexists. split; [reflexivity|]. split; [reflexivity|]. apply Keep; try reflexivity; [discriminate|]. destruct S; constructor; cbn; auto; tauto.
    + do 2 eexists. split; [reflexivity|]. split; [reflexivity|]. apply Keep; try reflexivity; [discriminate|]. inversion Fit' as [|? ? Q _]; subst. cbn [thresholds_fit] in Q. destruct Ho as [Ht ->].
      destruct S; constructor; cbn; auto. rewrite swrap_small by (change (2 ^ (32 - 1)) with 2147483648; unfold INT_MIN, INT_MAX in *; lia).
      eexists. split; [apply num_scale; [lia|]; apply num_of_int; exact Ht|reflexivity].
    + do 2 eexists. split; [reflexivity|]. split; [reflexivity|]. apply Keep; try reflexivity; [discriminate|]. destruct S; constructor; cbn; auto; tauto.
    + do 2 eexists. split; [reflexivity|]. split; [reflexivity|]. apply Keep; try reflexivity; [discriminate|]. destruct S; constructor; cbn; auto.
    + do 2 eexists. split; [reflexivity|]. split; [reflexivity|]. apply Keep; try reflexivity; [discriminate|]. destruct S; constructor; cbn; auto; tauto.
Qed.

Lemma nan_l : forall H h P I K q, -149 <= k - q -> Z.of_nat N * (2 * B) < 2 ^ 24 ->
  matches k H h -> Forall (within B) h -> scaled (gain_p h) P q -> scaled (gain_i h) I q -> scaled (gain_d h) K q ->
  let e := P * error h in let i := I * sum (firstn N (contributions N h)) in let d := K * difference D h in
  Z.abs e + Z.abs i + Z.abs d < 2 ^ 24 ->
  exists f fi fd r, frun N D H = Done f /\ fpid_compute_i N f = Done fi /\ worth fi i (k - q) /\ fpid_compute_d D f = Done fd /\ fpid_compute N D f = Done r /\
    let l := freadings H in
    (nth 0 l f0 = S754_nan -> fpid_compute_p f = S754_nan /\ r = S754_nan) /\
    (nth 0 l f0 <> S754_nan -> worth (fpid_compute_p f) e (k - q)) /\
    (nth 0 l f0 <> S754_nan -> nth (Nat.min D (length l - 1)) l f0 <> S754_nan -> worth fd d (k - q) /\ worth r (e + i + d) (k - q)).
Proof using HN HD Hk HB HB4.
  intros H h P I K q Hq HNB A W SP SI SK e i d Hs. assert (Ed : d = K * difference D h) by reflexivity. clearbody d.
  destruct (run_sim H h A W) as (f & p & Rf & Rp & S & (b & Fl & Rb) & Fin & _). pose proof (matches_fit _ _ A) as Fit. destruct (matches_length _ _ A) as [_ Len].
  pose proof (run_inv N D HN HD _ _ Fit Rp) as ((Gp & Gi & Gd) & R1 & R2 & Hn & Hin & Hsp & (_ & _ & Hdl) & _ & (_ & Hdt & _) & _).
  destruct (s_gains _ _ _ S) as (Fp & Fi & Fd). rewrite <- Fp, gain_p_clip in Gp. rewrite <- Fi, gain_i_clip in Gi. rewrite <- Fd, gain_d_clip in Gd.
  assert (HB2 : 2 * B < INT_MAX) by (unfold INT_MAX; lia).
  rewrite (contributions_clip N B) in R1 by auto. rewrite past_errors_clip in R2, Hn. rewrite deriv_limit_clip in Hdl. rewrite deriv_on_clip in Hdt.
  rewrite reading_clip in Hin. rewrite setpoint_clip in Hsp.
  pose proof (error_w B h HB W) as Be.
  assert (Ne : f_input f <> S754_nan -> num k (fpid_current_error f) (error h)).
  { intros NN. destruct (s_input _ _ _ S) as [Y|Y]; [contradiction|]. unfold fpid_current_error, F32, fsub, error. rewrite <- Hin, <- Hsp.
    apply num_sub; [apply S|exact Y|unfold error in Be; rewrite <- Hin, <- Hsp in Be; clear - Be HB4; lia|clear - Hk; lia]. }
  assert (NG : forall g G, scaled g G q -> num (- q) g G) by (intros g G (? & ? & _); split; assumption).
  assert (Np : f_input f <> S754_nan -> num (k - q) (fpid_compute_p f) e).
  { intros NN. specialize (Ne NN). unfold fpid_compute_p, F32, fmul, e. rewrite Gp. replace (k - q) with (- q + k) by lia. apply num_mul; auto; [clear - Hs; unfold e, i in *; lia|destruct SP as (_ & _ & ?); lia]. }
  assert (Ni : exists fi, fpid_compute_i N f = Done fi /\ num (k - q) fi i).
  { unfold fpid_compute_i. pose proof (contributions_within N D HN HD B h HB W) as Bc. pose proof (ring_bound N _ _ _ (2 * B) ltac:(lia) R1 Bc) as Bh.
    pose proof (forall2_len _ _ _ (s_history _ _ _ S)) as L. rewrite (proj1 R1) in L.
    destruct (floop_ok k (2 * B) (f_history f) (history p) [] f0 0) as (r & Hr & Nr); [lia|lia|apply S|exact Bh|apply num_zero|unfold zlen; rewrite L; change (Z.abs 0) with 0; lia|].
    rewrite L in Hr. unfold fadd_cell in Hr. cbn [app] in Hr. change (zlen []) with 0 in Hr. rewrite Hr. cbn [obind].
    rewrite (ring_sum _ _ _ _ R1), Z.add_0_l in Nr. eexists. split; [reflexivity|]. unfold F32, fmul, i. rewrite Gi, Z.mul_comm.
    replace (k - q) with (k + - q) by lia. apply num_mul; auto; [clear - Hs; unfold e, i in *; lia|destruct SI as (_ & _ & ?); lia]. }
  assert (Nd : exists fd, fpid_compute_d D f = Done fd /\
    (f_input f <> S754_nan -> nth (Nat.min D (length (freadings H) - 1)) (freadings H) f0 <> S754_nan -> num (k - q) fd d)).
  { unfold fpid_compute_d. rewrite (s_dsize _ _ _ S), Hn. rewrite Ed in Hs |- *. unfold difference in *. clear Ed. destruct (past_errors h) as [|a l] eqn:El.
    - unfold zlen. cbn [length]. replace (Z.min (Z.of_nat 0) (Z.of_nat D) =? 0) with true by lia. eexists. split; [reflexivity|]. intros _ _. rewrite Z.mul_0_r. apply num_zero.
    - rewrite <- El in *. assert (Hl : (0 < length (past_errors h))%nat) by (rewrite El; cbn; lia). clear El a l.
      pose proof (past_w B h HB W) as Bes. set (es := past_errors h) in *. clearbody es. unfold zlen.
      replace (Z.min (Z.of_nat (length es)) (Z.of_nat D) =? 0) with false by lia.
      set (last := if _ =? Z.of_nat D then f_dindex f else 0).
      pose proof (ring_index _ _ _ _ HD R2) as Hi. pose proof (fl_len _ _ _ _ Fl) as Ld. rewrite (proj1 R2) in Ld.
      assert (Hlast : 0 <= last < Z.of_nat D) by (unfold last; rewrite (s_dindex _ _ _ S); destruct (_ =? Z.of_nat D); lia).
      rewrite (zget_ok _ _ _ f0) by (unfold zlen; rewrite Ld; exact Hlast). cbn [obind].
      assert (Nx : nth (Nat.min D (length (freadings H) - 1)) (freadings H) f0 <> S754_nan ->
        num k (nth (Z.to_nat last) (f_dhistory f) f0) (nth (Nat.min D (length es) - 1) es 0)).
      { intros NN.
        replace (nth (Nat.min D (length es) - 1) es 0) with (nth (Z.to_nat last) (derivative_history p) 0).
        - apply (fl_cell _ _ _ _ Fl).
          assert (Hb : nth (Z.to_nat last) b 0 = nth (Nat.min D (length es) - 1) (map isnan (tl (freadings H))) 0).
          { unfold last. rewrite (s_dindex _ _ _ S). destruct (Z.eqb_spec (Z.min (Z.of_nat (length es)) (Z.of_nat D)) (Z.of_nat D)).
            + rewrite (ring_nth _ _ _ _ HD Rb). f_equal. clear - e0. lia.
            + change (Z.to_nat 0) with O. rewrite (ring_first _ _ _ _ HD Rb) by (rewrite map_length; clear - n Hl Len; lia). rewrite map_length, <- Len. f_equal. clear - n Hl. lia. }
          rewrite Hb. change 0 with (isnan f0). rewrite map_nth. destruct (freadings H) as [|y r]; cbn [tl length] in *; [lia|].
          replace (Nat.min D (Datatypes.S (length r) - 1)) with (Datatypes.S (Nat.min D (length es) - 1)) in NN by (clear - Len HD Hl; lia). cbn [nth] in NN.
          destruct (nth _ r f0); try reflexivity. now destruct NN.
        - unfold last. rewrite (s_dindex _ _ _ S). destruct (Z.eqb_spec (Z.min (Z.of_nat (length es)) (Z.of_nat D)) (Z.of_nat D)).
          + rewrite (ring_nth _ _ _ _ HD R2). f_equal. lia.
          + change (Z.to_nat 0) with O. rewrite (ring_first _ _ _ _ HD R2) by lia. f_equal. lia. }
      replace (f_dthr f) with (derivative_threshold p) by (symmetry; apply S). rewrite Hdt, negb_involutive.
      exists (if deriv_on h && SFltb (f_dlow f) (fABS (fpid_current_error f)) then f0
        else F32 (fmul (f_Kd f) (F32 (fsub (fpid_current_error f) (nth (Z.to_nat last) (f_dhistory f) f0))))).
      split; [destruct (deriv_on h && SFltb (f_dlow f) (fABS (fpid_current_error f))); reflexivity|]. intros NN NO. specialize (Ne NN). specialize (Nx NO).
      pose proof (num_ltb k _ _ _ _ (s_dlow _ _ _ S) (fabs_num k _ _ Ne)) as Hlt. rewrite Hdl in Hlt. rewrite Hlt.
      destruct (deriv_on h && (deriv_limit h <? Z.abs (error h))) eqn:Ec.
      + rewrite Z.mul_0_r. apply num_zero.
      + unfold F32, fmul, fsub. rewrite Gd. replace (k - q) with (- q + k) by lia. apply num_mul; auto; [|clear - Hs; lia|destruct SK as (_ & _ & ?); lia].
        apply num_sub; auto; [|lia]. assert (Bx : Z.abs (nth (Nat.min D (length es) - 1) es 0) <= 2 * B); [|clear - Bx Be HB4; lia].
        rewrite Forall_forall in Bes. apply Bes, nth_In. clear - HD Hl. lia. }
  destruct Ni as (fi & Ri & Ni), Nd as (fd & Rd & Nd). exists f, fi, fd. unfold fpid_compute. rewrite Ri, Rd. cbn [obind]. eexists.
  split; [exact Rf|]. split; [reflexivity|]. split; [apply Ni|]. split; [reflexivity|]. split; [reflexivity|].
  assert (E0 : nth 0 (freadings H) f0 = f_input f) by (rewrite Fin; destruct (freadings H); reflexivity). cbv zeta. rewrite E0.
  split; [|split; [intros NN; apply Np; exact NN|]].
  - intros Y. assert (Pn : fpid_compute_p f = S754_nan).
    { unfold fpid_compute_p, fpid_current_error, F32, fmul, fsub. rewrite Y. replace (SFsub 24 128 (f_sp f) S754_nan) with S754_nan by (destruct (f_sp f); reflexivity).
      destruct (f_Kp f); reflexivity. }
    split; [exact Pn|]. rewrite Pn. reflexivity.
  - intros NN NO. specialize (Np NN). specialize (Nd NN NO). split; [apply Nd|].
    unfold F32, fadd. assert (-149 <= k - q <= 104) by (destruct SP as (_ & _ & ?); lia). apply num_add; [apply num_add| | |]; auto; lia.
Qed.

Lemma alike_matches : forall H h, Forall2 (alike k) H h -> matches k H h /\ Forall (fun x => x <> S754_nan) (freadings H).
Proof using HN HD Hk.
  intros H h A. induction A as [|F o H h Ho A [IH1 IH2]]; [split; [exact Logic.I|constructor]|].
  split; [split; [|exact IH1]|].
  - destruct F as [[]| | | | | | | | | |], o; try exact Ho. destruct Ho as [_ Ho]. contradiction.
  - destruct F; try exact IH2. constructor; [|exact IH2]. intros ->. destruct o; try contradiction. destruct Ho as [_ Ho]. contradiction.
Qed.

Lemma exact_l : forall H h P I K q, -149 <= k - q -> Z.of_nat N * (2 * B) < 2 ^ 24 ->
  Forall2 (alike k) H h -> Forall (within B) h -> scaled (gain_p h) P q -> scaled (gain_i h) I q -> scaled (gain_d h) K q ->
  let e := P * error h in let i := I * sum (firstn N (contributions N h)) in let d := K * difference D h in
  Z.abs e + Z.abs i + Z.abs d < 2 ^ 24 ->
  exists f fi fd r, frun N D H = Done f /\ worth (fpid_compute_p f) e (k - q) /\ fpid_compute_i N f = Done fi /\ worth fi i (k - q) /\
    fpid_compute_d D f = Done fd /\ worth fd d (k - q) /\ fpid_compute N D f = Done r /\ worth r (e + i + d) (k - q).
Proof using HN HD Hk HB HB4.
  intros H h P I K q Hq HNB A W SP SI SK e i d Hs. destruct (alike_matches _ _ A) as [M NN].
  destruct (nan_l H h P I K q Hq HNB M W SP SI SK Hs) as (f & fi & fd & r & R1 & R2 & R3 & R4 & R5 & _ & R6 & R7).
  assert (Q : forall j, nth j (freadings H) f0 <> S754_nan).
  { intros j. destruct (nth_in_or_default j (freadings H) f0) as [I1| ->]; [|discriminate]. rewrite Forall_forall in NN. now apply NN. }
  specialize (R6 (Q 0%nat)). destruct (R7 (Q _) (Q _)) as [R8 R9]. exists f, fi, fd, r. auto 10.
Qed.

End Runs.

(** * Any history *)

Section Any.
Variables N D : nat.
Hypothesis HN : (0 < N)%nat.
Hypothesis HD : (0 < D)%nat.

Definition fwell (f : fpid) : Prop :=
  length (f_history f) = N /\ 0 <= f_index f < Z.of_nat N /\ length (f_dhistory f) = D /\ 0 <= f_dindex f < Z.of_nat D /\ 0 <= f_dsize f <= Z.of_nat D.

(** The controller when it is about to store the error. *)
Definition facing (f : fpid) (v : spec_float) : fpid :=
  let g := fset_input f v in
  let e := fpid_current_error g in
  let s := if SFltb f0 e then 1 else if SFltb e f0 then -1 else f_sign g in
  if f_sign g =? s then g else if f_auto f =? 0 then fset_sign g s else fpid_clear_integral_history N (fset_sign g s).

Lemma input_shape : forall f v, fwell f -> exists h f', fstore_error (facing f v) (F32 (fsub (f_sp f) v)) = Done h /\ fpid_add_input N D f v = Done f' /\ fwell f' /\
  f_history f' = h /\ f_index f' = (f_index (facing f v) + 1) mod Z.of_nat N /\ f_sp f' = f_sp f /\ f_Ki f' = f_Ki f /\ fwell (facing f v).
Proof using HN HD.
  intros f v (W1 & W2 & W3 & W4 & W5). unfold fpid_add_input. cbv zeta.
  change (fpid_current_error (fset_input f v)) with (F32 (fsub (f_sp f) v)).
  set (e := F32 (fsub (f_sp f) v)). set (oe := fpid_current_error f). clearbody oe.
  set (s := if SFltb f0 e then 1 else _).
  change (if f_sign (fset_input f v) =? s then fset_input f v
    else if f_auto (fset_sign (fset_input f v) s) =? 0 then fset_sign (fset_input f v) s else fpid_clear_integral_history N (fset_sign (fset_input f v) s)) with (facing f v).
  assert (Wg : fwell (facing f v) /\ f_sp (facing f v) = f_sp f /\ f_Ki (facing f v) = f_Ki f).
  { unfold facing. cbv zeta. set (t := if SFltb f0 _ then 1 else _). destruct (f_sign (fset_input f v) =? t); [cbn; unfold fwell; cbn; tauto|].
    destruct (f_auto f =? 0); [cbn; unfold fwell; cbn; tauto|]. unfold fwell. cbn. rewrite repeat_length. split; [|split; reflexivity]. repeat split; try lia; tauto. }
  destruct Wg as [Wg [Eg Eki]]. set (g := facing f v) in *. clearbody g e s. pose proof Wg as (G1 & G2 & G3 & G4 & G5).
  assert (Hs : exists h, fstore_error g e = Done h /\ length h = N).
  { unfold fstore_error. assert (Hz : forall x, exists h, zset (f_history g) (f_index g) x = Done h /\ length h = N).
    { intros x. rewrite zset_ok by (unfold zlen; lia). eexists. split; [reflexivity|]. now rewrite upd_length. }
    repeat match goal with |- context [if ?c then _ else _] => destruct c end; auto. eauto. }
  destruct Hs as (h & Hs & Lh). exists h. rewrite Hs. cbn [obind].
  assert (Hm : 0 <= (f_index g + 1) mod Z.of_nat N < Z.of_nat N) by (apply Z.mod_pos_bound; lia).
  cbn [fset_history f_first]. destruct (f_first g =? 0).
  - eexists. split; [reflexivity|]. split; [reflexivity|]. unfold fwell. cbn. repeat split; try lia; auto; tauto.
  - cbn [fset_history f_dhistory f_dindex]. rewrite zset_ok by (unfold zlen; lia). cbn [obind]. eexists. split; [reflexivity|]. split; [reflexivity|].
    assert (Hd : 0 <= (f_dindex g + 1) mod Z.of_nat D < Z.of_nat D) by (apply Z.mod_pos_bound; lia).
    unfold fwell. cbn. rewrite upd_length. repeat split; try lia; auto; try tauto.
    + destruct (f_dsize g <? Z.of_nat D); lia.
    + destruct (Z.ltb_spec (f_dsize g) (Z.of_nat D)); lia.
Qed.

Lemma any_run : forall H, exists f, frun N D H = Done f /\ fwell f /\ f_sp f = fsetpoint H /\ f_Ki f = fgain_i H.
Proof using HN HD.
  induction H as [|o H (f & R & W & E & Ek)].
  - exists (fpid_init N D). split; [reflexivity|]. split; [|split; reflexivity]. unfold fwell. cbn. rewrite !repeat_length. repeat split; lia.
  - cbn [frun]. rewrite R. cbn [obind]. destruct o; cbn [fstep fsetpoint fgain_i]; try (eexists; split; [reflexivity|]; split; [exact W|split; [exact E || reflexivity|exact Ek || reflexivity]]).
    + destruct (input_shape f v W) as (h & f' & _ & Rf & W' & _ & _ & E' & Ek' & _). exists f'. rewrite E', Ek'. auto.
    + eexists. split; [reflexivity|]. split; [|split; [exact E|exact Ek]]. destruct W as (W1 & W2 & W3 & W4 & W5). unfold fwell. cbn. rewrite repeat_length. repeat split; try lia; tauto.
Qed.

Lemma floop_total : forall l n i acc, 0 <= i -> i + Z.of_nat n <= zlen l -> exists r, for_up n i (fadd_cell l) acc = Done r.
Proof.
  intros l n. induction n as [|n IH]; intros i acc Hi Hn; cbn [for_up]; [eauto|]. unfold fadd_cell at 1. rewrite (zget_ok _ _ _ f0) by lia. cbn [obind]. apply IH; lia.
Qed.

Lemma compute_total : forall f, fwell f -> exists i d r, fpid_compute_i N f = Done i /\ fpid_compute_d D f = Done d /\ fpid_compute N D f = Done r.
Proof using HN HD.
  intros f (W1 & W2 & W3 & W4 & W5).
  assert (Hi : exists i, fpid_compute_i N f = Done i).
  { unfold fpid_compute_i. destruct (floop_total (f_history f) N 0 f0) as (r & Hr); [lia|unfold zlen; lia|]. unfold fadd_cell in Hr. rewrite Hr. cbn [obind]. eauto. }
  assert (Hd : exists d, fpid_compute_d D f = Done d).
  { unfold fpid_compute_d. cbv zeta. destruct (f_dsize f =? 0); [eauto|]. rewrite (zget_ok _ _ _ f0) by (unfold zlen; destruct (_ =? _); lia). cbn [obind].
    destruct (_ && _); eauto. }
  destruct Hi as (i & Hi), Hd as (d & Hd). exists i, d. unfold fpid_compute. rewrite Hi, Hd. cbn [obind]. eauto.
Qed.

Lemma total_l : forall H, exists f i d r, frun N D H = Done f /\ fpid_compute_i N f = Done i /\ fpid_compute_d D f = Done d /\ fpid_compute N D f = Done r.
Proof using HN HD.
  intros H. destruct (any_run H) as (f & R & W & _). destruct (compute_total f W) as (i & d & r & Hs). exists f, i, d, r. auto.
Qed.

(** * Readings off target clear the integral of everything else *)

Variables k E : Z.
Hypothesis HE : 0 <= E.

Definition fits (x : spec_float) : Prop := exists a, num k x a /\ Z.abs a <= E.

(** The newest [c] cells of the history are numbers of the size expected. *)
Definition fresh (c : nat) (f : fpid) : Prop :=
  exists b cs, ring N (f_index f) b cs /\ (forall i, nth i b 0 = 0 -> fits (nth i (f_history f) f0)) /\ (forall j, (j < c)%nat -> nth j cs 0 = 0).

Lemma fits_zero : fits f0.
Proof using HE. exists 0. split; [apply num_zero|exact HE]. Qed.

Lemma fresh_0 : forall f, fwell f -> fresh 0 f.
Proof using HN HD HE.
  intros f (W1 & W2 & _). exists (repeat 1 N), (repeat 1 (N + Z.to_nat (f_index f))). split; [|split; [|intros j Hj; lia]].
  - split; [apply repeat_length|]. unfold zlen. rewrite repeat_length. split.
    + rewrite Nat2Z.inj_add, Z2Nat.id by lia. rewrite Z.add_mod, Z.mod_same, Z.add_0_l, !Z.mod_mod, Z.mod_small by lia. reflexivity.
    + assert (Q : forall l, (forall x, In x l -> x = 1) -> l = repeat 1 (length l)).
      { intros l. induction l as [|a l IH]; intros Hl; [reflexivity|]. cbn. f_equal; [apply Hl; now left|apply IH; intros x Hx; apply Hl; now right]. }
      rewrite (Q (rot _ _)), (Q (rev _)).
      * f_equal. rewrite rev_length, window_length. unfold rot. rewrite app_length, skipn_length, firstn_length, repeat_length. lia.
      * intros x Hx. apply in_rev in Hx. unfold window in Hx. rewrite repeat_app, <- app_assoc, firstn_app, repeat_length, Nat.sub_diag in Hx. cbn [firstn] in Hx.
        rewrite app_nil_r, firstn_all2 in Hx by (rewrite repeat_length; lia). now apply repeat_spec in Hx.
      * intros x Hx. unfold rot in Hx. apply in_app_or in Hx. apply (repeat_spec N). rewrite <- (firstn_skipn (Z.to_nat (f_index f)) (repeat 1 N)). apply in_or_app. tauto.
  - intros i Hi. destruct (Nat.lt_ge_cases i N).
    + assert (nth i (repeat 1 N) 0 = 1); [|lia]. rewrite (nth_indep _ 0 1) by (rewrite repeat_length; lia). apply nth_repeat.
    + rewrite nth_overflow by lia. apply fits_zero.
Qed.

Lemma fresh_clear : forall c f, fresh c (fpid_clear_integral_history N f).
Proof using HN HD HE.
  intros c f. exists (repeat 0 N), []. split; [apply ring_init; exact HN|]. split; [|intros j _; destruct j; reflexivity].
  intros i _. cbn. replace (nth i (repeat f0 N) f0) with f0 by (symmetry; apply nth_repeat). apply fits_zero.
Qed.

Lemma fresh_facing : forall c f v, fresh c f -> fresh c (facing f v).
Proof using HN HD HE.
  intros c f v F. unfold facing. cbv zeta. set (t := if SFltb f0 _ then 1 else _). destruct (f_sign (fset_input f v) =? t); [exact F|].
  destruct (f_auto f =? 0); [exact F|apply fresh_clear].
Qed.

Lemma fresh_input : forall c f v f' a, fwell f -> fresh c f -> num k (SFsub 24 128 (f_sp f) v) a -> 0 < Z.abs a <= E -> fpid_add_input N D f v = Done f' -> fresh (Datatypes.S c) f'.
Proof using HN HD HE.
  intros c f v f' a W F Na Ha R. destruct (input_shape f v W) as (h & f2 & Hs & R2 & _ & Hh & Hi & _ & _ & Wg).
  rewrite R in R2. injection R2 as <-. apply (fresh_facing c f v) in F. set (g := facing f v) in *. clearbody g. clear R W.
  destruct Wg as (G1 & G2 & _). destruct F as (b & cs & Rb & Fb & Fc).
  assert (Hx : exists x, h = upd (f_history g) (Z.to_nat (f_index g)) x /\ fits x).
  { unfold fstore_error, F32, fsub in Hs. set (x := SFsub 24 128 (f_sp f) v) in *. clearbody x.
    rewrite (num_ltb k f0 x 0 a (num_zero k false) Na), (num_ltb k x f0 a 0 Na (num_zero k false)) in Hs.
    assert (Fx : fits x) by (exists a; split; [exact Na|lia]). pose proof fits_zero as F0.
    rewrite !zset_ok in Hs by (unfold zlen; lia).
    destruct (Z.ltb_spec 0 a); [destruct (_ || _); injection Hs as <-; eauto|].
    destruct (Z.ltb_spec a 0); [destruct (_ || _); injection Hs as <-; eauto|lia]. }
  destruct Hx as (x & -> & Fx). exists (upd b (Z.to_nat (f_index g)) 0), (0 :: cs). rewrite Hi, Hh. split; [apply ring_push; [exact HN|exact Rb]|].
  pose proof (proj1 Rb) as Lb. split.
  - intros i. rewrite !nth_upd by lia. destruct (Nat.eqb i _); [intros _; exact Fx|apply Fb].
  - intros [|j] Hj; [reflexivity|]. cbn [nth]. apply Fc. lia.
Qed.

Lemma off_target_fresh : forall H n f, off_target k E n H -> frun N D H = Done f -> fresh n f.
Proof using HN HD HE.
  induction H as [|o H IH]; intros n f O R.
  - destruct n; [|contradiction]. injection R as <-. apply fresh_0. destruct (any_run []) as (f & R & W & _). injection R as <-. exact W.
  - destruct n as [|n]; [apply fresh_0; destruct (any_run (o :: H)) as (g & R' & W & _); rewrite R in R'; injection R' as <-; exact W|].
    destruct (any_run H) as (g & Rg & W & Eg & _). cbn [frun] in R. rewrite Rg in R. cbn [obind] in R.
    destruct o; cbn [off_target fstep] in *; try (injection R as <-; exact (IH _ _ O Rg)).
    + destruct O as ((a & Na & Ha) & O). rewrite <- Eg in Na. exact (fresh_input n g v f a W (IH _ _ O Rg) Na Ha R).
    + injection R as <-. apply fresh_clear.
Qed.

Lemma fresh_all : forall f, fwell f -> fresh N f -> Forall fits (f_history f).
Proof using HN HD HE.
  intros f (W1 & W2 & _) (b & cs & Rb & Fb & Fc). apply Forall_forall. intros x Hx. destruct (In_nth _ _ f0 Hx) as (i & Hi & <-). apply Fb.
  destruct Rb as (Lb & _ & Hr).
  assert (Z : forall y, In y (rot b (Z.to_nat (f_index f))) -> y = 0).
  { intros y Hy. rewrite Hr in Hy. apply in_rev in Hy. destruct (In_nth _ _ 0 Hy) as (j & Hj & <-). rewrite window_length in Hj. rewrite window_nth by exact Hj. now apply Fc. }
  apply Z. unfold rot. apply in_or_app. assert (Q : In (nth i b 0) b) by (apply nth_In; lia). generalize dependent (nth i b 0). intros y Q.
  rewrite <- (firstn_skipn (Z.to_nat (f_index f)) b) in Q. apply in_app_or in Q. tauto.
Qed.

Lemma recovers_l : forall H I q, -149 <= k <= 104 -> -149 <= k - q <= 104 -> Z.of_nat N * E < 2 ^ 24 -> Z.abs I * (Z.of_nat N * E) < 2 ^ 24 ->
  off_target k E N H -> scaled (fgain_i H) I q ->
  exists f i s, frun N D H = Done f /\ fpid_compute_i N f = Done i /\ worth i (I * s) (k - q) /\ Z.abs s <= Z.of_nat N * E.
Proof using HN HD HE.
  intros H I q Hk Hq B1 B2 O G. destruct (any_run H) as (f & R & W & _ & Ek). rewrite <- Ek in G. pose proof (fresh_all f W (off_target_fresh H N f O R)) as A.
  assert (L : exists l, Forall2 (num k) (f_history f) l /\ Forall (fun x => Z.abs x <= E) l).
  { clear - A. induction A as [|x l (a & Na & Ha) A (l' & IH1 & IH2)]; [exists []; split; constructor|]. exists (a :: l'). split; constructor; assumption. }
  destruct L as (l & L1 & L2). destruct W as (W1 & _).
  destruct (floop_ok k E (f_history f) l [] f0 0) as (r & Hr & Nr); auto; [apply num_zero|unfold zlen; rewrite W1; change (Z.abs 0) with 0; lia|].
  exists f. rewrite W1 in Hr. unfold fadd_cell in Hr. cbn [app] in Hr. change (zlen []) with 0 in Hr. unfold fpid_compute_i. rewrite Hr. cbn [obind].
  assert (Hsum : Z.abs (sum l) <= Z.of_nat N * E).
  { rewrite <- W1, (forall2_len _ _ _ L1). clear - L2. induction L2 as [|x l Hx L2 IH]; [cbn; lia|]. unfold sum in *. cbn [fold_right length]. rewrite Nat2Z.inj_succ. lia. }
  eexists. exists (sum l). split; [exact R|]. split; [reflexivity|]. split; [|exact Hsum].
  rewrite Z.add_0_l in Nr. destruct G as (G1 & G2 & G3). unfold F32, fmul. rewrite Z.mul_comm. replace (k - q) with (k + - q) by lia.
  apply num_mul; [exact Nr|split; assumption| |lia]. rewrite Z.abs_mul. clear - Hsum B2. nia.
Qed.

End Any.
