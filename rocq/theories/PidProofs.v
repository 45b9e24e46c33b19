From Coq Require Import ZifyBool Floats.SpecFloat.
From Verif Require Import Base BaseLemmas Loop Float FloatProofs FloatSpec FloatExact PidModel PidSpec PidSystem.
From Coq Require Import Zquot.

(** * Numbers *)

Lemma trunc_part : forall x z, trunc x = Some z <-> integer_part x z.
Proof.
  intros x z. destruct x as [s|s| |s m e]; cbn [trunc integer_part].
  - split; [intros H; injection H; auto|intros ->; reflexivity].
  - split; [discriminate|contradiction].
  - split; [discriminate|contradiction].
  - set (a := if 0 <=? e then Zpos m * 2 ^ e else Zpos m / 2 ^ (- e)).
    assert (Ha : 0 <= a /\ a * 2 ^ Z.max 0 (- e) <= Zpos m * 2 ^ Z.max 0 e < (a + 1) * 2 ^ Z.max 0 (- e)).
    { unfold a. destruct (Z.leb_spec 0 e).
      - rewrite (Z.max_l 0 (- e)), (Z.max_r 0 e) by lia. change (2 ^ 0) with 1. assert (0 < 2 ^ e) by (apply Z.pow_pos_nonneg; lia). nia.
      - rewrite (Z.max_r 0 (- e)), (Z.max_l 0 e) by lia. change (2 ^ 0) with 1. assert (H2 : 0 < 2 ^ (- e)) by (apply Z.pow_pos_nonneg; lia).
        generalize dependent (2 ^ (- e)). intros q _ Hq. pose proof (Z.div_mod (Z.pos m) q ltac:(lia)). pose proof (Z.mod_pos_bound (Z.pos m) q Hq).
        pose proof (Z.div_pos (Z.pos m) q ltac:(lia) Hq). nia. }
    clearbody a. split.
    + intros H. injection H as <-. exists a. split; [tauto|]. split; [reflexivity|tauto].
    + intros (a' & H1 & -> & H2). assert (a' = a); [|subst; reflexivity].
      destruct Ha as [_ Ha]. assert (0 < 2 ^ Z.max 0 (- e)) by (apply Z.pow_pos_nonneg; lia). nia.
Qed.

Lemma times_l : forall k x r, INT_MIN <= r <= INT_MAX -> (times k x = Done r <-> gain k x r).
Proof.
  intros k x r Hr. unfold times, to_int, gain, F32, fmul, of_int. rewrite <- trunc_part.
  destruct (trunc _) as [z|]; [|split; discriminate].
  destruct ((INT_MIN <=? z) && (z <=? INT_MAX)) eqn:E; split; intros H; try discriminate; injection H as <-; try reflexivity. lia.
Qed.

Lemma int_op_l : forall x y, int_op x = Done y -> y = x /\ INT_MIN <= x <= INT_MAX.
Proof. unfold int_op. intros x y H. destruct ((INT_MIN <=? x) && (x <=? INT_MAX)) eqn:E; [|discriminate]. injection H as <-. lia. Qed.

Lemma int_op_ok : forall x, INT_MIN <= x <= INT_MAX -> int_op x = Done x.
Proof. unfold int_op. intros x H. destruct ((INT_MIN <=? x) && (x <=? INT_MAX)) eqn:E; [reflexivity|lia]. Qed.

Lemma ABS_l : forall x y, ABS x = Done y -> y = Z.abs x.
Proof. unfold ABS. intros x y H. destruct (Z.ltb_spec 0 x); [injection H as <-; lia|]. apply int_op_l in H. lia. Qed.

Lemma ABS_ok : forall x, - INT_MAX <= x <= INT_MAX -> ABS x = Done (Z.abs x).
Proof. unfold ABS. intros x H. destruct (Z.ltb_spec 0 x); [f_equal; lia|]. rewrite int_op_ok by (unfold INT_MIN, INT_MAX in *; lia). f_equal. lia. Qed.

(** * Rings *)

Definition rot (l : list Z) (i : nat) : list Z := skipn i l ++ firstn i l.

Definition window (n : nat) (cs : list Z) : list Z := firstn n (cs ++ repeat 0 n).

(** The ring [l] with index [i] holds the newest of [cs]. *)
Definition ring (n : nat) (i : Z) (l cs : list Z) : Prop :=
  length l = n /\ i = zlen cs mod Z.of_nat n /\ rot l (Z.to_nat i) = rev (window n cs).

Lemma window_length : forall n cs, length (window n cs) = n.
Proof. intros n cs. unfold window. rewrite firstn_length, app_length, repeat_length. lia. Qed.

Lemma window_nth : forall n cs j, (j < n)%nat -> nth j (window n cs) 0 = nth j cs 0.
Proof.
  intros n cs j H. unfold window. rewrite <- (firstn_skipn n (cs ++ repeat 0 n)) at 1.
  assert (nth j (firstn n (cs ++ repeat 0 n)) 0 = nth j (cs ++ repeat 0 n) 0).
  { rewrite <- (firstn_skipn n (cs ++ repeat 0 n)) at 2. rewrite app_nth1; [reflexivity|]. rewrite firstn_length, app_length, repeat_length. lia. }
  rewrite firstn_skipn, H0. destruct (Nat.lt_ge_cases j (length cs)); [now apply app_nth1|]. rewrite app_nth2, nth_repeat by lia. symmetry. now apply nth_overflow.
Qed.

Lemma window_cons : forall n cs x, (0 < n)%nat -> exists y, window n cs = firstn (n - 1) (window n cs) ++ [y] /\ window n (x :: cs) = x :: firstn (n - 1) (window n cs) /\ y = nth (n - 1) cs 0.
Proof.
  intros n cs x Hn. exists (nth (n - 1) cs 0). split; [|split; [|reflexivity]].
  - rewrite <- (window_nth n) by lia. pose proof (window_length n cs) as Hl. rewrite <- (firstn_skipn (n - 1) (window n cs)) at 1. f_equal.
    destruct (skipn (n - 1) (window n cs)) as [|y [|z r]] eqn:E.
    + apply (f_equal (@length Z)) in E. rewrite skipn_length in E. cbn in E. lia.
    + f_equal. rewrite <- (firstn_skipn (n - 1) (window n cs)), E, app_nth2; rewrite firstn_length; [|lia].
      replace (n - 1 - Nat.min (n - 1) (length (window n cs)))%nat with O by lia. reflexivity.
    + apply (f_equal (@length Z)) in E. rewrite skipn_length in E. cbn in E. lia.
  - unfold window. destruct n as [|n]; [lia|]. change (firstn (S n) ((x :: cs) ++ repeat 0 (S n))) with (x :: firstn n (cs ++ repeat 0 (S n))). f_equal.
    replace (S n - 1)%nat with n by lia. rewrite firstn_firstn, Nat.min_l by lia. reflexivity.
Qed.

Lemma ring_index : forall n i l cs, (0 < n)%nat -> ring n i l cs -> 0 <= i < Z.of_nat n.
Proof. intros n i l cs Hn (_ & -> & _). apply Z.mod_pos_bound. lia. Qed.

Lemma ring_nth : forall n i l cs, (0 < n)%nat -> ring n i l cs -> nth (Z.to_nat i) l 0 = nth (n - 1) cs 0.
Proof.
  intros n i l cs Hn R. pose proof (ring_index n i l cs Hn R) as Hi. destruct R as (Hl & _ & Hr).
  destruct (window_cons n cs 0 Hn) as (y & Hw & _ & Hy). rewrite Hw, rev_app_distr in Hr. cbn [rev app] in Hr. unfold rot in Hr.
  rewrite <- (firstn_skipn (Z.to_nat i) l), app_nth2; rewrite firstn_length; [|lia].
  replace (Z.to_nat i - Nat.min (Z.to_nat i) (length l))%nat with O by lia.
  destruct (skipn (Z.to_nat i) l) as [|a r] eqn:E; [apply (f_equal (@length Z)) in E; rewrite skipn_length in E; cbn in E; lia|].
  cbn [app nth] in *. congruence.
Qed.

Lemma upd_split : forall (l : list Z) k x, (k < length l)%nat -> upd l k x = firstn k l ++ x :: skipn (S k) l.
Proof. induction l as [|a l IH]; intros [|k] x Hk; cbn in Hk; try lia; [reflexivity|]. cbn [upd firstn app]. f_equal. apply IH. lia. Qed.

Lemma skipn_cons : forall (l : list Z) k, (k < length l)%nat -> skipn k l = nth k l 0 :: skipn (S k) l.
Proof. induction l as [|a l IH]; intros [|k] Hk; cbn in Hk; try lia; [reflexivity|]. cbn [skipn nth]. apply IH. lia. Qed.

Lemma ring_push : forall n i l cs x, (0 < n)%nat -> ring n i l cs -> ring n ((i + 1) mod Z.of_nat n) (upd l (Z.to_nat i) x) (x :: cs).
Proof.
  intros n i l cs x Hn R. pose proof (ring_index n i l cs Hn R) as Hi. destruct R as (Hl & Hmod & Hr).
  destruct (window_cons n cs x Hn) as (y & Hw & Hw' & _). split; [now rewrite upd_length|]. split.
  - rewrite Hmod. unfold zlen. cbn [length]. rewrite Zplus_mod_idemp_l. f_equal. lia.
  - rewrite Hw'. cbn [rev]. rewrite Hw, rev_app_distr in Hr. cbn [rev app] in Hr. unfold rot in *.
    assert (Hm : (i + 1) mod Z.of_nat n = if i + 1 =? Z.of_nat n then 0 else i + 1).
    { destruct (Z.eqb_spec (i + 1) (Z.of_nat n)) as [->|]; [apply Z.mod_same; lia|apply Z.mod_small; lia]. }
    rewrite Hm. clear Hm Hmod Hw Hw'.
    set (k := Z.to_nat i) in *. assert (Hk : (k < length l)%nat) by lia.
    assert (Hu : upd l k x = firstn k l ++ x :: skipn (S k) l).
    { now apply upd_split. }
    assert (Hs : skipn k l = nth k l 0 :: skipn (S k) l).
    { now apply skipn_cons. }
    rewrite Hs in Hr. cbn [app] in Hr. injection Hr as _ Hr. change (skipn (S k) l ++ firstn k l = rev (firstn (n - 1) (window n cs))) in Hr. rewrite <- Hr. rewrite Hu.
    assert (Hf : length (firstn k l) = k) by (rewrite firstn_length; lia).
    destruct (Z.eqb_spec (i + 1) (Z.of_nat n)).
    + rewrite (skipn_all2 l (n := S k)) by lia. cbn [Z.to_nat skipn firstn app]. now rewrite app_nil_r.
    + replace (Z.to_nat (i + 1)) with (S k) by lia. rewrite skipn_app, firstn_app, Hf.
      replace (S k - k)%nat with 1%nat by lia. rewrite (skipn_all2 (firstn k l)) by lia. rewrite (firstn_all2 (firstn k l)) by lia.
      change (skipn 1 (x :: skipn (S k) l)) with (skipn (S k) l). change (firstn 1 (x :: skipn (S k) l)) with [x].
      cbn [app]. rewrite app_assoc. reflexivity.
Qed.

Lemma upd_same : forall (l : list Z) i, upd l i (nth i l 0) = l.
Proof. induction l as [|a l IH]; intros [|i]; cbn; try reflexivity. now rewrite IH. Qed.

Lemma ring_init : forall n, (0 < n)%nat -> ring n 0 (repeat 0 n) [].
Proof.
  intros n Hn. split; [apply repeat_length|]. split; [symmetry; apply Z.mod_0_l; lia|]. unfold rot, window. cbn [Z.to_nat skipn firstn app].
  rewrite app_nil_r, firstn_all2 by (rewrite repeat_length; lia). clear. induction n as [|n IH]; [reflexivity|]. cbn [repeat rev]. rewrite <- IH. apply repeat_cons.
Qed.

(** The first cell of a ring which is not full. *)
Lemma ring_first : forall n i l cs, (0 < n)%nat -> ring n i l cs -> (0 < length cs < n)%nat -> nth 0 l 0 = nth (length cs - 1) cs 0.
Proof.
  intros n i l cs Hn R Hc. destruct R as (Hl & Hi & Hr). unfold zlen in Hi. rewrite Z.mod_small in Hi by lia. subst i. rewrite Nat2Z.id in Hr.
  apply (f_equal (fun x => nth (n - length cs) x 0)) in Hr. rewrite rev_nth in Hr; rewrite window_length in *; [|lia].
  replace (n - S (n - length cs))%nat with (length cs - 1)%nat in Hr by lia. rewrite window_nth in Hr by lia. rewrite <- Hr.
  unfold rot. rewrite app_nth2; rewrite skipn_length; [|lia]. replace (n - length cs - (length l - length cs))%nat with O by lia.
  destruct l as [|a l]; [cbn in Hl; lia|]. destruct (length cs); [lia|reflexivity].
Qed.

Lemma sum_app : forall a b, sum (a ++ b) = sum a + sum b.
Proof. unfold sum. induction a as [|x a IH]; intros b; cbn; [lia|]. rewrite IH. lia. Qed.

Lemma sum_rev : forall a, sum (rev a) = sum a.
Proof. induction a as [|x a IH]; [reflexivity|]. cbn [rev]. rewrite sum_app, IH. unfold sum. cbn. lia. Qed.

Lemma sum_zeros : forall n, sum (repeat 0 n) = 0.
Proof. induction n; [reflexivity|]. unfold sum in *. cbn. lia. Qed.

Lemma sum_firstn_zeros : forall n m, sum (firstn n (repeat 0 m)) = 0.
Proof. induction n as [|n IH]; intros [|m]; try reflexivity. cbn [repeat firstn]. change (0 + sum (firstn n (repeat 0 m)) = 0). rewrite IH. reflexivity. Qed.

Lemma window_sum : forall n cs, sum (window n cs) = sum (firstn n cs).
Proof. intros n cs. unfold window. rewrite firstn_app, sum_app, sum_firstn_zeros. lia. Qed.

Lemma ring_sum : forall n i l cs, ring n i l cs -> sum l = sum (firstn n cs).
Proof.
  intros n i l cs (_ & _ & Hr). rewrite <- window_sum, <- (sum_rev (window n cs)), <- Hr. unfold rot. rewrite sum_app.
  rewrite <- (firstn_skipn (Z.to_nat i) l) at 1. rewrite sum_app. lia.
Qed.

Lemma ring_bound : forall n i l cs B, 0 <= B -> ring n i l cs -> Forall (fun x => Z.abs x <= B) cs -> Forall (fun x => Z.abs x <= B) l.
Proof.
  intros n i l cs B HB (_ & _ & Hr) H.
  assert (Hw : Forall (fun x => Z.abs x <= B) (rev (window n cs))).
  { apply Forall_rev. unfold window. rewrite Forall_forall. intros x Hx. rewrite firstn_app in Hx. apply in_app_iff in Hx. destruct Hx as [Hx|Hx].
    - rewrite Forall_forall in H. apply H. rewrite <- (firstn_skipn n cs). apply in_app_iff. now left.
    - assert (Hx' : In x (repeat 0 n)) by (rewrite <- (firstn_skipn (n - length cs) (repeat 0 n)); apply in_app_iff; now left).
      apply repeat_spec in Hx'. subst. cbn. lia. }
  rewrite <- Hr in Hw. unfold rot in Hw. apply Forall_app in Hw. rewrite <- (firstn_skipn (Z.to_nat i) l). apply Forall_app. tauto.
Qed.

(** * The loop of pid_compute_i *)

Definition add_cell (l : list Z) (acc i : Z) : outcome Z := do x <- zget l i; int_op (acc + x).

Lemma loop_done : forall rest done acc r, for_up (length rest) (zlen done) (add_cell (done ++ rest)) acc = Done r -> r = acc + sum rest.
Proof.
  induction rest as [|x rest IH]; intros done acc r H; cbn [length for_up] in H.
  - injection H as <-. cbn. lia.
  - unfold add_cell at 1 in H. rewrite (zget_ok _ _ _ 0) in H by (unfold zlen; rewrite app_length; cbn [length]; lia).
    unfold zlen in H at 1. rewrite Nat2Z.id, app_nth2, Nat.sub_diag in H by lia. cbn [nth obind] in H.
    destruct (int_op (acc + x)) as [a| | |] eqn:E; try discriminate. apply int_op_l in E. destruct E as [-> _]. cbn [obind] in H.
    replace (done ++ x :: rest) with ((done ++ [x]) ++ rest) in H by (rewrite <- app_assoc; reflexivity).
    replace (zlen done + 1) with (zlen (done ++ [x])) in H by (unfold zlen; rewrite app_length; cbn; lia).
    apply IH in H. subst r. unfold sum. cbn. lia.
Qed.

Lemma loop_ok : forall B rest done acc, 0 <= B -> Forall (fun x => Z.abs x <= B) rest -> Z.abs acc + zlen rest * B <= INT_MAX ->
  exists r, for_up (length rest) (zlen done) (add_cell (done ++ rest)) acc = Done r.
Proof.
  intros B. induction rest as [|x rest IH]; intros done acc HB H Hb; cbn [length for_up]; [eauto|].
  inversion H as [|? ? Hx H']; subst. unfold add_cell at 1. rewrite (zget_ok _ _ _ 0) by (unfold zlen; rewrite app_length; cbn [length]; lia).
  unfold zlen at 1. rewrite Nat2Z.id, app_nth2, Nat.sub_diag by lia. cbn [nth obind].
  unfold zlen in Hb. cbn [length] in Hb. rewrite Nat2Z.inj_succ in Hb.
  assert (0 <= Z.of_nat (length rest) * B) by nia. assert (Hm : INT_MIN = - INT_MAX - 1) by reflexivity.
  rewrite int_op_ok by lia. cbn [obind].
  replace (done ++ x :: rest) with ((done ++ [x]) ++ rest) by (rewrite <- app_assoc; reflexivity).
  replace (zlen done + 1) with (zlen (done ++ [x])) by (unfold zlen; rewrite app_length; cbn; lia).
  apply IH; [exact HB|exact H'|]. unfold zlen. lia.
Qed.

(** * The invariant *)

Section Inv.
Variables N D : nat.
Hypothesis HN : (0 < N)%nat.
Hypothesis HD : (0 < D)%nat.

Definition has_input (h : list pop) : bool := existsb (fun o => match o with Input _ => true | _ => false end) h.

Definition inv (p : pid) (h : list pop) : Prop :=
  (Kp p = gain_p h /\ Ki p = gain_i h /\ Kd p = gain_d h) /\
  ring N (index p) (history p) (contributions N h) /\
  ring D (derivative_index p) (derivative_history p) (past_errors h) /\
  derivative_history_size p = Z.min (zlen (past_errors h)) (Z.of_nat D) /\
  input p = reading h /\ sp p = setpoint h /\
  (integral_low_threshold p = low_limit h /\ integral_high_threshold p = high_limit h /\ derivative_low_threshold p = deriv_limit h) /\
  first_value p = b2z (has_input h) /\
  ((auto_clear p =? 0) = negb (autoclear h) /\ (derivative_threshold p =? 0) = negb (deriv_on h) /\ (high_enabled p =? 0) = negb (high_on h) /\ (low_enabled p =? 0) = negb (low_on h)) /\
  sign p = last_sign h.

Lemma init_inv : inv (pid_init N D) [].
Proof using HN HD.
  split; [repeat split|]. split; [now apply ring_init|]. split; [now apply ring_init|]. split; [cbn; lia|]. repeat split.
Qed.

(** What is stored is the accepted error. *)
Lemma store_l : forall p h cs e l, ring N (index p) (history p) cs ->
  integral_low_threshold p = low_limit h -> integral_high_threshold p = high_limit h ->
  (high_enabled p =? 0) = negb (high_on h) -> (low_enabled p =? 0) = negb (low_on h) ->
  store_error p e = Done l ->
  l = upd (history p) (Z.to_nat (index p)) (if e =? 0 then nth (N - 1) cs 0 else accepted h e).
Proof using HN HD.
  intros p h cs e l R Hlo Hhi Hhe Hle H. pose proof (ring_index _ _ _ _ HN R) as Hi. pose proof (ring_nth _ _ _ _ HN R) as Hnth.
  assert (Hz : forall x, zset (history p) (index p) x = Done (upd (history p) (Z.to_nat (index p)) x)).
  { intros x. apply zset_ok. unfold zlen. destruct R as [-> _]. exact Hi. }
  unfold store_error in H. unfold accepted.
  destruct (Z.eqb_spec e 0) as [->|Hne]; [cbn in H; injection H as <-; rewrite <- Hnth, upd_same; reflexivity|].
  destruct (Z.ltb_spec 0 e).
  - rewrite Hle in H. destruct (low_on h); cbn [negb andb] in *.
    + destruct (ABS e) as [a| | |] eqn:Ea; try discriminate. apply ABS_l in Ea. cbn [obind] in H. rewrite !Hz, Hlo in H.
      destruct (Z.ltb_spec a (low_limit h)); destruct (Z.leb_spec (low_limit h) e); try lia; injection H as <-; reflexivity.
    + rewrite Hz in H. now injection H as <-.
  - destruct (Z.ltb_spec e 0); [|lia]. rewrite Hhe in H. destruct (high_on h); cbn [negb andb] in *.
    + destruct (ABS e) as [a| | |] eqn:Ea; try discriminate. apply ABS_l in Ea. cbn [obind] in H. rewrite !Hz, Hhi in H.
      destruct (Z.ltb_spec a (high_limit h)); destruct (Z.leb_spec (high_limit h) (- e)); try lia; injection H as <-; reflexivity.
    + rewrite Hz in H. now injection H as <-.
Qed.

Lemma last_sign_range : forall h, last_sign h = 0 \/ last_sign h = 1 \/ last_sign h = -1.
Proof.
  induction h as [|o h IH]; [now left|]. destruct o; try exact IH. cbn [last_sign].
  destruct (Z.eqb_spec (error (Input v :: h)) 0); [exact IH|]. destruct (error (Input v :: h)); cbn; tauto.
Qed.

Lemma input_inv : forall p h v p', inv p h -> pid_add_input N D p v = Done p' -> inv p' (Input v :: h).
Proof using HN HD.
  intros p h v p' (Hg & R1 & R2 & Hn & Hin & Hsp & (Hlo & Hhi & Hdl) & Hf & (Hac & Hdt & Hhe & Hle) & Hs) H.
  unfold pid_add_input in H. destruct (pid_current_error p) as [oe| | |] eqn:Eoe; try discriminate. cbn [obind] in H. cbv zeta in H.
  unfold pid_current_error in Eoe, H. cbn [set_input sp input] in H. apply int_op_l in Eoe. destruct Eoe as [Hoe _].
  destruct (int_op (sp p - v)) as [e| | |] eqn:Ee; try discriminate. cbn [obind] in H. apply int_op_l in Ee. destruct Ee as [He _].
  assert (Herr : error (Input v :: h) = e) by (unfold error; cbn; rewrite He, Hsp; reflexivity).
  set (ns := if 0 <? e then 1 else if e <? 0 then -1 else sign (set_input p v)) in H.
  assert (Hns : ns = last_sign (Input v :: h)).
  { unfold ns. cbn [last_sign]. rewrite Herr. cbn [set_input sign]. destruct (Z.eqb_spec e 0) as [->|]; [exact Hs|].
    destruct (Z.ltb_spec 0 e); [rewrite Z.sgn_pos by lia; reflexivity|]. destruct (Z.ltb_spec e 0); [rewrite Z.sgn_neg by lia; reflexivity|lia]. }
  set (before := if autoclear h && turns (Input v :: h) then [] else contributions N h).
  (* the controller after the sign test *)
  set (p1 := if sign (set_input p v) =? ns then set_input p v else
             if auto_clear (set_sign (set_input p v) ns) =? 0 then set_sign (set_input p v) ns
             else pid_clear_integral_history N (set_sign (set_input p v) ns)) in H.
  assert (Ht : turns (Input v :: h) = negb (sign (set_input p v) =? ns)).
  { unfold turns. cbn [tl]. rewrite Herr, Hns. cbn [set_input sign last_sign]. rewrite Herr, Hs. destruct (Z.eqb_spec e 0) as [->|]; cbn [negb andb].
    - rewrite Z.eqb_refl. reflexivity.
    - f_equal. apply Z.eqb_sym. }
  assert (H1 : ring N (index p1) (history p1) before /\ sign p1 = last_sign (Input v :: h) /\
               (Kp p1 = Kp p /\ Ki p1 = Ki p /\ Kd p1 = Kd p) /\ derivative_index p1 = derivative_index p /\ derivative_history p1 = derivative_history p /\
               derivative_history_size p1 = derivative_history_size p /\ input p1 = v /\ sp p1 = sp p /\
               (integral_low_threshold p1 = integral_low_threshold p /\ integral_high_threshold p1 = integral_high_threshold p /\ derivative_low_threshold p1 = derivative_low_threshold p) /\
               first_value p1 = first_value p /\
               (auto_clear p1 = auto_clear p /\ derivative_threshold p1 = derivative_threshold p /\ high_enabled p1 = high_enabled p /\ low_enabled p1 = low_enabled p)).
  { unfold before, p1. rewrite Ht. change (auto_clear (set_sign (set_input p v) ns)) with (auto_clear p). rewrite Hac. destruct (Z.eqb_spec (sign (set_input p v)) ns) as [Es|Es]; cbn [negb andb].
    - rewrite andb_false_r. split; [exact R1|]. split; [rewrite <- Hns; exact Es|]. repeat split; exact Hac.
    - rewrite andb_true_r. destruct (autoclear h); cbn [negb].
      + split; [apply ring_init; exact HN|]. split; [rewrite <- Hns; reflexivity|]. repeat split; exact Hac.
      + split; [exact R1|]. split; [rewrite <- Hns; reflexivity|]. repeat split; exact Hac. }
  clearbody p1. destruct H1 as (Q1 & Q2 & Q3 & Q4 & Q5 & Q6 & Q7 & Q8 & (Q9 & Q10 & Q11) & Q12 & (Q13 & Q14 & Q15 & Q16)).
  destruct (store_error p1 e) as [l| | |] eqn:El; try discriminate. cbn [obind] in H.
  apply (store_l p1 h before) in El; [|exact Q1|congruence|congruence|congruence|congruence].
  assert (Hc : contributions N (Input v :: h) = (if e =? 0 then nth (N - 1) before 0 else accepted h e) :: before).
  { cbn [contributions]. fold before. rewrite Herr. reflexivity. }
  assert (R1' : ring N ((index p1 + 1) mod Z.of_nat N) l (contributions N (Input v :: h))).
  { rewrite Hc, El. apply ring_push; [exact HN|exact Q1]. }
  unfold inv. cbn [set_history first_value] in H. rewrite Q12, Hf in H. unfold gain_p, gain_i, gain_d, low_limit, high_limit, deriv_limit, autoclear, deriv_on, high_on, low_on, setpoint in *.
  cbn [latest] in *. cbn [past_errors has_input existsb orb b2z]. fold (has_input h).
  destruct (has_input h) eqn:Eh; cbn [b2z Z.eqb] in H.
  - cbn [derivative_history derivative_index set_history derivative_history_size] in H. rewrite Q4, Q5, Q6 in H.
    pose proof (ring_index _ _ _ _ HD R2) as Hdi.
    rewrite zset_ok in H by (unfold zlen; destruct R2 as [-> _]; exact Hdi). cbn [obind] in H. injection H as <-. cbn.
    assert (Hoe' : oe = error h) by (unfold error; rewrite Hoe, Hin, Hsp; reflexivity).
    split; [destruct Hg as (? & ? & ?); destruct Q3 as (? & ? & ?); repeat split; congruence|]. split; [exact R1'|].
    split; [rewrite <- Hoe'; apply ring_push; [exact HD|exact R2]|].
    split; [rewrite Hn; unfold zlen; cbn [length]; destruct (Z.ltb_spec (Z.min (Z.of_nat (length (past_errors h))) (Z.of_nat D)) (Z.of_nat D)); lia|].
    split; [exact Q7|]. split; [congruence|]. repeat split; try congruence; exact Q2.
  - injection H as <-. cbn.
    assert (Hp : past_errors h = []).
    { clear - Eh. induction h as [|o h IH]; [reflexivity|]. destruct o; cbn in *; try (apply IH; exact Eh). discriminate. }
    rewrite Q4, Q5, Q6. rewrite Hp in *.
    split; [destruct Hg as (? & ? & ?); destruct Q3 as (? & ? & ?); repeat split; congruence|]. split; [exact R1'|].
    split; [exact R2|]. split; [exact Hn|]. split; [exact Q7|]. split; [congruence|]. repeat split; try congruence; exact Q2.
Qed.

Lemma run_inv : forall h p, Forall thresholds_fit h -> prun N D h = Done p -> inv p h.
Proof using HN HD.
  induction h as [|o h IH]; intros p Hfit H; cbn [prun] in H.
  - injection H as <-. exact init_inv.
  - inversion Hfit as [|? ? Ho Hfit']; subst. destruct (prun N D h) as [q| | |]; try discriminate. cbn [obind] in H. specialize (IH q Hfit' eq_refl).
    destruct o; cbn [pstep] in H; try (apply (input_inv q); [exact IH|exact H]);
      injection H as <-; destruct IH as ((? & ? & ?) & R1 & R2 & ? & ? & ? & (? & ? & ?) & ? & (? & ? & ? & ?) & ?);
      unfold inv, gain_p, gain_i, gain_d, low_limit, high_limit, deriv_limit, autoclear, deriv_on, high_on, low_on, setpoint in *; cbn [latest] in *;
      cbn [past_errors has_input existsb orb b2z contributions last_sign thresholds_fit] in *; cbn; try rewrite swrap_small by (change (2 ^ (32 - 1)) with 2147483648; unfold INT_MIN, INT_MAX in *; lia);
      (split; [repeat split; try assumption|]); (split; [first [exact R1|apply ring_init; exact HN]|]); (split; [exact R2|]); repeat split; first [assumption|unfold yes; rewrite negb_involutive; reflexivity].
Qed.

(** * Definedness *)

Lemma latest_within : forall B (f : pop -> option Z) h, 0 <= B -> Forall (within B) h -> (forall o a, f o = Some a -> o = Input a \/ o = Setpoint a) ->
  Z.abs (latest f 0 h) <= B.
Proof.
  intros B f h HB H Hf. induction H as [|o h Ho H IH]; [cbn; lia|]. cbn [latest]. destruct (f o) as [a|] eqn:E; [|exact IH].
  destruct (Hf o a E) as [->| ->]; exact Ho.
Qed.

Lemma error_within : forall B h, 0 <= B -> Forall (within B) h -> Z.abs (error h) <= 2 * B.
Proof.
  intros B h HB H. unfold error.
  assert (Z.abs (setpoint h) <= B) by (apply latest_within; [exact HB|exact H|intros [] a E; try discriminate; injection E as <-; auto]).
  assert (Z.abs (reading h) <= B) by (apply latest_within; [exact HB|exact H|intros [] a E; try discriminate; injection E as <-; auto]). lia.
Qed.

Lemma contributions_within : forall B h, 0 <= B -> Forall (within B) h -> Forall (fun x => Z.abs x <= 2 * B) (contributions N h).
Proof.
  intros B h HB. induction h as [|o h IH]; intros H; [constructor|]. inversion H as [|? ? Ho H']; subst. specialize (IH H').
  destruct o; try exact IH; [|constructor]. cbn [contributions].
  set (before := if autoclear h && turns (Input v :: h) then [] else contributions N h).
  assert (Hb : Forall (fun x => Z.abs x <= 2 * B) before) by (unfold before; destruct (autoclear h && turns (Input v :: h)); [constructor|exact IH]).
  constructor; [|exact Hb]. destruct (error (Input v :: h) =? 0).
  - destruct (nth_in_or_default (N - 1) before 0) as [Hin| ->]; [|lia]. rewrite Forall_forall in Hb. now apply Hb.
  - pose proof (error_within B (Input v :: h) HB H). unfold accepted. generalize dependent (error (Input v :: h)). intros e He.
    destruct (0 <? e); [destruct (low_on h && (low_limit h <=? e))|destruct (high_on h && (high_limit h <=? - e))]; lia.
Qed.

Lemma run_ok : forall B h, 0 <= B -> 2 * B <= INT_MAX -> Forall thresholds_fit h -> Forall (within B) h -> exists p, prun N D h = Done p.
Proof using HN HD.
  intros B h HB HB2. assert (Hm : INT_MIN = - INT_MAX - 1) by reflexivity.
  induction h as [|o h IH]; intros Hfit Hw; [cbn; eauto|]. inversion Hfit as [|? ? Ho Hfit']; inversion Hw as [|? ? Hwo Hw']; subst.
  destruct (IH Hfit' Hw') as [p Hp]. cbn [prun]. rewrite Hp. cbn [obind]. destruct o; cbn [pstep]; eauto.
  pose proof (run_inv h p Hfit' Hp) as (_ & R1 & R2 & _ & Hin & Hsp & _).
  pose proof (error_within B h HB Hw') as He0. pose proof (error_within B (Input v :: h) HB Hw) as He.
  unfold pid_add_input, pid_current_error. cbn [set_input sp input].
  replace (sp p - input p) with (error h) by (unfold error; congruence). rewrite int_op_ok by lia. cbn [obind].
  replace (sp p - v) with (error (Input v :: h)) by (unfold error; cbn; congruence). rewrite int_op_ok by lia. cbn [obind]. cbv zeta.
  set (e := error (Input v :: h)) in *. set (ns := if 0 <? e then 1 else _).
  set (p1 := if sign (set_input p v) =? ns then _ else _).
  assert (H1 : length (history p1) = N /\ 0 <= index p1 < Z.of_nat N /\ derivative_index p1 = derivative_index p /\ derivative_history p1 = derivative_history p /\ first_value p1 = first_value p).
  { assert (H1 : length (history p) = N /\ 0 <= index p < Z.of_nat N) by (split; [apply R1|exact (ring_index _ _ _ _ HN R1)]).
    unfold p1. destruct (sign (set_input p v) =? ns); [cbn; tauto|]. destruct (auto_clear (set_sign (set_input p v) ns) =? 0); [cbn; tauto|]. cbn.
    rewrite repeat_length. repeat split; lia. }
  clearbody p1. destruct H1 as (L1 & I1 & D1 & D2 & F1).
  assert (Hst : exists l, store_error p1 e = Done l).
  { unfold store_error. assert (Hz : forall x, exists l, zset (history p1) (index p1) x = Done l) by (intros x; rewrite zset_ok by (unfold zlen; lia); eauto).
    rewrite ABS_ok by lia. cbn [obind].
    repeat match goal with |- context [if ?c then _ else _] => destruct c end; auto. eauto. }
  destruct Hst as [l ->]. cbn [obind]. cbn [set_history first_value derivative_history derivative_index]. destruct (first_value p1 =? 0); [eauto|].
  rewrite D1, D2. rewrite zset_ok; [cbn [obind]; eauto|]. unfold zlen. rewrite (proj1 R2). exact (ring_index _ _ _ _ HD R2).
Qed.

(** * The terms *)

Lemma integral_l : forall B h, 0 <= B -> 2 * B <= INT_MAX -> Z.of_nat N * (2 * B) <= INT_MAX -> Forall thresholds_fit h -> Forall (within B) h ->
  exists p, prun N D h = Done p /\ forall r, INT_MIN <= r <= INT_MAX ->
    (pid_compute_i N p = Done r <-> gain (gain_i h) (sum (firstn N (contributions N h))) r).
Proof using HN HD.
  intros B h HB HB2 HNB Hfit Hw. destruct (run_ok B h HB HB2 Hfit Hw) as [p Hp]. exists p. split; [exact Hp|].
  pose proof (run_inv h p Hfit Hp) as ((_ & Hki & _) & R1 & _). intros r Hr. unfold pid_compute_i.
  pose proof (ring_bound N _ _ _ (2 * B) ltac:(lia) R1 (contributions_within B h HB Hw)) as Hb.
  destruct (loop_ok (2 * B) (history p) [] 0) as [s Hs]; [lia|exact Hb|unfold zlen; rewrite (proj1 R1); change (Z.abs 0) with 0; lia|].
  pose proof (loop_done _ [] 0 s Hs) as Hsum. rewrite (proj1 R1) in Hs. unfold add_cell in Hs. cbn [app] in Hs. change (zlen []) with 0 in Hs. rewrite Hs. cbn [obind].
  rewrite Hsum, (ring_sum _ _ _ _ R1), Hki, Z.add_0_l. now apply times_l.
Qed.

Lemma derivative_l : forall B h, 0 <= B -> 4 * B <= INT_MAX -> Forall thresholds_fit h -> Forall (within B) h ->
  exists p, prun N D h = Done p /\
    match past_errors h with
    | [] => pid_compute_d D p = Done 0
    | es => if deriv_on h && (deriv_limit h <? Z.abs (error h)) then pid_compute_d D p = Done 0
            else forall r, INT_MIN <= r <= INT_MAX ->
              (pid_compute_d D p = Done r <-> gain (gain_d h) (error h - nth (Nat.min D (length es) - 1) es 0) r)
    end.
Proof using HN HD.
  intros B h HB HB2 Hfit Hw. destruct (run_ok B h HB ltac:(lia) Hfit Hw) as [p Hp]. exists p. split; [exact Hp|].
  pose proof (run_inv h p Hfit Hp) as ((_ & _ & Hkd) & _ & R2 & Hn & Hin & Hsp & (_ & _ & Hdl) & _ & (_ & Hdt & _) & _).
  assert (Hm : INT_MIN = - INT_MAX - 1) by reflexivity.
  pose proof (error_within B h HB Hw) as He.
  unfold pid_compute_d, pid_current_error. replace (sp p - input p) with (error h) by (unfold error; congruence). rewrite int_op_ok by lia. cbn [obind].
  assert (Hes : Forall (fun x => Z.abs x <= 2 * B) (past_errors h)).
  { clear - HB Hw HN HD. induction h as [|o h IH]; [constructor|]. inversion Hw as [|? ? Ho Hw']; subst. specialize (IH Hw'). destruct o; try exact IH.
    cbn [past_errors]. destruct (existsb _ h); [|constructor]. constructor; [now apply error_within|exact IH]. }
  rewrite Hn. destruct (past_errors h) as [|x0 es0] eqn:Ees; [replace (Z.min (zlen []) (Z.of_nat D)) with 0 by (cbn; lia); reflexivity|]. rewrite <- Ees in *.
  assert (Hlen : (0 < length (past_errors h))%nat) by (rewrite Ees; cbn; lia).
  set (es := past_errors h) in *. clearbody es. clear Ees x0 es0.
  destruct (Z.eqb_spec (Z.min (zlen es) (Z.of_nat D)) 0); [unfold zlen in *; lia|]. cbv zeta.
  set (last := if Z.min (zlen es) (Z.of_nat D) =? Z.of_nat D then derivative_index p else 0).
  assert (Hlast : 0 <= last < Z.of_nat D /\ nth (Z.to_nat last) (derivative_history p) 0 = nth (Nat.min D (length es) - 1) es 0).
  { unfold last, zlen. destruct (Z.eqb_spec (Z.min (Z.of_nat (length es)) (Z.of_nat D)) (Z.of_nat D)).
    - split; [exact (ring_index _ _ _ _ HD R2)|]. rewrite (ring_nth _ _ _ _ HD R2). f_equal. lia.
    - split; [lia|]. cbn [Z.to_nat]. rewrite (ring_first D _ _ _ HD R2) by lia. f_equal. lia. }
  destruct Hlast as [Hl1 Hl2]. rewrite (zget_ok _ _ _ 0) by (unfold zlen; rewrite (proj1 R2); exact Hl1). rewrite Hl2. cbn [obind].
  assert (Hx : Z.abs (nth (Nat.min D (length es) - 1) es 0) <= 2 * B).
  { rewrite Forall_forall in Hes. apply Hes. apply nth_In. lia. }
  rewrite int_op_ok by lia. cbn [obind]. rewrite Hdt, ABS_ok by lia. cbn [obind]. rewrite Hdl, Hkd.
  destruct (deriv_on h); cbn [negb andb].
  - destruct (Z.ltb_spec (deriv_limit h) (Z.abs (error h))); [reflexivity|]. intros r Hr. now apply times_l.
  - intros r Hr. now apply times_l.
Qed.

Lemma proportional_l : forall B h, 0 <= B -> 2 * B <= INT_MAX -> Forall thresholds_fit h -> Forall (within B) h ->
  exists p, prun N D h = Done p /\ forall r, INT_MIN <= r <= INT_MAX -> (pid_compute_p p = Done r <-> gain (gain_p h) (error h) r).
Proof using HN HD.
  intros B h HB HB2 Hfit Hw. destruct (run_ok B h HB HB2 Hfit Hw) as [p Hp]. exists p. split; [exact Hp|].
  pose proof (run_inv h p Hfit Hp) as ((Hkp & _) & _ & _ & _ & Hin & Hsp & _).
  assert (Hm : INT_MIN = - INT_MAX - 1) by reflexivity. pose proof (error_within B h HB Hw) as He.
  intros r Hr. unfold pid_compute_p, pid_current_error. replace (sp p - input p) with (error h) by (unfold error; congruence). rewrite int_op_ok by lia. cbn [obind].
  rewrite Hkp. now apply times_l.
Qed.

Lemma output_l : forall B h, 0 <= B -> 4 * B <= INT_MAX -> Z.of_nat N * (2 * B) <= INT_MAX -> Forall thresholds_fit h -> Forall (within B) h ->
  exists p, prun N D h = Done p /\ pid_current_error p = Done (error h) /\
    forall rp ri rd, INT_MIN <= rp <= INT_MAX -> INT_MIN <= ri <= INT_MAX -> INT_MIN <= rd <= INT_MAX ->
      gain (gain_p h) (error h) rp -> gain (gain_i h) (sum (firstn N (contributions N h))) ri -> derivative_term D h rd ->
      INT_MIN <= rp + ri <= INT_MAX -> INT_MIN <= rp + ri + rd <= INT_MAX -> pid_compute N D p = Done (rp + ri + rd).
Proof using HN HD.
  intros B h HB HB2 HNB Hfit Hw.
  destruct (proportional_l B h HB ltac:(lia) Hfit Hw) as (p & Hp & P1).
  destruct (integral_l B h HB ltac:(lia) HNB Hfit Hw) as (p2 & Hp2 & P2). rewrite Hp in Hp2. injection Hp2 as <-.
  destruct (derivative_l B h HB HB2 Hfit Hw) as (p3 & Hp3 & P3). rewrite Hp in Hp3. injection Hp3 as <-.
  exists p. split; [exact Hp|]. split.
  - pose proof (run_inv h p Hfit Hp) as (_ & _ & _ & _ & Hin & Hsp & _). pose proof (error_within B h HB Hw).
    unfold pid_current_error. replace (sp p - input p) with (error h) by (unfold error; congruence). apply int_op_ok. unfold INT_MIN, INT_MAX in *. lia.
  - intros rp ri rd Ap Ai Ad Gp Gi Gd S1 S2. unfold pid_compute.
    rewrite (proj2 (P1 rp Ap) Gp). cbn [obind]. rewrite (proj2 (P2 ri Ai) Gi). cbn [obind].
    assert (E : pid_compute_d D p = Done rd).
    { unfold derivative_term in Gd. destruct (past_errors h); [now rewrite Gd|]. destruct (deriv_on h && _); [now rewrite Gd|]. now apply (P3 rd Ad). }
    rewrite E. cbn [obind]. rewrite int_op_ok by exact S1. cbn [obind]. now apply int_op_ok.
Qed.

End Inv.

(** * Readings of the specification *)

Lemma plain_off : forall h, Forall (fun o => plain o = true) h -> autoclear h = false /\ low_on h = false /\ high_on h = false.
Proof.
  unfold autoclear, low_on, high_on. intros h H. induction H as [|o h Ho H (A & B & C)]; [repeat split|].
  destruct o; cbn [latest plain] in *; try (repeat split; assumption); destruct (yes on); try discriminate; repeat split; assumption.
Qed.

Lemma contributions_plain : forall N h, Forall (fun o => plain o = true) h -> ~ In 0 (input_errors h) -> contributions N h = input_errors h.
Proof.
  intros N h H. induction H as [|o h Ho H IH]; intros Hz; [reflexivity|]. destruct (plain_off h H) as (A & B & C).
  destruct o; try (apply IH; exact Hz); [|discriminate]. cbn [contributions input_errors] in *. rewrite A. cbn [andb].
  destruct (Z.eqb_spec (error (Input v :: h)) 0) as [E|E]; [exfalso; apply Hz; left; exact E|]. rewrite IH by (intros F; apply Hz; right; exact F). f_equal.
  unfold accepted. rewrite B, C. destruct (0 <? error (Input v :: h)); reflexivity.
Qed.

Lemma integral_plain_l : forall N D B h, (0 < N)%nat -> (0 < D)%nat -> 0 <= B -> 2 * B <= INT_MAX -> Z.of_nat N * (2 * B) <= INT_MAX -> Forall thresholds_fit h -> Forall (within B) h ->
  Forall (fun o => plain o = true) h -> ~ In 0 (input_errors h) ->
  exists p, prun N D h = Done p /\ forall r, INT_MIN <= r <= INT_MAX ->
    (pid_compute_i N p = Done r <-> gain (gain_i h) (sum (firstn N (input_errors h))) r).
Proof.
  intros N D B h HN HD HB HB2 HNB Hfit Hw Hp Hz. rewrite <- (contributions_plain N h Hp Hz). now apply (integral_l N D HN HD B).
Qed.

Lemma latest_inputs : forall A (f : pop -> option A) d vs pre, (forall v, f (Input v) = None) -> latest f d (map Input vs ++ pre) = latest f d pre.
Proof. intros A f d vs pre Hf. induction vs as [|v vs IH]; [reflexivity|]. cbn [map app latest]. now rewrite Hf. Qed.

Lemma past_fixed : forall vs v pre, Forall (fun o => is_input o = false) pre ->
  past_errors (map Input (v :: vs) ++ pre) = map (fun x => setpoint pre - x) vs.
Proof.
  induction vs as [|v' vs IH]; intros v pre Hpre.
  - cbn [map app past_errors]. replace (existsb _ pre) with false; [reflexivity|]. symmetry. clear - Hpre. induction Hpre as [|o pre Ho H IH]; [reflexivity|].
    cbn [existsb]. rewrite IH. destruct o; try reflexivity. discriminate.
  - specialize (IH v' pre Hpre). change (map Input (v :: v' :: vs) ++ pre) with (Input v :: (map Input (v' :: vs) ++ pre)). cbn [past_errors].
    set (h' := map Input (v' :: vs) ++ pre) in *. replace (existsb _ h') with true; [|unfold h'; reflexivity]. rewrite IH. cbn [map]. f_equal.
    unfold error, h'. unfold setpoint at 1. rewrite latest_inputs by reflexivity. reflexivity.
Qed.

Lemma derivative_fixed_l : forall N D B vs v pre, (0 < N)%nat -> (0 < D)%nat -> 0 <= B -> 4 * B <= INT_MAX ->
  Forall thresholds_fit pre -> Forall (within B) (map Input (v :: vs) ++ pre) -> Forall (fun o => is_input o = false) pre ->
  let h := map Input (v :: vs) ++ pre in
  exists p, prun N D h = Done p /\
    match vs with
    | [] => pid_compute_d D p = Done 0
    | _ => if deriv_on pre && (deriv_limit pre <? Z.abs (setpoint pre - v)) then pid_compute_d D p = Done 0
           else forall r, INT_MIN <= r <= INT_MAX ->
             (pid_compute_d D p = Done r <->
              gain (gain_d pre) ((setpoint pre - v) - (setpoint pre - nth (Nat.min D (length vs) - 1) vs 0)) r)
    end.
Proof.
  intros N D B vs v pre HN HD HB HB2 Hfit Hw Hpre h.
  assert (Hfit' : Forall thresholds_fit h) by (unfold h; apply Forall_app; split; [apply Forall_map, Forall_forall; intros x _; exact I|exact Hfit]).
  destruct (derivative_l N D HN HD B h HB HB2 Hfit' Hw) as (p & Hp & Hd). exists p. split; [exact Hp|]. unfold h in Hd. rewrite past_fixed in Hd by exact Hpre.
  destruct vs as [|v' vs]; [exact Hd|].
  assert (E : forall x, error (map Input (v :: x) ++ pre) = setpoint pre - v).
  { intros x. unfold error. unfold setpoint at 1. rewrite latest_inputs by reflexivity. reflexivity. }
  rewrite E in Hd. unfold deriv_on, deriv_limit, gain_d in *. rewrite !latest_inputs in Hd by reflexivity.
  set (vs' := v' :: vs) in *. cbn [map] in Hd. change (match map (fun x => setpoint pre - x) vs' with [] => pid_compute_d D p = Done 0 | _ :: _ =>
    if latest (fun o => match o with DerivEnable b => Some (yes b) | _ => None end) false pre && (latest (fun o => match o with DerivThreshold v _ => Some v | _ => None end) 0 pre <? Z.abs (setpoint pre - v)) then pid_compute_d D p = Done 0
    else forall r, INT_MIN <= r <= INT_MAX -> (pid_compute_d D p = Done r <-> gain (latest (fun o => match o with Tune _ _ kd => Some kd | _ => None end) (S754_zero false) pre)
      (setpoint pre - v - nth (Nat.min D (length (map (fun x => setpoint pre - x) vs')) - 1) (map (fun x => setpoint pre - x) vs') 0) r) end) in Hd.
  rewrite map_length in Hd. rewrite (nth_indep _ 0 (setpoint pre - 0)) in Hd by (rewrite map_length; unfold vs'; cbn [length]; lia).
  rewrite (map_nth (fun x => setpoint pre - x)) in Hd. exact Hd.
Qed.

Lemma threshold_l : forall N D B h v, (0 < N)%nat -> (0 < D)%nat -> 0 <= B -> 2 * B <= INT_MAX -> Z.of_nat N * (2 * B) <= INT_MAX ->
  Forall thresholds_fit h -> Forall (within B) (Input v :: h) -> autoclear h = false ->
  let e := setpoint h - v in
  (0 < e /\ low_on h = true /\ low_limit h <= e) \/ (e < 0 /\ high_on h = true /\ high_limit h <= - e) ->
  exists p, prun N D (Input v :: h) = Done p /\ forall r, INT_MIN <= r <= INT_MAX ->
    (pid_compute_i N p = Done r <-> gain (gain_i h) (sum (firstn (N - 1) (contributions N h))) r).
Proof.
  intros N D B h v HN HD HB HB2 HNB Hfit Hw Ha e He.
  destruct (integral_l N D HN HD B (Input v :: h) HB HB2 HNB) as (p & Hp & Hi); [constructor; [exact I|exact Hfit]|exact Hw|]. exists p. split; [exact Hp|].
  intros r Hr. rewrite (Hi r Hr). change (gain_i (Input v :: h)) with (gain_i h). cbn [contributions]. rewrite Ha. cbn [andb].
  change (error (Input v :: h)) with e. destruct (Z.eqb_spec e 0); [lia|].
  assert (Hacc : accepted h e = 0).
  { unfold accepted. destruct He as [(A & B0 & C)|(A & B0 & C)]; rewrite B0; cbn [andb].
    - destruct (Z.ltb_spec 0 e); [|lia]. destruct (Z.leb_spec (low_limit h) e); lia.
    - destruct (Z.ltb_spec 0 e); [lia|]. destruct (Z.leb_spec (high_limit h) (- e)); lia. }
  rewrite Hacc. destruct N as [|m]; [lia|]. replace (S m - 1)%nat with m by lia. cbn [firstn]. unfold sum. cbn [fold_right]. rewrite Z.add_0_l. reflexivity.
Qed.

Lemma below_threshold_l : forall N D B h v, (0 < N)%nat -> (0 < D)%nat -> 0 <= B -> 2 * B <= INT_MAX -> Z.of_nat N * (2 * B) <= INT_MAX ->
  Forall thresholds_fit h -> Forall (within B) (Input v :: h) -> autoclear h = false ->
  let e := setpoint h - v in
  (0 < e /\ e < low_limit h) \/ (e < 0 /\ - e < high_limit h) ->
  exists p, prun N D (Input v :: h) = Done p /\ forall r, INT_MIN <= r <= INT_MAX ->
    (pid_compute_i N p = Done r <-> gain (gain_i h) (e + sum (firstn (N - 1) (contributions N h))) r).
Proof.
  intros N D B h v HN HD HB HB2 HNB Hfit Hw Ha e He.
  destruct (integral_l N D HN HD B (Input v :: h) HB HB2 HNB) as (p & Hp & Hi); [constructor; [exact I|exact Hfit]|exact Hw|]. exists p. split; [exact Hp|].
  intros r Hr. rewrite (Hi r Hr). change (gain_i (Input v :: h)) with (gain_i h). cbn [contributions]. rewrite Ha. cbn [andb].
  change (error (Input v :: h)) with e. destruct (Z.eqb_spec e 0); [lia|].
  assert (Hacc : accepted h e = e).
  { unfold accepted. destruct He as [(A & C)|(A & C)].
    - destruct (Z.ltb_spec 0 e); [|lia]. destruct (Z.leb_spec (low_limit h) e); [lia|]. rewrite andb_false_r. reflexivity.
    - destruct (Z.ltb_spec 0 e); [lia|]. destruct (Z.leb_spec (high_limit h) (- e)); [lia|]. rewrite andb_false_r. reflexivity. }
  rewrite Hacc. destruct N as [|m]; [lia|]. replace (S m - 1)%nat with m by lia. cbn [firstn]. unfold sum. cbn [fold_right]. reflexivity.
Qed.

Lemma autoclear_l : forall N D B h v, (0 < N)%nat -> (0 < D)%nat -> 0 <= B -> 2 * B <= INT_MAX -> Z.of_nat N * (2 * B) <= INT_MAX ->
  Forall thresholds_fit h -> Forall (within B) (Input v :: h) -> autoclear h = true ->
  let e := setpoint h - v in e * last_sign h < 0 ->
  exists p, prun N D (Input v :: h) = Done p /\ forall r, INT_MIN <= r <= INT_MAX ->
    (pid_compute_i N p = Done r <-> gain (gain_i h) (accepted h e) r).
Proof.
  intros N D B h v HN HD HB HB2 HNB Hfit Hw Ha e He.
  destruct (integral_l N D HN HD B (Input v :: h) HB HB2 HNB) as (p & Hp & Hi); [constructor; [exact I|exact Hfit]|exact Hw|]. exists p. split; [exact Hp|].
  intros r Hr. rewrite (Hi r Hr). change (gain_i (Input v :: h)) with (gain_i h). cbn [contributions]. rewrite Ha. cbn [andb].
  assert (Ht : turns (Input v :: h) = true).
  { unfold turns. cbn [tl]. change (error (Input v :: h)) with e. destruct (Z.eqb_spec e 0); [lia|]. cbn [negb andb]. destruct (Z.eqb_spec (Z.sgn e) (last_sign h)) as [Es|]; [|reflexivity].
    rewrite <- Es in He. nia. }
  rewrite Ht. change (error (Input v :: h)) with e. destruct (Z.eqb_spec e 0); [lia|]. destruct N as [|m]; [lia|].
  assert (E1 : firstn (S m) [accepted h e] = [accepted h e]) by (destruct m; reflexivity). rewrite E1. unfold sum. cbn [fold_right]. rewrite Z.add_0_r. reflexivity.
Qed.

(** * Exact terms *)

Lemma gain_exact : forall k K q x, scaled k K q -> small K x -> gain k x (Z.quot (K * x) (2 ^ q)).
Proof.
  intros k K q x (Nk & Wk & Hq) [Hx Hp]. unfold gain. apply trunc_part.
  assert (Wx : worth (binary_normalize 24 128 x 0 false) x 0).
  { apply normalize_exact; [lia|apply same_refl|]. split; [exact Hx|lia]. }
  assert (Nx : number 24 128 (binary_normalize 24 128 x 0 false)).
  { exact (proj1 (proj1 (normalize_good 24 128 ltac:(lia) x 0 false))). }
  set (fx := binary_normalize 24 128 x 0 false) in *. clearbody fx.
  assert (W : worth (SFmul 24 128 k fx) (K * x) (- q)).
  { refine (mul_exact 24 128 _ k fx K (- q) x 0 (K * x) (- q) Nk Nx _ Wk Wx _ _); [lia|lia| |].
    - rewrite Z.add_0_r. apply same_refl.
    - split; [exact Hp|lia]. }
  rewrite (trunc_exact _ (K * x) (- q) W). f_equal. rewrite Z.opp_involutive.
  destruct (Z.leb_spec 0 (- q)); [|reflexivity]. replace q with 0 by lia. change (2 ^ 0) with 1. change (2 ^ (-0)) with 1. now rewrite Z.quot_1_r, Z.mul_1_r.
Qed.

Lemma quot_small : forall K x q, 0 <= q -> small K x -> Z.abs (Z.quot (K * x) (2 ^ q)) < 2 ^ 24.
Proof.
  intros K x q Hq [_ H]. assert (0 < 2 ^ q) by (apply Z.pow_pos_nonneg; lia). rewrite <- Z.quot_abs by lia.
  rewrite (Z.abs_eq (2 ^ q)), Z.quot_div_nonneg by lia. pose proof (Z.div_le_upper_bound (Z.abs (K * x)) (2 ^ q) (Z.abs (K * x))). nia.
Qed.

Lemma exact_l : forall N D, (0 < N)%nat -> (0 < D)%nat -> forall B h P qp I qi K qd,
  0 <= B -> 4 * B <= INT_MAX -> Z.of_nat N * (2 * B) <= INT_MAX -> Forall thresholds_fit h -> Forall (within B) h ->
  scaled (gain_p h) P qp -> scaled (gain_i h) I qi -> scaled (gain_d h) K qd ->
  small P (error h) -> small I (sum (firstn N (contributions N h))) -> small K (difference D h) ->
  exists p, prun N D h = Done p /\
    pid_compute N D p = Done (Z.quot (P * error h) (2 ^ qp) + Z.quot (I * sum (firstn N (contributions N h))) (2 ^ qi)
                              + Z.quot (K * difference D h) (2 ^ qd)).
Proof.
  intros N D HN HD B h P qp I qi K qd HB HB4 HNB Hf Hw Sp Si Sd Mp Mi Md.
  destruct (output_l N D HN HD B h HB HB4 HNB Hf Hw) as (p & Hp & _ & H). exists p. split; [exact Hp|].
  assert (Gp := gain_exact _ _ _ _ Sp Mp). assert (Gi := gain_exact _ _ _ _ Si Mi).
  assert (Gd : derivative_term D h (Z.quot (K * difference D h) (2 ^ qd))).
  { unfold derivative_term. unfold difference in *. destruct (past_errors h) as [|e es]; [rewrite Z.mul_0_r; apply Zquot_0_l|].
    destruct (deriv_on h && _); [rewrite Z.mul_0_r; apply Zquot_0_l|]. exact (gain_exact _ _ _ _ Sd Md). }
  assert (Bp := quot_small P _ qp (proj1 (proj2 (proj2 Sp))) Mp). assert (Bi := quot_small I _ qi (proj1 (proj2 (proj2 Si))) Mi).
  assert (Bd := quot_small K _ qd (proj1 (proj2 (proj2 Sd))) Md).
  change (2 ^ 24) with 16777216 in Bp, Bi, Bd. revert H Gp Gi Gd Bp Bi Bd.
  generalize (Z.quot (P * error h) (2 ^ qp)) (Z.quot (I * sum (firstn N (contributions N h))) (2 ^ qi)) (Z.quot (K * difference D h) (2 ^ qd)).
  intros rp ri rd H Gp Gi Gd Bp Bi Bd.
  assert (M : INT_MIN = -2147483648 /\ INT_MAX = 2147483647) by (split; reflexivity).
  refine (H rp ri rd _ _ _ Gp Gi Gd _ _); clear - Bp Bi Bd M; lia.
Qed.

(** * Thresholds of any size *)

Lemma int_of_swrap : forall t, swrap 32 (int_of t) = swrap 32 t /\ INT_MIN <= int_of t <= INT_MAX.
Proof.
  intros t. unfold int_of, swrap, INT_MIN, INT_MAX.
  change (2 ^ (32 - 1)) with 2147483648. change (2 ^ 31) with 2147483648. change (2 ^ 32) with 4294967296.
  pose proof (Z.mod_pos_bound (t + 2147483648) 4294967296 eq_refl) as B. split; [|lia].
  rewrite Zminus_mod_idemp_l. replace (t + 2147483648 - 2147483648) with t by lia. reflexivity.
Qed.

Lemma as_int_l : forall N D h, prun N D (map as_int h) = prun N D h /\ Forall thresholds_fit (map as_int h).
Proof.
  intros N D h. induction h as [|o h [IH F]]; [split; [reflexivity|constructor]|]. cbn [map prun]. rewrite IH. split.
  - destruct (prun N D h) as [q| | |]; cbn [obind]; try reflexivity.
    destruct o; cbn [as_int pstep]; try reflexivity.
    + unfold pid_set_integral_low_threshold. rewrite (proj1 (int_of_swrap t)). reflexivity.
    + unfold pid_set_integral_high_threshold. rewrite (proj1 (int_of_swrap t)). reflexivity.
  - constructor; [|exact F]. destruct o; cbn [as_int thresholds_fit]; try exact Logic.I; apply int_of_swrap.
Qed.

Lemma latest_as_int : forall A (f : pop -> option A) d h, (forall o, f (as_int o) = f o) -> latest f d (map as_int h) = latest f d h.
Proof.
  intros A f d h Hf. induction h as [|o h IH]; [reflexivity|]. cbn [map latest]. rewrite Hf, IH. reflexivity.
Qed.

Lemma within_as_int : forall B h, Forall (within B) h -> Forall (within B) (map as_int h).
Proof.
  intros B h F. induction F as [|o h H F IH]; cbn [map]; constructor; [|exact IH]. destruct o; exact H.
Qed.

Lemma integral_any_l : forall N D, (0 < N)%nat -> (0 < D)%nat -> forall B h,
  0 <= B -> 2 * B <= INT_MAX -> Z.of_nat N * (2 * B) <= INT_MAX -> Forall (within B) h ->
  exists p, prun N D h = Done p /\ forall r, INT_MIN <= r <= INT_MAX ->
    (pid_compute_i N p = Done r <-> gain (gain_i h) (sum (firstn N (contributions N (map as_int h)))) r).
Proof.
  intros N D HN HD B h H1 H2 H3 W. destruct (as_int_l N D h) as [E F].
  destruct (integral_l N D HN HD B (map as_int h) H1 H2 H3 F (within_as_int B h W)) as (p & P & R).
  exists p. rewrite <- E. split; [exact P|]. intros r Hr. rewrite (R r Hr).
  unfold gain_i. rewrite latest_as_int; [reflexivity|]. intros o; destruct o; reflexivity.
Qed.

Lemma any_threshold_l : forall N D, (0 < N)%nat -> (0 < D)%nat -> forall B h v,
  0 <= B -> 2 * B <= INT_MAX -> Z.of_nat N * (2 * B) <= INT_MAX ->
  Forall (within B) (Input v :: h) -> autoclear h = false ->
  let e := setpoint h - v in e <> 0 ->
  let taken := if 0 <? e then negb (low_on h) || (e <? int_of (low_limit h))
               else negb (high_on h) || (- e <? int_of (high_limit h)) in
  exists p, prun N D (Input v :: h) = Done p /\ forall r, INT_MIN <= r <= INT_MAX ->
    (pid_compute_i N p = Done r <->
     gain (gain_i h) ((if taken then e else 0) + sum (firstn (N - 1) (contributions N (map as_int h)))) r).
Proof.
  intros N D HN HD B h v H1 H2 H3 W A e He taken.
  destruct (integral_any_l N D HN HD B (Input v :: h) H1 H2 H3 W) as (p & P & R).
  exists p. split; [exact P|]. intros r Hr. rewrite (R r Hr). clear R.
  assert (L : forall A (f : pop -> option A) d, (forall o, f (as_int o) = f o) -> latest f d (map as_int h) = latest f d h)
    by (intros; apply latest_as_int; assumption).
  unfold gain_i at 1. cbn [latest]. fold (gain_i h). cbn [map as_int contributions].
  assert (Ea : autoclear (map as_int h) = false).
  { unfold autoclear. rewrite L; [exact A|]. intros o; destruct o; reflexivity. }
  rewrite Ea. cbn [andb].
  assert (Ee : error (Input v :: map as_int h) = e).
  { unfold error, setpoint, reading, e. cbn [latest]. rewrite L; [reflexivity|]. intros o; destruct o; reflexivity. }
  rewrite Ee. destruct (Z.eqb_spec e 0); [contradiction|].
  destruct N as [|k]; [lia|]. cbn [firstn]. replace (S k - 1)%nat with k by lia.
  change (sum (?a :: ?l)) with (a + sum l).
  replace (accepted (map as_int h) e) with (if taken then e else 0); [reflexivity|].
  unfold accepted, taken.
  assert (El : low_on (map as_int h) = low_on h) by (unfold low_on; apply L; intros o; destruct o; reflexivity).
  assert (Eh : high_on (map as_int h) = high_on h) by (unfold high_on; apply L; intros o; destruct o; reflexivity).
  assert (Ll : low_limit (map as_int h) = int_of (low_limit h)).
  { unfold low_limit. clear. induction h as [|o h IH]; [reflexivity|]. destruct o; cbn [map as_int latest]; try exact IH. reflexivity. }
  assert (Lh : high_limit (map as_int h) = int_of (high_limit h)).
  { unfold high_limit. clear. induction h as [|o h IH]; [reflexivity|]. destruct o; cbn [map as_int latest]; try exact IH. reflexivity. }
  rewrite El, Eh, Ll, Lh. clear - He.
  destruct (Z.ltb_spec 0 e).
  - destruct (low_on h); cbn [negb orb andb]; [|reflexivity].
    destruct (Z.leb_spec (int_of (low_limit h)) e); destruct (Z.ltb_spec e (int_of (low_limit h))); try reflexivity; lia.
  - destruct (high_on h); cbn [negb orb andb]; [|reflexivity].
    destruct (Z.leb_spec (int_of (high_limit h)) (- e)); destruct (Z.ltb_spec (- e) (int_of (high_limit h))); try reflexivity; lia.
Qed.
