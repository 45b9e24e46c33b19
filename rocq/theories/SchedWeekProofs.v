From Verif Require Import Base BaseLemmas SchedulerModel SchedulerSpec SchedulerProofs SchedWeekSpec.

Lemma count_ext : forall p q n, (forall x, 0 <= x < Z.of_nat n -> p x = q x) -> count p n = count q n.
Proof.
  induction n; intros H; [reflexivity|]. cbn [count]. rewrite IHn by (intros; apply H; lia). rewrite H by lia. reflexivity.
Qed.

Lemma count_app : forall p a b, count p (a + b) = count p a + count (fun x => p (Z.of_nat a + x)) b.
Proof.
  induction b; [rewrite Nat.add_0_r; cbn; lia|]. rewrite Nat.add_succ_r. cbn [count]. rewrite IHb. rewrite Nat2Z.inj_add. lia.
Qed.

Lemma count_false : forall n, count (fun _ => false) n = 0.
Proof. induction n; cbn [count]; [reflexivity|]. rewrite IHn. reflexivity. Qed.

Lemma count_interval : forall a b n, 0 <= a ->
  count (fun x => (a <=? x) && (x <? b)) n = Z.max 0 (Z.min b (Z.of_nat n) - a).
Proof.
  intros a b n Ha. induction n; [cbn [count]; lia|]. cbn [count]. rewrite IHn.
  destruct (Z.leb_spec a (Z.of_nat n)), (Z.ltb_spec (Z.of_nat n) b); cbn [andb b2z]; lia.
Qed.

(** Outside an interval. *)
Lemma count_outside : forall a b n, 0 <= a ->
  count (fun x => (x <? a) || (b <=? x)) n = Z.of_nat n - Z.max 0 (Z.min b (Z.of_nat n) - a).
Proof.
  intros a b n Ha. induction n; [cbn [count]; lia|]. cbn [count]. rewrite IHn.
  destruct (Z.ltb_spec (Z.of_nat n) a), (Z.leb_spec b (Z.of_nat n)); cbn [orb b2z]; lia.
Qed.

Lemma moment_ok : forall w s, 0 <= w < 7 -> 0 <= s < DAY ->
  tm_ok (moment (w * DAY + s)) /\ tm_wday (moment (w * DAY + s)) = w /\ clock (moment (w * DAY + s)) = s.
Proof.
  intros w s Hw Hs. assert (E1 : (w * DAY + s) / DAY = w) by (symmetry; apply Z.div_unique with s; lia).
  assert (E2 : (w * DAY + s) mod DAY = s) by (symmetry; apply Z.mod_unique with w; lia).
  unfold tm_ok, moment, clock. cbn [tm_wday tm_hour tm_min tm_sec]. rewrite E1, E2. unfold DAY in *.
  pose proof (Z.div_mod s 60 ltac:(lia)). pose proof (Z.mod_pos_bound s 60 ltac:(lia)).
  pose proof (Z.div_mod (s / 60) 60 ltac:(lia)). pose proof (Z.mod_pos_bound (s / 60) 60 ltac:(lia)).
  assert (s / 60 / 60 = s / 3600) by (rewrite Z.div_div by lia; reflexivity). lia.
Qed.

Section E.
Variable e : entry.
Hypothesis He : entry_ok e.
Hypothesis Hen : enabled e <> 0.

Lemma active_one : forall t, tm_ok t -> scheduler_is_active [e] t = b2z (active_today e (tm_wday t) (clock t)).
Proof using He Hen.
  intros t Ht. unfold scheduler_is_active, scheduler_get_active_entry_number. cbn [active_loop].
  destruct (Z.eqb_spec (enabled e) 0); [contradiction|]. rewrite (active_eq e t He Ht).
  destruct (active_today e (tm_wday t) (clock t)); reflexivity.
Qed.

Lemma count_day : forall D w, Z.of_nat D = DAY -> 0 <= w < 7 ->
  count (fun s => scheduler_is_active [e] (moment (w * DAY + s)) =? 1) D = b2z (on_day e w) * seconds_a_day e.
Proof using He Hen.
  intros D w HD Hw. destruct He as (_ & _ & Hs & Hed & _).
  transitivity (count (fun s => active_today e w s) D).
  { apply count_ext. intros s Hs0. rewrite HD in Hs0. destruct (moment_ok w s Hw Hs0) as (T1 & T2 & T3).
    rewrite active_one by exact T1. rewrite T2, T3. now destruct (active_today e w s). }
  unfold active_today. destruct (on_day e w); cbn [andb b2z]; [|rewrite count_false; lia].
  unfold seconds_a_day, covers. destruct (Z.leb_spec (end_second e) DAY) as [L|L].
  - transitivity (count (fun x => (start_second e <=? x) && (x <? end_second e)) D).
    + apply count_ext. intros x Hx. destruct (Z.ltb_spec DAY (end_second e)); [lia|]. cbn [andb]. now rewrite orb_false_r.
    + rewrite count_interval by lia. lia.
  - transitivity (count (fun x => (x <? end_second e - DAY) || (start_second e <=? x)) D).
    + apply count_ext. intros x Hx. rewrite HD in Hx. destruct (Z.ltb_spec DAY (end_second e)); [|lia]. cbn [andb].
      destruct (Z.ltb_spec x (end_second e)), (Z.ltb_spec (x + DAY) (end_second e)), (Z.ltb_spec x (end_second e - DAY)), (Z.leb_spec (start_second e) x); try reflexivity; lia.
    + rewrite count_outside by lia. lia.
Qed.

Lemma week_l : in_a_week (fun t => scheduler_is_active [e] t =? 1) = num_days e * seconds_a_day e.
Proof using He Hen.
  unfold in_a_week. assert (HD : Z.of_nat (Z.to_nat DAY) = DAY) by (apply Z2Nat.id; unfold DAY; lia).
  set (D := Z.to_nat DAY) in *. clearbody D.
  assert (Days : forall k, (k <= 7)%nat ->
    count (fun x => scheduler_is_active [e] (moment x) =? 1) (k * D) =
    zlen (filter (on_day e) (firstn k [0;1;2;3;4;5;6])) * seconds_a_day e).
  { induction k; intros Hk; [reflexivity|]. replace (S k * D)%nat with (k * D + D)%nat by lia. rewrite count_app, IHk by lia.
    rewrite Nat2Z.inj_mul, HD. rewrite (count_day D (Z.of_nat k) HD ltac:(lia)).
    assert (Ek : firstn (S k) [0;1;2;3;4;5;6] = firstn k [0;1;2;3;4;5;6] ++ [Z.of_nat k]).
    { destruct k as [|[|[|[|[|[|[|k]]]]]]]; try reflexivity. lia. }
    rewrite Ek, filter_app. cbn [filter]. unfold zlen. rewrite app_length. destruct (on_day e (Z.of_nat k)); cbn [length b2z]; lia. }
  exact (Days 7%nat ltac:(lia)).
Qed.

Lemma duration_eq : scheduler_get_entry_duration e = Z.abs (end_second e - start_second e).
Proof using He.
  destruct He as (_ & _ & Hs & Hed & _). unfold scheduler_get_entry_duration, wrap.
  destruct (Z.ltb_spec (start_second e) (end_second e)); rewrite Z.mod_small by lia; lia.
Qed.

Lemma week_duration_l : start_second e <= end_second e -> num_days e <> 0 ->
  (in_a_week (fun t => scheduler_is_active [e] t =? 1) = num_days e * scheduler_get_entry_duration e <->
   end_second e <= DAY \/ (start_second e <= DAY /\ end_second e - start_second e <= DAY) \/ end_second e - start_second e = DAY).
Proof using He Hen.
  intros H1 Hn. rewrite week_l, duration_eq. destruct He as (_ & _ & Hs & Hed & _). unfold seconds_a_day. split.
  - intros H. apply Z.mul_reg_l in H; [|exact Hn]. destruct (Z.leb_spec (end_second e) DAY); unfold DAY in *; lia.
  - intros H. f_equal. destruct (Z.leb_spec (end_second e) DAY); unfold DAY in *; lia.
Qed.
End E.
