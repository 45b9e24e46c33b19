From Verif Require Import Base TimeModel WatcherModel WatcherSpec WatcherSystem WatcherProofs WatchNestModel WatchNestSpec.

(** * Lists at an index *)

Lemma zget_app : forall {A} (a : list A) x b, zget (a ++ x :: b) (zlen a) = Done x.
Proof.
  intros A a x b. unfold zget, zlen. destruct (Z.ltb_spec (Z.of_nat (length a)) 0) as [|_]; [lia|].
  rewrite Nat2Z.id, nth_error_app2, Nat.sub_diag by lia. reflexivity.
Qed.

Lemma upd_app : forall {A} (a : list A) x b y, upd (a ++ x :: b) (Z.to_nat (zlen a)) y = a ++ y :: b.
Proof.
  intros A a x b y. unfold zlen. rewrite Nat2Z.id. induction a as [|c a IH]; cbn [app length upd]; [reflexivity|].
  now rewrite IH.
Qed.

Lemma zlen_snoc : forall {A} (a : list A) x, zlen (a ++ [x]) = zlen a + 1.
Proof. intros A a x. unfold zlen. rewrite app_length. cbn. lia. Qed.

Lemma snoc_app : forall {A} (a : list A) x b, a ++ x :: b = (a ++ [x]) ++ b.
Proof. intros. now rewrite <- app_assoc. Qed.

(** * Callbacks that do not use the list *)

Section Plain.
Variables I L : Z.
Variable behave : Z -> Z -> Z -> list Z -> body.
Variable eff : Z -> Z -> Z -> list Z -> list Z.
Hypothesis Hplain : forall c a d m, behave c a d m = Return (eff c a d m).

Lemma call_plain : forall fuel a x b m cs,
  call_at behave (run I L behave (S fuel)) (a ++ x :: b, m, cs) (zlen a)
  = (do (m, c) <- call eff x m; Done (a ++ x :: b, m, cs ++ [c])).
Proof using Hplain.
  intros. unfold call_at, call. rewrite zget_app. cbn [obind]. destruct (cb x =? 0); [reflexivity|].
  destruct (zread m (current x) (size x)) as [seen| | |]; cbn [obind]; try reflexivity.
  rewrite Hplain. reflexivity.
Qed.

Lemma process_at_plain : forall fuel a x b m cs now,
  process_at I L behave (run I L behave (S fuel)) (a ++ x :: b, m, cs) (zlen a) now
  = (do (x, m, c, changed) <- process_one I L eff x m now; Done (a ++ x :: b, m, cs ++ c, changed)).
Proof using Hplain.
  intros. unfold process_at, process_one. rewrite zget_app. cbn [obind].
  destruct (differs x m) as [d| | |]; cbn [obind]; try reflexivity. destruct d.
  - destruct (0 <? delay x).
    + cbn [obind]. rewrite upd_app, zget_app. cbn [obind]. destruct (save _ m); cbn [obind]; try reflexivity.
      rewrite upd_app, app_nil_r. reflexivity.
    + rewrite upd_app, call_plain. destruct (call eff (set_moved x 0) m) as [[m' c]| | |]; cbn [obind]; try reflexivity.
      rewrite zget_app. cbn [obind]. destruct (save (set_moved x 0) m'); cbn [obind]; try reflexivity.
      rewrite upd_app. reflexivity.
  - destruct (moved x =? 0); [cbn [obind]; rewrite app_nil_r; reflexivity|].
    destruct (is_expired I L L (timestamp x) now (delay x)); [|cbn [obind]; rewrite app_nil_r; reflexivity].
    rewrite upd_app, call_plain. destruct (call eff (set_moved x 0) m) as [[m' c]| | |]; cbn [obind]; reflexivity.
Qed.

Lemma loop_plain : forall fuel now b a m cs,
  process_loop I L behave (run I L behave (S fuel)) (length b) (zlen a) (a ++ b, m, cs) now
  = (do (b, m, c, res) <- watcher_process_changes I L eff b m now; Done (a ++ b, m, cs ++ c, res)).
Proof using Hplain.
  intros fuel now b. induction b as [|x b IH]; intros a m cs; cbn [length process_loop watcher_process_changes]; [reflexivity|].
  cbn [fst]. rewrite zget_app. cbn [obind]. destruct (current x =? 0); [cbn [obind]; now rewrite app_nil_r|].
  rewrite process_at_plain. destruct (process_one I L eff x m now) as [[[[x' m'] c] ch]| | |]; cbn [obind]; try reflexivity.
  rewrite snoc_app, <- (zlen_snoc a x'), IH.
  destruct (watcher_process_changes I L eff b m' now) as [[[[b' m''] c'] res]| | |]; cbn [obind]; try reflexivity.
  rewrite <- !app_assoc. reflexivity.
Qed.

Lemma plain_l : forall fuel l m now,
  process_changes I L behave (S fuel) l m now
  = (do (l, m, c, res) <- watcher_process_changes I L eff l m now; Done (l, m, c, res)).
Proof using Hplain. intros. unfold process_changes, process. cbn [fst]. exact (loop_plain fuel now l [] m []). Qed.

Lemma trigger_plain : forall fuel b a m cs,
  trigger_loop behave (run I L behave (S fuel)) (length b) (zlen a) (a ++ b, m, cs)
  = (do (m, c) <- watcher_trigger_all eff b m; Done (a ++ b, m, cs ++ c)).
Proof using Hplain.
  intros fuel b. induction b as [|x b IH]; intros a m cs; cbn [length trigger_loop watcher_trigger_all]; [reflexivity|].
  cbn [fst]. rewrite zget_app. cbn [obind]. destruct (current x =? 0); [cbn [obind]; now rewrite app_nil_r|].
  rewrite call_plain. destruct (call eff x m) as [[m' c]| | |]; cbn [obind]; try reflexivity.
  rewrite snoc_app, <- (zlen_snoc a x), IH. destruct (watcher_trigger_all eff b m') as [[m'' c']| | |]; cbn [obind]; try reflexivity.
  rewrite <- !app_assoc. reflexivity.
Qed.

Lemma call_at_plain : forall fuel l m cs i, call_at behave (run I L behave (S fuel)) (l, m, cs) i = (do (m, c) <- watcher_trigger_cb eff l m i; Done (l, m, cs ++ c)).
Proof using Hplain.
  intros. unfold call_at, watcher_trigger_cb, call. destruct (zget l i) as [x| | |]; cbn [obind]; try reflexivity.
  destruct (cb x =? 0); [reflexivity|]. destruct (zread m (current x) (size x)); cbn [obind]; try reflexivity. rewrite Hplain. reflexivity.
Qed.

Lemma calls_l : forall fuel b l cs, run I L behave (S (S fuel)) b l cs = (do (l, m, c) <- plain_body I L eff b l; Done (l, m, cs ++ c)).
Proof using Hplain.
  intros fuel b l cs. change (run I L behave (S (S fuel)) b l cs) with (perform I L behave (run I L behave (S fuel)) b l cs).
  revert l cs. induction b as [m|m now k IH|m now k IH|m k IH|m i k IH|m k IH]; intros l cs; cbn [perform plain_body].
  - cbn [obind]. now rewrite app_nil_r.
  - unfold process. cbn [fst]. change 0 with (zlen (@nil watcher)). change l with ([] ++ l) at 2. rewrite loop_plain.
    destruct (watcher_process_changes I L eff l m now) as [[[[l' m'] c] res]| | |]; cbn [obind app]; try reflexivity. rewrite IH.
    destruct (plain_body I L eff (k m' res) l') as [[[l2 m2] c2]| | |]; cbn [obind]; try reflexivity. now rewrite app_assoc.
  - destruct (watcher_clear_changes l m now) as [l'| | |]; cbn [obind]; try reflexivity. apply IH.
  - destruct (watcher_check_for_changes l m) as [r| | |]; cbn [obind]; try reflexivity. apply IH.
  - rewrite call_at_plain. destruct (watcher_trigger_cb eff l m i) as [[m' c]| | |]; cbn [obind]; try reflexivity. rewrite IH.
    destruct (plain_body I L eff (k m') l) as [[[l2 m2] c2]| | |]; cbn [obind]; try reflexivity. now rewrite app_assoc.
  - unfold trigger_all. cbn [fst]. change 0 with (zlen (@nil watcher)). change l with ([] ++ l) at 2. rewrite trigger_plain.
    destruct (watcher_trigger_all eff l m) as [[m' c]| | |]; cbn [obind app]; try reflexivity. rewrite IH.
    destruct (plain_body I L eff (k m') l) as [[[l2 m2] c2]| | |]; cbn [obind]; try reflexivity. now rewrite app_assoc.
Qed.
End Plain.

(** * Processing in an immediate callback *)

Section Endless.
Variables I L : Z.
Variable behave : Z -> Z -> Z -> list Z -> body.

Lemma at_idle : forall R a x b m cs now, ready (zlen m) x -> idle m x ->
  process_at I L behave R (a ++ x :: b, m, cs) (zlen a) now = Done ((a ++ x :: b, m, cs), false).
Proof.
  intros R a x b m cs now (Hf & Hr & Hc) [Hs Hm]. unfold process_at. rewrite zget_app. cbn [obind].
  rewrite (differs_ok (zlen m)) by auto. cbn [obind].
  assert (E : bytes_eqb (recorded x) (bytes m (current x) (size x)) = true).
  { apply bytes_eqb_spec. unfold stale in Hs. destruct (list_eq_dec Z.eq_dec (recorded x) (bytes m (current x) (size x))); [assumption|contradiction]. }
  rewrite E, Hm. reflexivity.
Qed.

Lemma reach_timeout : forall R m cs now y b n, current y <> 0 -> forall a2 a1, Forall (ready (zlen m)) a2 -> Forall (idle m) a2 ->
  process_at I L behave R (a1 ++ a2 ++ y :: b, m, cs) (zlen (a1 ++ a2)) now = Timeout ->
  process_loop I L behave R (length a2 + S n) (zlen a1) (a1 ++ a2 ++ y :: b, m, cs) now = Timeout.
Proof.
  intros R m cs now y b n Hy. induction a2 as [|c a2 IHa]; intros a1 Hr2 Hi2 Hat.
  - rewrite app_nil_r in Hat. cbn [length Nat.add app process_loop fst] in *. rewrite zget_app. cbn [obind].
    destruct (Z.eqb_spec (current y) 0) as [E|_]; [contradiction|]. rewrite Hat. reflexivity.
  - inversion Hr2 as [|? ? Hc Hr3]; inversion Hi2 as [|? ? Hc' Hi3]; subst. cbn [length Nat.add app process_loop fst].
    rewrite zget_app. cbn [obind]. pose proof Hc as ((F & _) & _).
    destruct (Z.eqb_spec (current c) 0) as [E|_]; [lia|]. rewrite at_idle by assumption. cbn [obind].
    cbn [app] in Hat. rewrite (snoc_app a1 c a2) in Hat. rewrite (snoc_app a1 c (a2 ++ y :: b)) in *.
    rewrite <- (zlen_snoc a1 c). rewrite IHa; [reflexivity|assumption|assumption|]. exact Hat.
Qed.

Lemma endless_l : forall x m, ready (zlen m) x -> stale m x -> delay x = 0 ->
  processes_first (behave (cb x) (current x) (data x) m) m ->
  forall fuel a b cs now, Forall (ready (zlen m)) a -> Forall (idle m) a ->
  forall y, same_static x y -> old y = old x ->
  process I L behave (run I L behave fuel) (a ++ y :: b, m, cs) now = Timeout.
Proof.
  intros x m Hx Hst Hd Hb. induction fuel as [|fuel IH]; intros a b cs now Ha Hi y Hy Ho.
  all: assert (Hry : ready (zlen m) y) by
    (destruct Hx as ((F1 & F2 & F3) & R & C), Hy as (Y1 & Y2 & Y3 & Y4 & Y5); unfold ready, fits, roomy in *; rewrite Y1, Y2, Y3, Ho; auto).
  all: assert (Hsy : bytes_eqb (recorded y) (bytes m (current y) (size y)) = false) by
    (destruct (bytes_eqb (recorded y) (bytes m (current y) (size y))) eqn:E; [|reflexivity]; exfalso;
     apply bytes_eqb_spec in E; apply Hst; destruct Hy as (Y1 & Y2 & _); unfold recorded in *; congruence).
  all: assert (Hdy : delay y = 0) by (destruct Hy as (_ & _ & _ & _ & Y5); congruence).
  all: assert (Hny : current y <> 0) by (destruct Hry as ((F & _) & _); lia).
  all: unfold process; cbn [fst]; rewrite app_length; cbn [length]; apply (reach_timeout _ m cs now y b (length b) Hny a [] Ha Hi); cbn [app].
  all: unfold process_at; rewrite zget_app; cbn [obind]; destruct Hry as (Hf & Hr & Hc);
    rewrite (differs_ok (zlen m)) by auto; cbn [obind]; rewrite Hsy, Hdy; cbn [negb Z.ltb Z.compare];
    rewrite upd_app; unfold call_at; rewrite zget_app; cbn [obind cb set_moved current size data];
    destruct (Z.eqb_spec (cb y) 0) as [|_]; [contradiction|]; rewrite (read_cur (zlen m)) by auto; cbn [obind].
  - reflexivity.
  - destruct Hb as (t & k & E). destruct Hy as (Y1 & Y2 & Y3 & Y4 & Y5). rewrite Y1, Y3, Y4, E. cbn [run perform].
    rewrite (IH a b _ t Ha Hi (set_moved y 0)); [reflexivity| |exact Ho].
    unfold same_static; cbn [set_moved current size cb data delay]; auto.
Qed.
End Endless.

(** * Callbacks that process the list at the same time *)

Lemma static_ready : forall N x y, same_static x y -> roomy y -> ready N x -> ready N y.
Proof.
  intros N x y (Y1 & Y2 & Y3 & Y4 & Y5) Hr ((F1 & F2 & F3) & R & C). unfold ready, fits in *.
  rewrite Y1, Y2, Y3. auto.
Qed.

Lemma static_call : forall m x y, same_static x y -> call_of m y = call_of m x.
Proof. intros m x y (Y1 & Y2 & Y3 & Y4 & Y5). unfold call_of. now rewrite Y1, Y2, Y3, Y4. Qed.

Lemma static_trans : forall x y u, same_static x y -> same_static y u -> same_static x u.
Proof. unfold same_static. intuition congruence. Qed.

Lemma static_refl : forall x, same_static x x.
Proof. unfold same_static. auto. Qed.

Section Same.
Variables I L : Z.
Variable m : list Z.
Variable now : Z.
Hypothesis HL : 0 < L.

Definition idl (_ _ _ : Z) (m : list Z) : list Z := m.
Let one (x : watcher) := process_one I L idl x m now.
Definition after (x : watcher) : watcher := match one x with Done (y, _, _, _) => y | _ => x end.
Definition calls (x : watcher) : list call_event := match one x with Done (_, _, c, _) => c | _ => [] end.
Definition noted (x : watcher) : bool := match one x with Done (_, _, _, b) => b | _ => false end.

Lemma one_cases : forall x, ready (zlen m) x ->
  (differs x m = Done true /\ 0 < delay x /\ exists x', save (set_moved (set_timestamp x now) 1) m = Done x' /\ one x = Done (x', m, [], true)) \/
  (differs x m = Done true /\ delay x <= 0 /\ exists x', save (set_moved x 0) m = Done x' /\ one x = Done (x', m, [call_of m x], true)) \/
  (differs x m = Done false /\ (moved x = 0 \/ is_expired I L L (timestamp x) now (delay x) = false) /\ one x = Done (x, m, [], false)) \/
  (differs x m = Done false /\ moved x <> 0 /\ is_expired I L L (timestamp x) now (delay x) = true /\ one x = Done (set_moved x 0, m, [call_of m x], false)).
Proof.
  intros x (Hf & Hr & Hc). unfold one, process_one.
  assert (Hcall : forall y, same_static x y -> call idl y m = Done (m, call_of m x)).
  { intros y (Y1 & Y2 & Y3 & Y4 & _). unfold call. rewrite Y1, Y2, Y3, Y4.
    destruct (Z.eqb_spec (cb x) 0) as [|_]; [contradiction|]. rewrite (read_cur (zlen m)) by auto. reflexivity. }
  rewrite (differs_ok (zlen m)) by auto. cbn [obind].
  destruct (bytes_eqb (recorded x) (bytes m (current x) (size x))) eqn:E; cbn [negb].
  - right. right. destruct (Z.eqb_spec (moved x) 0) as [Hm|Hm].
    + left. auto.
    + destruct (is_expired I L L (timestamp x) now (delay x)) eqn:Ee.
      * right. split; [reflexivity|]. split; [exact Hm|]. split; [reflexivity|]. rewrite Hcall by (repeat split). reflexivity.
      * left. auto.
  - destruct (Z.ltb_spec 0 (delay x)) as [Hd|Hd].
    + left. split; [reflexivity|]. split; [exact Hd|].
      destruct (save_ok (zlen m) (set_moved (set_timestamp x now) 1) m Hf Hr eq_refl) as (x' & E1 & _).
      exists x'. split; [exact E1|]. cbn [obind]. rewrite E1. reflexivity.
    + right. left. split; [reflexivity|]. split; [exact Hd|].
      destruct (save_ok (zlen m) (set_moved x 0) m Hf Hr eq_refl) as (x' & E1 & _).
      exists x'. split; [exact E1|]. rewrite Hcall by (repeat split). cbn [obind]. rewrite E1. reflexivity.
Qed.

Lemma one_total : forall x, ready (zlen m) x -> one x = Done (after x, m, calls x, noted x).
Proof.
  intros x Hx. unfold after, calls, noted.
  destruct (one_cases x Hx) as [(_ & _ & x' & _ & E)|[(_ & _ & x' & _ & E)|[(_ & _ & E)|(_ & _ & _ & E)]]]; rewrite E; reflexivity.
Qed.

Lemma after_static : forall x, ready (zlen m) x -> same_static x (after x) /\ ready (zlen m) (after x).
Proof.
  intros x Hx. pose proof Hx as (Hf & Hr & Hc).
  assert (H : same_static x (after x) /\ roomy (after x)).
  { unfold after. destruct (one_cases x Hx) as [(_ & _ & x' & Es & E)|[(_ & _ & x' & Es & E)|[(_ & _ & E)|(_ & _ & _ & E)]]]; rewrite E.
    - destruct (save_ok (zlen m) (set_moved (set_timestamp x now) 1) m Hf Hr eq_refl) as (x2 & E1 & H1 & H2 & _).
      rewrite Es in E1. injection E1 as <-. split; [exact H1|exact H2].
    - destruct (save_ok (zlen m) (set_moved x 0) m Hf Hr eq_refl) as (x2 & E1 & H1 & H2 & _).
      rewrite Es in E1. injection E1 as <-. split; [exact H1|exact H2].
    - split; [apply static_refl|exact Hr].
    - split; [repeat split|exact Hr]. }
  destruct H as [H1 H2]. split; [exact H1|]. now apply (static_ready _ x).
Qed.

Lemma just_now : forall d, 0 < d < 2 ^ (L - 1) -> is_expired I L L now now d = false.
Proof using HL.
  intros d Hd. unfold is_expired, is_loosely_expired, time_after_or_equal. apply Z.leb_gt.
  assert (Hp : 2 ^ L = 2 * 2 ^ (L - 1)) by (rewrite <- Z.pow_succ_r by lia; f_equal; lia).
  assert (Hs : swrap L d = d).
  { unfold swrap. rewrite Hp. rewrite Z.mod_small by lia.
    destruct (Z.ltb_spec d (2 ^ (L - 1))); lia. }
  assert (E : arith I L (arith I L (now + d) - now) = d).
  { unfold arith. destruct (L <? I); [lia|]. unfold wrap. rewrite Zminus_mod_idemp_l. replace (now + d - now) with d by lia. apply Z.mod_small. lia. }
  rewrite E, Hs. lia.
Qed.

Lemma one_again : forall x, ready (zlen m) x -> 0 <= delay x < 2 ^ (L - 1) -> one (after x) = Done (after x, m, [], false).
Proof using HL.
  intros x Hx Hd. pose proof Hx as (Hf & Hr & Hc). destruct (after_static x Hx) as [Hst Hra]. pose proof Hra as (Hf' & Hr' & Hc').
  assert (Hset : recorded (after x) = bytes m (current (after x)) (size (after x)) ->
                 (moved (after x) = 0 \/ is_expired I L L (timestamp (after x)) now (delay (after x)) = false) ->
                 one (after x) = Done (after x, m, [], false)).
  { intros H1 H2. unfold one, process_one. rewrite (differs_ok (zlen m)) by auto. cbn [obind].
    assert (E : bytes_eqb (recorded (after x)) (bytes m (current (after x)) (size (after x))) = true) by now apply bytes_eqb_spec.
    rewrite E. cbn [negb]. destruct (Z.eqb_spec (moved (after x)) 0) as [|Hm]; [reflexivity|].
    destruct H2 as [H2|H2]; [contradiction|]. rewrite H2. reflexivity. }
  assert (Hne : forall y, fits (zlen m) y -> roomy y -> differs y m = Done false -> recorded y = bytes m (current y) (size y)).
  { intros y F R D. rewrite (differs_ok (zlen m)) in D by auto. injection D as D. apply negb_false_iff in D. now apply bytes_eqb_spec. }
  destruct (one_cases x Hx) as [(_ & Hd0 & x' & Es & E)|[(_ & Hd0 & x' & Es & E)|[(D & Hq & E)|(D & _ & _ & E)]]].
  - destruct (save_ok (zlen m) (set_moved (set_timestamp x now) 1) m Hf Hr eq_refl) as (x2 & E1 & H1 & H2 & H3 & H4 & H5).
    rewrite Es in E1. injection E1 as <-. assert (Ea : after x = x') by (unfold after; now rewrite E).
    apply Hset; rewrite Ea in *.
    + destruct H1 as (S1 & S2 & _). rewrite S1, S2. exact H3.
    + right. rewrite H4. destruct H1 as (_ & _ & _ & _ & S5). rewrite S5. cbn [set_moved set_timestamp timestamp delay]. apply just_now. lia.
  - destruct (save_ok (zlen m) (set_moved x 0) m Hf Hr eq_refl) as (x2 & E1 & H1 & H2 & H3 & H4 & H5).
    rewrite Es in E1. injection E1 as <-. assert (Ea : after x = x') by (unfold after; now rewrite E).
    apply Hset; rewrite Ea in *.
    + destruct H1 as (S1 & S2 & _). rewrite S1, S2. exact H3.
    + left. rewrite H5. reflexivity.
  - assert (Ea : after x = x) by (unfold after; now rewrite E). rewrite Ea. exact E.
  - assert (Ea : after x = set_moved x 0) by (unfold after; now rewrite E). apply Hset; rewrite Ea in *.
    + apply (Hne x Hf Hr D).
    + now left.
Qed.

Variable behave : Z -> Z -> Z -> list Z -> body.
Variable z : watcher.
Variable rest : list watcher.
Hypothesis Hz : current z = 0.

Definition tail_ := z :: rest.

Lemma at_done : forall R a x b cs, ready (zlen m) x -> one x = Done (x, m, [], false) ->
  process_at I L behave R (a ++ x :: b, m, cs) (zlen a) now = Done ((a ++ x :: b, m, cs), false).
Proof.
  intros R a x b cs Hx E. unfold process_at. rewrite zget_app. cbn [obind].
  destruct (one_cases x Hx) as [(D & _ & x' & _ & E')|[(D & _ & x' & _ & E')|[(D & Hq & E')|(D & _ & _ & E')]]]; try congruence.
  rewrite D. cbn [obind]. destruct (Z.eqb_spec (moved x) 0) as [|Hm]; [reflexivity|].
  destruct Hq as [Hq|Hq]; [contradiction|]. rewrite Hq. reflexivity.
Qed.

(** Reading only. *)
Lemma visit_only : forall R b v cs, visits false now m b -> Forall (ready (zlen m)) v ->
  perform I L behave R b (v ++ tail_) cs = Done (v ++ tail_, m, cs).
Proof using Hz.
  intros R b. induction b as [m'|m' t k IH|m' t k IH|m' k IH|m' i k IH|m' k IH]; intros v cs Hb Hv; cbn [visits perform] in *.
  - now subst.
  - destruct Hb as (H & _). discriminate.
  - contradiction.
  - destruct Hb as [-> Hb]. destruct (check_state_l (zlen m) z rest v m Hz eq_refl Hv) as (r & E & _). unfold tail_. rewrite E. cbn [obind].
    apply IH; auto.
  - contradiction.
  - contradiction.
Qed.

Definition stage (a b : list watcher) : world := (map after a ++ b ++ tail_, m, flat_map calls a).

Variable ws : list watcher.
Hypothesis Hws : Forall (ready (zlen m)) ws.
Hypothesis Hdel : Forall (fun x => 0 <= delay x < 2 ^ (L - 1)) ws.
Hypothesis Hbeh : Forall (fun x => visits (0 <? delay x) now m (behave (cb x) (current x) (data x) m)) ws.

Definition completes (R : body -> list watcher -> list call_event -> outcome world) (n : nat) : Prop :=
  forall a b, ws = a ++ b -> (length b <= n)%nat ->
    exists r, process I L behave R (stage a b) now = Done (stage ws [], r).

Lemma ready_stage : forall a b, ws = a ++ b -> Forall (ready (zlen m)) (map after a ++ b).
Proof using Hws.
  intros a b Hab. pose proof Hws as H. rewrite Hab in H. apply Forall_app in H. destruct H as [Ha Hb]. apply Forall_app. split; [|exact Hb].
  clear - Ha. induction Ha; constructor; auto. now apply after_static.
Qed.

Lemma visit_run : forall R p n, completes R n -> forall bd, visits p now m bd -> forall a b, ws = a ++ b -> (length b <= n)%nat ->
  exists a' b', ws = a' ++ b' /\ (length a <= length a')%nat /\
    perform I L behave R bd (map after a ++ b ++ tail_) (flat_map calls a) = Done (stage a' b').
Proof using Hz Hws.
  intros R p n HR bd. induction bd as [m'|m' t k IH|m' t k IH|m' k IH|m' i k IH|m' k IH]; intros Hb a b Hab Hn; cbn [visits perform] in *.
  - subst m'. exists a, b. auto.
  - destruct Hb as (_ & -> & -> & Hb). destruct (HR a b Hab Hn) as (r & E). unfold stage in E. rewrite E. cbn [obind].
    destruct (IH m r (Hb r) ws [] (eq_sym (app_nil_r ws)) (Nat.le_0_l _)) as (a' & b' & H1 & H2 & H3).
    exists a', b'. split; [exact H1|]. split; [|exact H3]. rewrite Hab, app_length in H2. lia.
  - contradiction.
  - destruct Hb as [-> Hb]. pose proof (ready_stage a b Hab) as Hr.
    destruct (check_state_l (zlen m) z rest _ m Hz eq_refl Hr) as (r & E & _).
    rewrite <- app_assoc in E. unfold tail_ in *. rewrite E. cbn [obind]. apply IH; auto.
  - contradiction.
  - contradiction.
Qed.

(** One watcher at the front. *)
Lemma front : forall fuel n a x b, completes (run I L behave fuel) n -> ws = a ++ x :: b -> (length b <= n)%nat ->
  exists a' b' ch, ws = a' ++ b' /\ (length a < length a')%nat /\ (ch = true -> noted x = true) /\
    process_at I L behave (run I L behave (S fuel)) (stage a (x :: b)) (zlen (map after a)) now = Done (stage a' b', ch).
Proof using Hz Hws Hbeh.
  intros fuel n a x b HR Hab Hn. unfold stage at 1. unfold process_at. cbn [app]. rewrite zget_app. cbn [obind].
  assert (Hx : ready (zlen m) x) by (rewrite Forall_forall in Hws; apply Hws; rewrite Hab; apply in_or_app; right; now left).
  assert (Hbx : visits (0 <? delay x) now m (behave (cb x) (current x) (data x) m))
    by (rewrite Forall_forall in Hbeh; apply Hbeh; rewrite Hab; apply in_or_app; right; now left).
  assert (Hnext : forall y c, after x = y -> calls x = c ->
            (map after a ++ y :: b ++ tail_, m, flat_map calls a ++ c) = stage (a ++ [x]) b).
  { intros y c <- <-. unfold stage. rewrite map_app, flat_map_app. cbn [map flat_map]. rewrite app_nil_r, <- app_assoc. reflexivity. }
  assert (Hab' : ws = (a ++ [x]) ++ b) by (rewrite <- app_assoc; exact Hab).
  assert (Hla : (length a < length (a ++ [x]))%nat) by (rewrite app_length; cbn; lia).
  pose proof Hx as (Hf & Hr & Hc).
  destruct (one_cases x Hx) as [(D & Hd & x' & Es & E)|[(D & Hd & x' & Es & E)|[(D & Hq & E)|(D & Hm & Hq & E)]]]; rewrite D; cbn [obind].
  - destruct (Z.ltb_spec 0 (delay x)) as [_|]; [|lia]. cbn [obind]. rewrite upd_app, zget_app. cbn [obind]. rewrite Es. cbn [obind].
    rewrite upd_app. exists (a ++ [x]), b, true. split; [exact Hab'|]. split; [exact Hla|].
    split; [intros _; unfold noted; now rewrite E|]. rewrite <- (app_nil_r (flat_map calls a)).
    rewrite (Hnext x' []); [reflexivity|unfold after; now rewrite E|unfold calls; now rewrite E].
  - destruct (Z.ltb_spec 0 (delay x)) as [|_]; [lia|]. rewrite upd_app. unfold call_at. rewrite zget_app. cbn [obind cb set_moved current size data].
    destruct (Z.eqb_spec (cb x) 0) as [|_]; [contradiction|]. rewrite (read_cur (zlen m)) by auto. cbn [obind run].
    pose proof (visit_only (run I L behave fuel) _ (map after a ++ set_moved x 0 :: b) (flat_map calls a ++ [call_of m x]) Hbx) as Hv.
    rewrite <- app_assoc in Hv. cbn [app] in Hv. 
    match goal with |- context [perform ?A1 ?A2 ?A3 ?A4 ?A5 ?A6 ?A7] => set (X := perform A1 A2 A3 A4 A5 A6 A7) end.
    assert (EX : X = Done (map after a ++ set_moved x 0 :: b ++ tail_, m, flat_map calls a ++ [call_of m x])); [unfold X; apply Hv|rewrite EX].
    + pose proof (ready_stage a (x :: b) Hab) as Hr'. apply Forall_app in Hr'. destruct Hr' as [R1 R2]. inversion R2; subst.
      apply Forall_app. split; [exact R1|]. constructor; [|assumption]. exact Hx.
    + cbn [obind]. rewrite zget_app. cbn [obind]. rewrite Es. cbn [obind]. rewrite upd_app.
      exists (a ++ [x]), b, true. split; [exact Hab'|]. split; [exact Hla|]. split; [intros _; unfold noted; now rewrite E|].
      rewrite (Hnext x' [call_of m x]); [reflexivity|unfold after; now rewrite E|unfold calls; now rewrite E].
  - exists (a ++ [x]), b, false. split; [exact Hab'|]. split; [exact Hla|]. split; [discriminate|].
    assert (Es : (map after a ++ x :: b ++ tail_, m, flat_map calls a) = stage (a ++ [x]) b).
    { rewrite <- (app_nil_r (flat_map calls a)). apply Hnext; [unfold after|unfold calls]; now rewrite E. }
    rewrite Es. destruct (Z.eqb_spec (moved x) 0) as [|Hm]; [reflexivity|].
    destruct Hq as [Hq|Hq]; [contradiction|]. rewrite Hq. reflexivity.
  - destruct (Z.eqb_spec (moved x) 0) as [|_]; [contradiction|]. rewrite Hq. rewrite upd_app. unfold call_at. rewrite zget_app.
    cbn [obind cb set_moved current size data]. destruct (Z.eqb_spec (cb x) 0) as [|_]; [contradiction|].
    rewrite (read_cur (zlen m)) by auto. cbn [obind run].
    assert (Has : after x = set_moved x 0) by (unfold after; now rewrite E).
    assert (Hcs : calls x = [call_of m x]) by (unfold calls; now rewrite E).
    pose proof (Hnext _ _ Has Hcs) as Hs. unfold stage in Hs.
    injection Hs as Hs1 Hs2. 
    destruct (visit_run (run I L behave fuel) _ n HR _ Hbx (a ++ [x]) b Hab' Hn) as (a' & b' & H1 & H2 & H3).
    rewrite <- Hs1, <- Hs2 in H3.
    match goal with |- context [perform ?A1 ?A2 ?A3 ?A4 ?A5 ?A6 ?A7] => set (X := perform A1 A2 A3 A4 A5 A6 A7) end.
    assert (EX : X = Done (stage a' b')) by (unfold X; exact H3).
    rewrite EX. cbn [obind]. exists a', b', false. split; [exact H1|]. split; [lia|]. split; [discriminate|reflexivity].
Qed.

Lemma loop_same : forall fuel n, (n <= fuel)%nat -> completes (run I L behave (pred fuel)) (pred n) ->
  forall k a b j, ws = a ++ b -> (length b <= n)%nat -> (j <= length a)%nat -> (length ws - j <= k)%nat ->
  exists r, process_loop I L behave (run I L behave fuel) (S k + length rest) (Z.of_nat j) (stage a b) now = Done (stage ws [], r)
    /\ (r = 0 \/ r = 1 /\ Exists (fun x => noted x = true) ws).
Proof using Hz Hws Hbeh Hdel HL.
  intros fuel n Hfn HR k. induction k as [|k IH]; intros a b j Hab Hn Hj Hk.
  - assert (Hj' : j = length ws) by (pose proof (f_equal (@length _) Hab) as H; rewrite app_length in H; lia).
    assert (b = []) by (destruct b as [|y b]; [reflexivity|]; exfalso; pose proof (f_equal (@length _) Hab) as H; rewrite app_length in H; cbn in H; lia).
    subst b. rewrite app_nil_r in Hab. subst a. cbn [Nat.add process_loop]. unfold stage. cbn [fst app].
    assert (Ez : Z.of_nat j = zlen (map after ws)) by (unfold zlen; rewrite map_length; lia). rewrite Ez. unfold tail_. rewrite zget_app. cbn [obind].
    rewrite Hz. exists 0. split; [reflexivity|now left].
  - destruct (Nat.eq_dec j (length ws)) as [Hj'|Hj'].
    + assert (b = []) by (destruct b as [|y b]; [reflexivity|]; exfalso; pose proof (f_equal (@length _) Hab) as H; rewrite app_length in H; cbn in H; lia).
      subst b. rewrite app_nil_r in Hab. subst a. cbn [Nat.add process_loop]. unfold stage. cbn [fst app].
      assert (Ez : Z.of_nat j = zlen (map after ws)) by (unfold zlen; rewrite map_length; lia). rewrite Ez. unfold tail_. rewrite zget_app. cbn [obind].
      rewrite Hz. exists 0. split; [reflexivity|now left].
    + assert (Hjw : (j < length ws)%nat) by (pose proof (f_equal (@length _) Hab) as H; rewrite app_length in H; lia).
      change (S (S k) + length rest)%nat with (S (S k + length rest)). cbn [process_loop].
      destruct (Nat.eq_dec j (length a)) as [Ha|Ha].
      * destruct b as [|x b]; [exfalso; pose proof (f_equal (@length _) Hab) as H; rewrite app_length in H; cbn in H; lia|].
        assert (Ez : Z.of_nat j = zlen (map after a)) by (unfold zlen; rewrite map_length; lia). rewrite Ez.
        assert (Hx : ready (zlen m) x) by (rewrite Forall_forall in Hws; apply Hws; rewrite Hab; apply in_or_app; right; now left).
        cbn [length] in Hn. destruct fuel as [|fuel]; [lia|]. cbn [pred] in HR.
        destruct (front fuel (pred n) a x b HR Hab ltac:(lia)) as (a' & b' & ch & H1 & H2 & H3 & H4).
        unfold stage at 1. cbn [fst app]. rewrite zget_app. cbn [obind].
        destruct (Z.eqb_spec (current x) 0) as [E|_]; [destruct Hx as ((F & _) & _); lia|]. rewrite H4. cbn [obind]. rewrite <- Ez.
        assert (Hlb : (length b' <= n)%nat).
        { pose proof (f_equal (@length _) Hab) as Q. rewrite H1, !app_length in Q. cbn [length] in Q. lia. }
        destruct (IH a' b' (S j) H1 Hlb ltac:(lia) ltac:(lia)) as (r & E & Hr). replace (Z.of_nat j + 1) with (Z.of_nat (S j)) by lia.
        rewrite E. cbn [obind]. eexists. split; [reflexivity|]. destruct ch; [|exact Hr]. right. split; [reflexivity|].
        apply Exists_exists. exists x. split; [rewrite Hab; apply in_or_app; right; now left|auto].
      * destruct (nth_error a j) as [x|] eqn:Ex; [|apply nth_error_None in Ex; lia].
        destruct (nth_error_split a j Ex) as (a1 & a2 & Ea & El).
        assert (Hxin : In x ws) by (rewrite Hab, Ea; apply in_or_app; left; apply in_or_app; right; now left).
        assert (Hx : ready (zlen m) x) by (rewrite Forall_forall in Hws; now apply Hws).
        assert (Hxd : 0 <= delay x < 2 ^ (L - 1)) by (rewrite Forall_forall in Hdel; now apply Hdel).
        assert (Es : stage a b = (map after a1 ++ after x :: (map after a2 ++ b ++ tail_), m, flat_map calls a)).
        { unfold stage. rewrite Ea at 1. rewrite map_app. cbn [map]. rewrite <- app_assoc. reflexivity. }
        rewrite Es. cbn [fst]. assert (Ez : Z.of_nat j = zlen (map after a1)) by (unfold zlen; rewrite map_length; lia).
        rewrite Ez, zget_app. cbn [obind]. destruct (after_static x Hx) as [Hst Hra].
        destruct (Z.eqb_spec (current (after x)) 0) as [E|_]; [destruct Hra as ((F & _) & _); lia|].
        rewrite at_done by (try assumption; now apply one_again). rewrite <- Es. cbn [obind]. rewrite <- Ez.
        destruct (IH a b (S j) Hab Hn ltac:(lia) ltac:(lia)) as (r & E & Hr). replace (Z.of_nat j + 1) with (Z.of_nat (S j)) by lia.
        rewrite E. cbn [obind]. exists r. split; [reflexivity|exact Hr].
Qed.

Lemma completes_l : forall fuel n, (n <= fuel)%nat -> completes (run I L behave fuel) n.
Proof using Hz Hws Hbeh Hdel HL.
  induction fuel as [|fuel IH]; intros n Hn a b Hab Hb.
  - assert (Hc : completes (run I L behave (pred 0)) (pred n)).
    { assert (n = 0)%nat by lia. subst n. cbn [pred] in *. clear a b Hab Hb. intros a b Hab Hb.
      assert (b = []) by (destruct b; [reflexivity|cbn in Hb; lia]). subst b. rewrite app_nil_r in Hab. subst a.
      (* nothing left: only watchers that are done *)
      unfold process, stage. cbn [fst app].
      assert (G : forall a2 a1, ws = a1 ++ a2 -> exists r,
        process_loop I L behave (run I L behave 0) (length a2 + S (length rest)) (zlen (map after a1)) (map after a1 ++ map after a2 ++ tail_, m, flat_map calls ws) now
        = Done ((map after ws ++ tail_, m, flat_map calls ws), r)).
      { induction a2 as [|x a2 IH2]; intros a1 H.
        - rewrite app_nil_r in H. subst a1. cbn [length Nat.add process_loop fst map app]. unfold tail_. rewrite zget_app. cbn [obind]. rewrite Hz. now exists 0.
        - cbn [length Nat.add process_loop fst map app]. rewrite zget_app. cbn [obind].
          assert (Hxin : In x ws) by (rewrite H; apply in_or_app; right; now left).
          assert (Hx : ready (zlen m) x) by (rewrite Forall_forall in Hws; now apply Hws).
          assert (Hxd : 0 <= delay x < 2 ^ (L - 1)) by (rewrite Forall_forall in Hdel; now apply Hdel).
          destruct (after_static x Hx) as [Hst Hra].
          destruct (Z.eqb_spec (current (after x)) 0) as [E|_]; [destruct Hra as ((F & _) & _); lia|].
          rewrite at_done by (try assumption; now apply one_again). cbn [obind].
          destruct (IH2 (a1 ++ [x])) as (r & E); [rewrite <- app_assoc; exact H|].
          rewrite map_app in E. cbn [map] in E. rewrite zlen_snoc, <- app_assoc in E. cbn [app] in E. rewrite E. cbn [obind]. now exists r. }
      destruct (G ws [] eq_refl) as (r & E). exists r. cbn [map app zlen length] in E. unfold tail_ in *.
      rewrite app_length, map_length. cbn [length]. exact E. }
    assert (Hlen : length (map after a ++ b ++ tail_) = (S (length ws) + length rest)%nat).
    { unfold tail_. rewrite !app_length, map_length. cbn [length]. rewrite Hab, app_length. lia. }
    destruct (loop_same 0 n Hn Hc (length ws) a b 0 Hab Hb ltac:(lia) ltac:(lia)) as (r & E & _).
    exists r. unfold process. unfold stage at 1. cbn [fst]. rewrite Hlen. exact E.
  - assert (Hlen : length (map after a ++ b ++ tail_) = (S (length ws) + length rest)%nat).
    { unfold tail_. rewrite !app_length, map_length. cbn [length]. rewrite Hab, app_length. lia. }
    destruct (loop_same (S fuel) n Hn (IH (pred n) ltac:(lia)) (length ws) a b 0 Hab Hb ltac:(lia) ltac:(lia)) as (r & E & _).
    exists r. unfold process. unfold stage at 1. cbn [fst]. rewrite Hlen. exact E.
Qed.

(** The processing without nested calls. *)
Lemma flat_l : forall a, Forall (ready (zlen m)) a -> exists r,
  watcher_process_changes I L idl (a ++ z :: rest) m now = Done (map after a ++ z :: rest, m, flat_map calls a, r) /\
  (Exists (fun x => noted x = true) a -> r = 1).
Proof using Hz.
  induction a as [|x a IH]; intros Ha.
  - exists 0. cbn [app watcher_process_changes map flat_map]. rewrite Hz. split; [reflexivity|]. intros H. inversion H.
  - inversion Ha as [|? ? Hx Ha']; subst. destruct (IH Ha') as (r & E & Hr). cbn [app watcher_process_changes map flat_map].
    destruct (Z.eqb_spec (current x) 0) as [E0|_]; [destruct Hx as ((F & _) & _); lia|].
    pose proof (one_total x Hx) as Eo. unfold one in Eo. rewrite Eo. cbn [obind]. rewrite E. cbn [obind].
    eexists. split; [reflexivity|]. intros H. destruct (noted x) eqn:En; [reflexivity|]. apply Hr.
    inversion H; subst; [congruence|assumption].
Qed.

Lemma same_l : forall fuel, (length ws <= fuel)%nat -> exists l cs res res',
  watcher_process_changes I L idl (ws ++ z :: rest) m now = Done (l, m, cs, res) /\
  process_changes I L behave fuel (ws ++ z :: rest) m now = Done (l, m, cs, res') /\
  (res' = 0 \/ res' = 1 /\ res = 1 /\ Exists (stale m) ws).
Proof using Hz Hws Hbeh Hdel HL.
  intros fuel Hf. destruct (flat_l ws Hws) as (r & E & Hr).
  assert (Hc : completes (run I L behave (pred fuel)) (pred (length ws))) by (apply completes_l; lia).
  destruct (loop_same fuel (length ws) Hf Hc (length ws) [] ws 0 eq_refl (le_n _) (le_n _) ltac:(lia)) as (r' & E' & Hr').
  exists (map after ws ++ z :: rest), (flat_map calls ws), r, r'. split; [exact E|]. split.
  - unfold process_changes, process. cbn [fst]. rewrite app_length. cbn [length].
    replace (length ws + S (length rest))%nat with (S (length ws) + length rest)%nat by lia. exact E'.
  - destruct Hr' as [->|[-> H]]; [now left|]. right. split; [reflexivity|]. split; [now apply Hr|].
    apply Exists_exists in H. destruct H as (x & Hin & Hnt). apply Exists_exists. exists x. split; [exact Hin|].
    rewrite Forall_forall in Hws. specialize (Hws x Hin). intros Heq.
    assert (D : differs x m = Done false).
    { destruct Hws as (Hxf & Hxr & _). rewrite (differs_ok (zlen m)) by auto. do 2 f_equal. apply negb_false_iff. now apply bytes_eqb_spec. }
    unfold noted in Hnt. destruct (one_cases x Hws) as [(D' & _)|[(D' & _)|[(_ & _ & E2)|(_ & _ & _ & E2)]]]; try congruence; rewrite E2 in Hnt; discriminate.
Qed.
End Same.

(** * Callbacks that process and clear the list at any time *)

Lemma same_length : forall {A B} (P : A -> B -> Prop) l l', Forall2 P l l' -> length l = length l'.
Proof. intros A B P l l' H. induction H; cbn; congruence. Qed.

Section Once.
Variables I L : Z.
Variable behave : Z -> Z -> Z -> list Z -> body.
Variable m : list Z.
Variable z : watcher.
Variable rest : list watcher.
Hypothesis Hz : current z = 0.

Definition busy (x : watcher) : bool := negb (bytes_eqb (recorded x) (bytes m (current x) (size x))) || negb (moved x =? 0).

(** What any function may do to a watcher while the memory stays. *)
Definition calmer (x x' : watcher) : Prop :=
  same_static x x' /\ ready (zlen m) x' /\ (busy x = false -> busy x' = false) /\ (delay x <= 0 -> moved x = 0 -> moved x' = 0).

Definition fine (x : watcher) : Prop :=
  ready (zlen m) x /\ observes (0 <? delay x) m (behave (cb x) (current x) (data x) m).

Lemma calmer_fine : forall x x', calmer x x' -> fine x -> fine x'.
Proof. intros x x' ((Y1 & Y2 & Y3 & Y4 & Y5) & H2 & _) [F1 F2]. split; [exact H2|]. rewrite Y1, Y3, Y4, Y5. exact F2. Qed.

Lemma calmer_refl : forall x, ready (zlen m) x -> calmer x x.
Proof. intros x H. repeat split; auto; apply H. Qed.

Lemma calmer_trans : forall x y u, calmer x y -> calmer y u -> calmer x u.
Proof.
  intros x y u (H1 & H2 & H3 & H4) (G1 & G2 & G3 & G4). split; [now apply (static_trans x y)|]. split; [exact G2|]. split; [auto|].
  intros Hd Hm. apply G4; [destruct H1 as (_ & _ & _ & _ & E); lia|auto].
Qed.

Lemma all_fine : forall v v', Forall2 calmer v v' -> Forall fine v -> Forall fine v'.
Proof.
  intros v v' H. induction H as [|x x' v v' Hx H IH]; intros Hv; [constructor|]. inversion Hv; subst. constructor; [now apply (calmer_fine x)|auto].
Qed.

Lemma all_refl : forall v, Forall fine v -> Forall2 calmer v v.
Proof. intros v H. induction H as [|x v Hx H IH]; constructor; auto. apply calmer_refl, Hx. Qed.

Lemma all_trans : forall v v' v'', Forall2 calmer v v' -> Forall2 calmer v' v'' -> Forall2 calmer v v''.
Proof.
  intros v v' v'' H. revert v''. induction H as [|x x' v v' Hx H IH]; intros v'' H'; inversion H'; subst; constructor; [now apply (calmer_trans _ x')|auto].
Qed.

(** The watchers of [idx] were busy and are not any more; [cs] are their calls. *)
Definition stepped (v v' : list watcher) (idx : list nat) (cs : list call_event) : Prop :=
  Forall2 calmer v v' /\ NoDup idx /\
  Forall2 (fun i c => exists x x', nth_error v i = Some x /\ nth_error v' i = Some x' /\ busy x = true /\ busy x' = false /\ c = call_of m x) idx cs.

Lemma calmer_nth : forall v v' i x, Forall2 calmer v v' -> nth_error v i = Some x -> exists x', nth_error v' i = Some x' /\ calmer x x'.
Proof.
  intros v v' i x H. revert i. induction H as [|y y' v v' Hy H IH]; intros i E; destruct i as [|i]; try discriminate; cbn in *.
  - injection E as <-. eauto.
  - now apply IH.
Qed.

Lemma calmer_nth' : forall v v' i x', Forall2 calmer v v' -> nth_error v' i = Some x' -> exists x, nth_error v i = Some x /\ calmer x x'.
Proof.
  intros v v' i x' H. revert i. induction H as [|y y' v v' Hy H IH]; intros i E; destruct i as [|i]; try discriminate; cbn in *.
  - injection E as <-. eauto.
  - now apply IH.
Qed.

Lemma stepped_refl : forall v, Forall fine v -> stepped v v [] [].
Proof. intros v H. split; [now apply all_refl|]. split; constructor. Qed.

Lemma stepped_trans : forall v v' v'' i1 i2 c1 c2, stepped v v' i1 c1 -> stepped v' v'' i2 c2 -> stepped v v'' (i1 ++ i2) (c1 ++ c2).
Proof.
  intros v v' v'' i1 i2 c1 c2 (A1 & A2 & A3) (B1 & B2 & B3). split; [now apply (all_trans v v')|]. split.
  - assert (D : forall i, In i i1 -> In i i2 -> False).
    { intros i H1 H2. clear A2 B2. assert (P : exists x', nth_error v' i = Some x' /\ busy x' = false).
      { clear - A3 H1. induction A3 as [|j c i1 c1 (x & x' & _ & E & _ & Eb & _) A3 IH]; [contradiction|]. destruct H1 as [->|H1]; [eauto|auto]. }
      assert (Q : exists x', nth_error v' i = Some x' /\ busy x' = true).
      { clear - B3 H2. induction B3 as [|j c i2 c2 (x & x' & E & _ & Eb & _) B3 IH]; [contradiction|]. destruct H2 as [->|H2]; [eauto|auto]. }
      destruct P as (p & P1 & P2), Q as (q & Q1 & Q2). congruence. }
    clear - A2 B2 D. induction A2 as [|i i1 Hi A2 IH]; [exact B2|]. cbn. constructor.
    + intros H. apply in_app_or in H. destruct H as [H|H]; [contradiction|]. apply (D i); [now left|exact H].
    + apply IH. intros j H1 H2. apply (D j); [now right|exact H2].
  - apply Forall2_app.
    + eapply Forall2_weaken; [|exact A3]. intros i c (x & x' & E1 & E2 & E3 & E4 & E5).
      destruct (calmer_nth v' v'' i x' B1 E2) as (x'' & E6 & (_ & _ & C & _)). exists x, x''. split; [exact E1|]. split; [exact E6|]. split; [exact E3|]. split; [now apply C|exact E5].
    + eapply Forall2_weaken; [|exact B3]. intros i c (x' & x'' & E1 & E2 & E3 & E4 & E5).
      destruct (calmer_nth' v v' i x' A1 E1) as (x & E6 & (C1 & _ & C & _)). exists x, x''.
      split; [exact E6|]. split; [exact E2|]. split; [destruct (busy x) eqn:E; [reflexivity|rewrite (C eq_refl) in E3; discriminate]|].
      split; [exact E4|]. rewrite E5. now apply static_call.
Qed.

(** One watcher replaced. *)
Lemma replace_calmer : forall a x b y, Forall fine (a ++ x :: b) -> calmer x y -> Forall2 calmer (a ++ x :: b) (a ++ y :: b).
Proof.
  intros a x b y H Hy. apply Forall_app in H. destruct H as [H1 H2]. inversion H2; subst.
  apply Forall2_app; [now apply all_refl|]. constructor; [exact Hy|now apply all_refl].
Qed.

Lemma nth_mid : forall {A} (a : list A) x b, nth_error (a ++ x :: b) (length a) = Some x.
Proof. intros. rewrite nth_error_app2, Nat.sub_diag by lia. reflexivity. Qed.

Lemma replace_stepped : forall a x b y, Forall fine (a ++ x :: b) -> calmer x y -> busy x = true -> busy y = false ->
  stepped (a ++ x :: b) (a ++ y :: b) [length a] [call_of m x].
Proof.
  intros a x b y H Hy Hx Hyb. split; [now apply replace_calmer|]. split; [constructor; [easy|constructor]|].
  constructor; [|constructor]. exists x, y. rewrite !nth_mid. repeat (split; [auto; reflexivity|]). reflexivity.
Qed.

Lemma replace_quiet : forall a x b y, Forall fine (a ++ x :: b) -> calmer x y -> stepped (a ++ x :: b) (a ++ y :: b) [] [].
Proof. intros a x b y H Hy. split; [now apply replace_calmer|]. split; constructor. Qed.

(** How many are busy. *)
Definition load (v : list watcher) : nat := length (filter busy v).

Lemma load_le : forall v v', Forall2 calmer v v' -> (load v' <= load v)%nat.
Proof.
  intros v v' H. unfold load. induction H as [|x x' v v' (_ & _ & Hb & _) H IH]; [constructor|]. cbn [filter].
  destruct (busy x); [destruct (busy x'); cbn [length]; lia|]. rewrite (Hb eq_refl). exact IH.
Qed.

Lemma load_lt : forall a x b y, busy x = true -> busy y = false -> (load (a ++ y :: b) < load (a ++ x :: b))%nat.
Proof.
  intros a x b y Hx Hy. unfold load. rewrite !filter_app, !app_length. cbn [filter]. rewrite Hx, Hy. cbn [length]. lia.
Qed.

Lemma clear_calmer : forall now v, Forall fine v -> exists v',
  watcher_clear_changes (v ++ z :: rest) m now = Done (v' ++ z :: rest) /\ Forall2 calmer v v'.
Proof using Hz.
  intros now v. induction v as [|x v IH]; intros Hv.
  - exists []. cbn [app watcher_clear_changes]. rewrite Hz. split; [reflexivity|constructor].
  - inversion Hv as [|? ? [Hx Ho] Hv']; subst. destruct (IH Hv') as (v' & E & H). pose proof Hx as (Hf & Hr & Hc).
    cbn [app watcher_clear_changes]. destruct (Z.eqb_spec (current x) 0) as [E0|_]; [destruct Hf as (F & _); lia|].
    rewrite (differs_ok (zlen m)) by auto. cbn [obind].
    destruct (bytes_eqb (recorded x) (bytes m (current x) (size x))) eqn:Eb; cbn [negb].
    + cbn [obind]. rewrite E. cbn [obind]. exists (x :: v'). split; [reflexivity|]. constructor; [now apply calmer_refl|exact H].
    + set (y := if 0 <? delay x then set_moved (set_timestamp x now) 0 else x).
      assert (Hs : same_static x y) by (unfold y; destruct (0 <? delay x); repeat split).
      assert (Hry : ready (zlen m) y) by (unfold y; destruct (0 <? delay x); exact Hx).
      destruct (save_ok (zlen m) y m (proj1 Hry) (proj1 (proj2 Hry)) eq_refl) as (x' & E1 & H1 & H2 & H3 & H4 & H5).
      rewrite E1. cbn [obind]. rewrite E. cbn [obind]. exists (x' :: v'). split; [reflexivity|]. constructor; [|exact H].
      assert (Hst : same_static x x') by now apply (static_trans x y).
      split; [exact Hst|]. split; [now apply (static_ready _ x)|]. split.
      * intros Hb. unfold busy in Hb. rewrite Eb in Hb. discriminate.
      * intros Hd Hm. rewrite H5. unfold y. destruct (0 <? delay x); [reflexivity|exact Hm].
Qed.

(** What a run of the processing gives while at most [n] watchers are busy. *)
Definition bounded (R : body -> list watcher -> list call_event -> outcome world) (n : nat) : Prop :=
  forall v cs now, Forall fine v -> (load v <= n)%nat ->
    exists v' idx new r, process I L behave R (v ++ z :: rest, m, cs) now = Done ((v' ++ z :: rest, m, cs ++ new), r) /\ stepped v v' idx new.

Lemma observe_run : forall R p n, (p = true -> bounded R n) -> forall bd, observes p m bd -> forall v cs, Forall fine v -> (load v <= n)%nat ->
  exists v' idx new, perform I L behave R bd (v ++ z :: rest) cs = Done (v' ++ z :: rest, m, cs ++ new) /\ stepped v v' idx new /\
    (p = false -> new = []).
Proof using Hz.
  intros R p n HR bd. induction bd as [m'|m' t k IH|m' t k IH|m' k IH|m' i k IH|m' k IH]; intros Hb v cs Hv Hn; cbn [observes perform] in *.
  - subst m'. exists v, [], []. rewrite app_nil_r. split; [reflexivity|]. split; [now apply stepped_refl|reflexivity].
  - destruct Hb as (Hp & -> & Hb). destruct (HR Hp v cs t Hv Hn) as (v1 & i1 & c1 & r & E & S1). rewrite E. cbn [obind].
    assert (Hf1 : Forall fine v1) by (apply (all_fine v); [apply S1|exact Hv]).
    assert (Hl1 : (load v1 <= n)%nat) by (pose proof (load_le v v1 (proj1 S1)); lia).
    destruct (IH m r (Hb r) v1 (cs ++ c1) Hf1 Hl1) as (v2 & i2 & c2 & E2 & S2 & _). rewrite E2.
    exists v2, (i1 ++ i2), (c1 ++ c2). rewrite app_assoc. split; [reflexivity|]. split; [now apply (stepped_trans v v1)|congruence].
  - destruct Hb as (-> & Hb). destruct (clear_calmer t v Hv) as (v1 & E & S1). rewrite E. cbn [obind].
    assert (Hf1 : Forall fine v1) by now apply (all_fine v).
    assert (Hl1 : (load v1 <= n)%nat) by (pose proof (load_le v v1 S1); lia).
    destruct (IH m Hb v1 cs Hf1 Hl1) as (v2 & i2 & c2 & E2 & S2 & Hc). rewrite E2. exists v2, i2, c2. split; [reflexivity|].
    split; [|exact Hc]. apply (stepped_trans v v1 v2 [] i2 [] c2); [|exact S2]. split; [exact S1|]. split; constructor.
  - destruct Hb as [-> Hb]. assert (Hr : Forall (ready (zlen m)) v) by (eapply Forall_impl; [|exact Hv]; intros x Hx; apply Hx).
    destruct (check_state_l (zlen m) z rest v m Hz eq_refl Hr) as (r & E & _). rewrite E. cbn [obind]. apply IH; auto.
  - contradiction.
  - contradiction.
Qed.

Lemma one_at : forall fuel n a x b cs now, (n <= fuel)%nat -> bounded (run I L behave (pred fuel)) (pred n) ->
  Forall fine (a ++ x :: b) -> (load (a ++ x :: b) <= n)%nat ->
  exists v' idx new ch, process_at I L behave (run I L behave fuel) (a ++ x :: b ++ z :: rest, m, cs) (zlen a) now
    = Done ((v' ++ z :: rest, m, cs ++ new), ch) /\ stepped (a ++ x :: b) v' idx new.
Proof using Hz.
  intros fuel n a x b cs now Hfn HR Hv Hn.
  assert (Hx : fine x) by (rewrite Forall_forall in Hv; apply Hv; apply in_or_app; right; now left).
  destruct Hx as [Hx Ho]. pose proof Hx as (Hf & Hr & Hc). unfold process_at. rewrite zget_app. cbn [obind].
  rewrite (differs_ok (zlen m)) by auto. cbn [obind].
  destruct (bytes_eqb (recorded x) (bytes m (current x) (size x))) eqn:Eb; cbn [negb].
  - destruct (Z.eqb_spec (moved x) 0) as [Hm|Hm].
    { exists (a ++ x :: b), [], [], false. rewrite app_nil_r, <- app_assoc. split; [reflexivity|now apply stepped_refl]. }
    destruct (is_expired I L L (timestamp x) now (delay x)).
    2: { exists (a ++ x :: b), [], [], false. rewrite app_nil_r, <- app_assoc. split; [reflexivity|now apply stepped_refl]. }
    assert (Hbx : busy x = true) by (unfold busy; rewrite Eb; cbn [negb orb]; destruct (Z.eqb_spec (moved x) 0); [contradiction|reflexivity]).
    assert (Hby : busy (set_moved x 0) = false) by (unfold busy, recorded in *; cbn [set_moved old current size moved]; rewrite Eb; reflexivity).
    assert (Hcy : calmer x (set_moved x 0)) by (split; [repeat split|]; split; [exact Hx|]; split; auto).
    pose proof (load_lt a x b (set_moved x 0) Hbx Hby) as Hlt.
    destruct fuel as [|fuel]; [lia|]. cbn [pred] in HR.
    rewrite upd_app. unfold call_at. rewrite zget_app. cbn [obind cb set_moved current size data].
    destruct (Z.eqb_spec (cb x) 0) as [|_]; [contradiction|]. rewrite (read_cur (zlen m)) by auto. cbn [obind run].
    pose proof (replace_stepped a x b _ Hv Hcy Hbx Hby) as S1.
    assert (Hv1 : Forall fine (a ++ set_moved x 0 :: b)) by (apply (all_fine (a ++ x :: b)); [apply S1|exact Hv]).
    destruct (observe_run (run I L behave fuel) _ (pred n) (fun _ => HR) _ Ho (a ++ set_moved x 0 :: b) (cs ++ [call_of m x]) Hv1 ltac:(lia)) as (v' & idx & new & E & S2 & _).
    rewrite <- app_assoc in E. cbn [app] in E.
    match goal with |- context [perform ?A1 ?A2 ?A3 ?A4 ?A5 ?A6 ?A7] => set (X := perform A1 A2 A3 A4 A5 A6 A7) end.
    assert (EX : X = Done (v' ++ z :: rest, m, (cs ++ [call_of m x]) ++ new)) by (unfold X; exact E). rewrite EX. cbn [obind].
    exists v', ([length a] ++ idx), ([call_of m x] ++ new), false. rewrite <- app_assoc. split; [reflexivity|].
    exact (stepped_trans _ _ _ _ _ _ _ S1 S2).
  - assert (Hbx : busy x = true) by (unfold busy; rewrite Eb; reflexivity).
    destruct (Z.ltb_spec 0 (delay x)) as [Hd|Hd].
    + cbn [obind]. rewrite upd_app, zget_app. cbn [obind].
      destruct (save_ok (zlen m) (set_moved (set_timestamp x now) 1) m Hf Hr eq_refl) as (x' & E1 & H1 & H2 & H3 & H4 & H5).
      rewrite E1. cbn [obind]. rewrite upd_app. exists (a ++ x' :: b), [], [], true. rewrite app_nil_r, <- app_assoc. split; [reflexivity|].
      apply replace_quiet; [exact Hv|]. split; [exact H1|]. split; [now apply (static_ready _ x)|]. split; [congruence|lia].
    + destruct (Z.ltb_spec 0 (delay x)) as [|_]; [lia|].
      assert (Hpos : (0 < load (a ++ x :: b))%nat) by (unfold load; rewrite filter_app, app_length; cbn [filter]; rewrite Hbx; cbn [length]; lia).
      destruct fuel as [|fuel]; [lia|]. cbn [pred] in HR.
      rewrite upd_app. unfold call_at. rewrite zget_app. cbn [obind cb set_moved current size data].
      destruct (Z.eqb_spec (cb x) 0) as [|_]; [contradiction|]. rewrite (read_cur (zlen m)) by auto. cbn [obind run].
      set (y := set_moved x 0).
      assert (Hcy : calmer x y) by (split; [repeat split|]; split; [exact Hx|]; split; [congruence|auto]).
      pose proof (replace_calmer a x b y Hv Hcy) as S1.
      assert (Hv1 : Forall fine (a ++ y :: b)) by (apply (all_fine (a ++ x :: b)); assumption).
      destruct (observe_run (run I L behave fuel) false (load (a ++ y :: b)) ltac:(discriminate) _ Ho (a ++ y :: b) (cs ++ [call_of m x]) Hv1 (le_n _)) as (v' & idx & new & E & S2 & Hnew).
      specialize (Hnew eq_refl). subst new. rewrite app_nil_r in E. rewrite <- app_assoc in E. cbn [app] in E.
      match goal with |- context [perform ?A1 ?A2 ?A3 ?A4 ?A5 ?A6 ?A7] => set (X := perform A1 A2 A3 A4 A5 A6 A7) end.
      assert (EX : X = Done (v' ++ z :: rest, m, cs ++ [call_of m x])) by (unfold X; exact E). rewrite EX. cbn [obind].
      destruct S2 as (S2 & _). apply Forall2_app_inv_l in S2. destruct S2 as (a' & w' & Sa & Sw & ->).
      inversion Sw as [|? y' ? b' Sy Sb]; subst. assert (La : zlen a = zlen a') by (unfold zlen; f_equal; apply (same_length _ _ _ Sa)).
      rewrite La, <- app_assoc. cbn [app]. rewrite zget_app. cbn [obind]. destruct Sy as (Y1 & Y2 & Y3 & Y4).
      destruct (save_ok (zlen m) y' m (proj1 Y2) (proj1 (proj2 Y2)) eq_refl) as (x' & E1 & H1 & H2 & H3 & H4 & H5).
      rewrite E1. cbn [obind]. rewrite upd_app. exists (a' ++ x' :: b'), [length a], [call_of m x], true. rewrite <- app_assoc. split; [reflexivity|].
      assert (Hst : same_static x x') by (apply (static_trans x y'); [exact Y1|exact H1]).
      assert (Hm' : moved x' = 0) by (rewrite H5; apply Y4; [exact Hd|reflexivity]).
      assert (Hb' : busy x' = false).
      { unfold busy. destruct H1 as (T1 & T2 & _). rewrite H3, T1, T2, Hm'.
        assert (Q : bytes_eqb (bytes m (current y') (size y')) (bytes m (current y') (size y')) = true) by now apply bytes_eqb_spec. rewrite Q. reflexivity. }
      split; [|split; [constructor; [easy|constructor]|]].
      * apply Forall2_app; [exact Sa|]. constructor; [|exact Sb]. split; [exact Hst|]. split; [now apply (static_ready _ x)|]. split; [congruence|auto].
      * constructor; [|constructor]. exists x, x'. rewrite nth_mid.
        assert (length a = length a') by apply (same_length _ _ _ Sa). replace (length a) with (length a') by auto. rewrite nth_mid. repeat (split; [auto; reflexivity|]). reflexivity.
Qed.

Lemma loop_once : forall fuel n, (n <= fuel)%nat -> bounded (run I L behave (pred fuel)) (pred n) ->
  forall now b a cs, Forall fine (a ++ b) -> (load (a ++ b) <= n)%nat ->
  exists v' idx new r, process_loop I L behave (run I L behave fuel) (length b + S (length rest)) (zlen a) (a ++ b ++ z :: rest, m, cs) now
    = Done ((v' ++ z :: rest, m, cs ++ new), r) /\ stepped (a ++ b) v' idx new.
Proof using Hz.
  intros fuel n Hfn HR now. 
  assert (G : forall k a b cs, length b = k -> Forall fine (a ++ b) -> (load (a ++ b) <= n)%nat ->
    exists v' idx new r, process_loop I L behave (run I L behave fuel) (k + S (length rest)) (zlen a) (a ++ b ++ z :: rest, m, cs) now
    = Done ((v' ++ z :: rest, m, cs ++ new), r) /\ stepped (a ++ b) v' idx new).
  { induction k as [|k IH]; intros a b cs Hk Hv Hn.
    - destruct b; [|discriminate]. cbn [app Nat.add process_loop fst]. rewrite zget_app. cbn [obind]. rewrite Hz. cbn [Z.eqb].
      exists a, [], [], 0. rewrite !app_nil_r in *. split; [reflexivity|now apply stepped_refl].
    - destruct b as [|x b]; [discriminate|]. cbn [app Nat.add process_loop fst]. rewrite zget_app. cbn [obind].
      assert (Hx : ready (zlen m) x) by (rewrite Forall_forall in Hv; apply Hv; apply in_or_app; right; now left).
      destruct (Z.eqb_spec (current x) 0) as [E|_]; [destruct Hx as ((F & _) & _); lia|].
      destruct (one_at fuel n a x b cs now Hfn HR Hv Hn) as (v1 & i1 & c1 & ch & E1 & S1). rewrite E1. cbn [obind].
      pose proof (same_length _ _ _ (proj1 S1)) as Hl. rewrite app_length in Hl. cbn [length] in *.
      set (a1 := firstn (S (length a)) v1). set (b1 := skipn (S (length a)) v1).
      assert (Ev : v1 = a1 ++ b1) by (symmetry; apply firstn_skipn).
      assert (Hf1 : Forall fine v1) by (apply (all_fine (a ++ x :: b)); [apply S1|exact Hv]).
      assert (Hl1 : (load v1 <= n)%nat) by (pose proof (load_le _ _ (proj1 S1)); lia).
      assert (La : zlen a1 = zlen a + 1) by (unfold zlen, a1; rewrite firstn_length; lia).
      assert (Lb : length b1 = k) by (unfold b1; rewrite skipn_length; lia).
      rewrite Ev in Hf1, Hl1. destruct (IH a1 b1 (cs ++ c1) Lb Hf1 Hl1) as (v2 & i2 & c2 & r & E2 & S2).
      rewrite Ev. rewrite <- app_assoc, <- La, E2. cbn [obind]. rewrite <- Ev in S2.
      exists v2, (i1 ++ i2), (c1 ++ c2). rewrite app_assoc. eexists. split; [reflexivity|].
      now apply (stepped_trans (a ++ x :: b) v1). }
  intros b a cs Hv Hn. apply (G (length b)); auto.
Qed.

Lemma bounded_l : forall fuel n, (n <= fuel)%nat -> bounded (run I L behave fuel) n.
Proof using Hz.
  assert (G : forall fuel n, (n <= fuel)%nat -> bounded (run I L behave (pred fuel)) (pred n) -> bounded (run I L behave fuel) n).
  { intros fuel n Hn HR v cs now Hv Hl. unfold process. cbn [fst]. rewrite app_length. cbn [length].
    exact (loop_once fuel n Hn HR now v [] cs Hv Hl). }
  (* with nothing busy there is no call, whatever the fuel *)
  assert (Z0 : bounded (run I L behave 0) 0).
  { intros v cs now Hv Hl. unfold process. cbn [fst]. rewrite app_length. cbn [length].
    exists v, [], [], 0. rewrite app_nil_r. split; [|now apply stepped_refl].
    assert (Q : forall b a, Forall fine b -> (load b <= 0)%nat ->
      process_loop I L behave (run I L behave 0) (length b + S (length rest)) (zlen a) (a ++ b ++ z :: rest, m, cs) now = Done ((a ++ b ++ z :: rest, m, cs), 0)).
    { induction b as [|x b IHb]; intros a Hb Hb0.
      - cbn [app length Nat.add process_loop fst]. rewrite zget_app. cbn [obind]. rewrite Hz. reflexivity.
      - inversion Hb as [|? ? [Hx _] Hb']; subst. unfold load in Hb0. cbn [filter] in Hb0.
        destruct (busy x) eqn:Ex; [cbn [length] in Hb0; lia|]. cbn [app length Nat.add process_loop fst]. rewrite zget_app. cbn [obind].
        destruct (Z.eqb_spec (current x) 0) as [E|_]; [destruct Hx as ((F & _) & _); lia|].
        unfold busy in Ex. apply orb_false_iff in Ex. destruct Ex as [E1 E2]. apply negb_false_iff in E1, E2.
        rewrite at_idle; [|exact Hx|split; [intros Hs; apply Hs; now apply bytes_eqb_spec|now apply Z.eqb_eq]]. cbn [obind].
        rewrite snoc_app, <- (zlen_snoc a x), IHb by assumption. reflexivity. }
    exact (Q v [] Hv Hl). }
  induction fuel as [|fuel IH]; intros n Hn.
  - assert (n = 0)%nat by lia. subst n. exact Z0.
  - apply G; [exact Hn|]. apply IH. lia.
Qed.

Lemma once_l : forall ws now fuel, Forall fine ws -> (length ws <= fuel)%nat ->
  exists ws' cs res idx, process_changes I L behave fuel (ws ++ z :: rest) m now = Done (ws' ++ z :: rest, m, cs, res) /\
    Forall2 same_static ws ws' /\ NoDup idx /\ Forall2 (fun i c => exists x, nth_error ws i = Some x /\ c = call_of m x) idx cs.
Proof using Hz.
  intros ws now fuel Hws Hf. assert (Hl : (load ws <= length ws)%nat) by (unfold load; clear; induction ws as [|x ws IH]; cbn [filter]; [lia|]; destruct (busy x); cbn [length]; lia).
  destruct (bounded_l fuel (length ws) Hf ws [] now Hws Hl) as (v' & idx & new & r & E & S1 & S2 & S3).
  exists v', new, r, idx. split; [exact E|]. split; [eapply Forall2_weaken; [|exact S1]; intros x y H; apply H|]. split; [exact S2|].
  eapply Forall2_weaken; [|exact S3]. intros i c (x & x' & E1 & _ & _ & _ & E2). eauto.
Qed.
End Once.
