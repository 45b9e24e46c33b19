From Verif Require Import Base StopwatchModel TimerModel TimerNestModel TimerNestSpec.

Lemma zget_upd_same : forall {A} (l : list A) i x y, zget l i = Done x -> zget (upd l (Z.to_nat i) y) i = Done y.
Proof.
  intros A l i x y. unfold zget. destruct (i <? 0); [discriminate|]. generalize (Z.to_nat i) as n. clear i. intros n.
  revert n. induction l as [|h l IH]; intros [|n]; cbn; intros H; try discriminate; auto.
Qed.

Lemma zget_upd_other : forall {A} (l : list A) i j y, 0 <= i -> i <> j -> zget (upd l (Z.to_nat i) y) j = zget l j.
Proof.
  intros A l i j y Hi Hij. unfold zget. destruct (Z.ltb_spec j 0) as [|Hj]; [reflexivity|].
  assert (Hn : Z.to_nat i <> Z.to_nat j) by lia. revert Hn. generalize (Z.to_nat i) as n, (Z.to_nat j) as k. clear.
  induction l as [|h l IH]; intros n k Hn; [reflexivity|]. destruct n, k; cbn; try reflexivity; try congruence. apply IH. congruence.
Qed.

Lemma zlen_upd : forall {A} (l : list A) n y, zlen (upd l n y) = zlen l.
Proof.
  intros A l n y. unfold zlen. f_equal. revert n. induction l as [|h l IH]; intros [|n]; cbn; auto.
Qed.

Lemma zget_some : forall {A} (l : list A) i, 0 <= i < zlen l -> exists x, zget l i = Done x.
Proof.
  intros A l i H. unfold zget, zlen in *. destruct (Z.ltb_spec i 0) as [|_]; [lia|].
  destruct (nth_error l (Z.to_nat i)) as [x|] eqn:E; [eauto|]. apply nth_error_None in E. lia.
Qed.

Lemma zget_range : forall {A} (l : list A) i x, zget l i = Done x -> 0 <= i < zlen l.
Proof.
  intros A l i x. unfold zget, zlen. destruct (Z.ltb_spec i 0) as [|H]; [discriminate|].
  destruct (nth_error l (Z.to_nat i)) as [y|] eqn:E; [|discriminate]. intros _.
  assert (Z.to_nat i < length l)%nat by (apply nth_error_Some; congruence). lia.
Qed.

Section Nest.
Variable w : Z.
Context {Cb User Arg : Type}.
Variable behave : Cb -> Z -> User -> Arg -> body User.
Notation tmr := (timer Cb Arg).

(** * Endless recursion *)

Lemma endless_l : forall i now u, 
  forall fuel (T : table) tr t, zget T i = Done t -> stopwatch_is_timer_reached w (stopwatch_ t) now = true ->
  (exists k, behave (callback t) i u (targ t) = Poll i now u k) ->
  poll w behave fuel T tr i now u = Timeout.
Proof.
  intros i now u. induction fuel as [|fuel IH]; intros T tr t Ht Hr (k & Hk); [reflexivity|].
  cbn [poll]. rewrite Ht. cbn [obind]. rewrite Hr, Hk. cbn [perform].
  rewrite (IH T _ t Ht Hr (ex_intro _ k Hk)). reflexivity.
Qed.

(** * Callbacks that stop their timer first *)

Lemma apply_static : forall o (t : tmr), callback (apply w o t) = callback t /\ targ (apply w o t) = targ t.
Proof.
  intros o t. destruct o; cbn [apply]; try (split; reflexivity).
  - unfold gel_timer_reset. destruct (stopwatch_get_state (stopwatch_ t)); split; reflexivity.
  - unfold gel_timer_change_period. destruct (stopwatch_get_state (stopwatch_ t)); split; reflexivity.
Qed.

Lemma apply_stopped : forall o (t : tmr), (forall now, o <> OResume now) -> sstate (stopwatch_ t) = TIMER_STOPPED ->
  sstate (stopwatch_ (apply w o t)) = TIMER_STOPPED.
Proof.
  intros o t Ho Ht. destruct o; cbn [apply].
  - reflexivity.
  - now contradiction (Ho now).
  - unfold gel_timer_pause, stopwatch_pause. cbn [with_sw stopwatch_]. rewrite Ht. exact Ht.
  - unfold gel_timer_reset, stopwatch_get_state. rewrite Ht. exact Ht.
  - unfold gel_timer_change_period, stopwatch_get_state. rewrite Ht. exact Ht.
  - exact Ht.
Qed.

Variable n : Z.
(** Callback and argument of every timer. *)
Variable who : Z -> Cb * Arg.
Hypothesis Hdisc : forall i u, 0 <= i < n -> stops_first n i (behave (fst (who i)) i u (snd (who i))).

(** The timers of [S] are stopped. *)
Record inv (S : list Z) (T : table) : Prop := {
  i_len : zlen T = n;
  i_who : forall i t, zget T i = Done t -> (callback t, targ t) = who i;
  i_stop : forall i t, In i S -> zget T i = Done t -> sstate (stopwatch_ t) = TIMER_STOPPED }.

Lemma inv_upd : forall S T i t t', inv S T -> zget T i = Done t -> callback t' = callback t -> targ t' = targ t ->
  (In i S -> sstate (stopwatch_ t') = TIMER_STOPPED) -> inv S (upd T (Z.to_nat i) t').
Proof using.
  intros S T i t t' [H1 H2 H3] Ht Hc Ha Hs. pose proof (zget_range _ _ _ Ht) as Hi. constructor.
  - now rewrite zlen_upd.
  - intros j x Hj. destruct (Z.eq_dec i j) as [<-|Hij].
    + rewrite (zget_upd_same _ _ t) in Hj by exact Ht. injection Hj as <-. rewrite Hc, Ha. now apply H2.
    + rewrite zget_upd_other in Hj by lia. now apply H2.
  - intros j x Hin Hj. destruct (Z.eq_dec i j) as [<-|Hij].
    + rewrite (zget_upd_same _ _ t) in Hj by exact Ht. injection Hj as <-. now apply Hs.
    + rewrite zget_upd_other in Hj by lia. now apply (H3 j).
Qed.

Lemma nested_app : forall S (l l' : list (ev Cb User Arg)), nested S l -> nested S l' -> nested S (l ++ l').
Proof using.
  intros S l l' H H'. induction H as [|S i c u a inner rest Hi Hin _ Hr IH]; [exact H'|].
  cbn [app]. rewrite <- app_assoc. cbn [app]. constructor; auto.
Qed.

(** What a poll gives while the timers of [S] are stopped. *)
Definition good (P : table -> list (ev Cb User Arg) -> Z -> Z -> User -> outcome (table * list (ev Cb User Arg) * Z)) (S : list Z) : Prop :=
  forall T tr i now u, inv S T -> 0 <= i < n ->
    exists T' new r, P T tr i now u = Done (T', tr ++ new, r) /\ inv S T' /\ nested S new.

Lemma tame_run : forall P S, good P S -> forall b, tame n b -> forall T tr, inv S T ->
  exists T' new, perform w P b T tr = Done (T', tr ++ new) /\ inv S T' /\ nested S new.
Proof using.
  intros P S HP b. induction b as [|i o k IH|i now k IH|i now u k IH]; intros Hb T tr HT; cbn [tame perform] in *.
  - exists T, []. rewrite app_nil_r. split; [reflexivity|]. split; [exact HT|constructor].
  - destruct Hb as (Hi & Ho & Hk). destruct (zget_some T i) as (t & Ht); [rewrite (i_len S T HT); exact Hi|].
    rewrite Ht. cbn [obind]. apply (IH Hk). destruct (apply_static o t) as [A1 A2].
    apply (inv_upd S T i t); auto. intros Hin. apply apply_stopped; [exact Ho|]. exact (i_stop S T HT i t Hin Ht).
  - destruct Hb as (Hi & Hk). destruct (zget_some T i) as (t & Ht); [rewrite (i_len S T HT); exact Hi|].
    rewrite Ht. cbn [obind]. apply IH; auto.
  - destruct Hb as (Hi & Hk). destruct (HP T tr i now u HT Hi) as (T1 & n1 & r & E1 & H1 & N1). rewrite E1. cbn [obind].
    destruct (IH r (Hk r) T1 (tr ++ n1) H1) as (T2 & n2 & E2 & H2 & N2). rewrite E2. exists T2, (n1 ++ n2). rewrite app_assoc.
    split; [reflexivity|]. split; [exact H2|now apply nested_app].
Qed.

Lemma good_l : forall fuel S, NoDup S -> (forall i, In i S -> 0 <= i < n) -> (Z.to_nat n < fuel + length S)%nat ->
  good (poll w behave fuel) S.
Proof using Hdisc.
  induction fuel as [|fuel IH]; intros S HS Hr Hf T tr i now u HT Hi.
  - exfalso. assert (Hincl : incl S (map Z.of_nat (seq 0 (Z.to_nat n)))).
    { intros j Hj. specialize (Hr j Hj). apply in_map_iff. exists (Z.to_nat j). split; [lia|]. apply in_seq. lia. }
    pose proof (NoDup_incl_length HS Hincl) as H. rewrite map_length, seq_length in H. lia.
  - cbn [poll]. destruct (zget_some T i) as (t & Ht); [rewrite (i_len S T HT); exact Hi|]. rewrite Ht. cbn [obind].
    destruct (stopwatch_is_timer_reached w (stopwatch_ t) now) eqn:Er.
    2: { exists T, [], 0. rewrite app_nil_r. split; [reflexivity|]. split; [exact HT|constructor]. }
    assert (Hni : ~ In i S).
    { intros Hin. pose proof (i_stop S T HT i t Hin Ht) as Hst. unfold stopwatch_is_timer_reached in Er. rewrite Hst in Er. discriminate. }
    pose proof (i_who S T HT i t Ht) as Hw. destruct (Hdisc i u Hi) as (k & Hk & Htm). rewrite <- Hw in Hk. cbn [fst snd] in Hk.
    rewrite Hk. cbn [perform]. rewrite Ht. cbn [obind apply].
    assert (HT1 : inv (i :: S) (upd T (Z.to_nat i) (gel_timer_stop t))).
    { pose proof (inv_upd S T i t (gel_timer_stop t) HT Ht eq_refl eq_refl (fun _ => eq_refl)) as [G1 G2 G3].
      constructor; [exact G1|exact G2|]. intros j x [<-|Hj] Hx; [|now apply (G3 j)].
      rewrite (zget_upd_same _ _ t) in Hx by exact Ht. injection Hx as <-. reflexivity. }
    assert (HG : good (poll w behave fuel) (i :: S)).
    { apply IH; [now constructor| |cbn [length]; lia]. intros j [<-|Hj]; auto. }
    destruct (tame_run _ _ HG k Htm _ (tr ++ [Began i (callback t) u (targ t)]) HT1) as (T2 & new & E & H2 & N2).
    rewrite E. cbn [obind]. destruct (zget_some T2 i) as (t2 & Ht2); [rewrite (i_len _ T2 H2); exact Hi|]. rewrite Ht2. cbn [obind].
    exists (upd T2 (Z.to_nat i) (if negb (autoreload t2 =? 0) then with_sw t2 (fst (stopwatch_restart (stopwatch_ t2) now))
                                 else with_sw t2 (fst (stopwatch_stop (stopwatch_ t2))))), (Began i (callback t) u (targ t) :: new ++ [Ended i]), 1.
    split; [rewrite <- !app_assoc; reflexivity|]. split.
    + assert (H2' : inv S T2) by (destruct H2 as [A1 A2 A3]; constructor; [exact A1|exact A2|intros j x Hj; apply A3; now right]).
      apply (inv_upd S T2 i t2); auto.
      * destruct (negb (autoreload t2 =? 0)); reflexivity.
      * destruct (negb (autoreload t2 =? 0)); reflexivity.
      * intros Hin. contradiction.
    + apply (nested_call S i (callback t) u (targ t) new []); [exact Hni|exact N2|constructor].
Qed.
End Nest.

Section Final.
Variable w : Z.
Context {Cb User Arg : Type}.
Variable behave : Cb -> Z -> User -> Arg -> body User.

Lemma guarded_l : forall T,
  (forall j t u, zget T j = Done t -> stops_first (zlen T) j (behave (callback t) j u (targ t))) ->
  forall fuel i t now u, zget T i = Done t -> (length T < fuel)%nat ->
  exists T' tr, zlen T' = zlen T /\ nested [] tr /\
    if stopwatch_is_timer_reached w (stopwatch_ t) now
    then poll w behave fuel T [] i now u = Done (T', tr, 1) /\
         (exists inner, tr = Began i (callback t) u (targ t) :: inner ++ [Ended i]) /\
         (exists t', zget T' i = Done t' /\ reloaded now t')
    else poll w behave fuel T [] i now u = Done (T, [], 0).
Proof.
  intros T Hd fuel i t now u Ht Hf. pose proof (zget_range _ _ _ Ht) as Hi.
  set (who := fun j => match zget T j with Done t => (callback t, targ t) | _ => (callback t, targ t) end).
  assert (Hdisc : forall j u, 0 <= j < zlen T -> stops_first (zlen T) j (behave (fst (who j)) j u (snd (who j)))).
  { intros j u' Hj. destruct (zget_some T j Hj) as (t1 & Ht1). unfold who. rewrite Ht1. cbn [fst snd]. now apply Hd. }
  assert (Hinv : inv (zlen T) who [] T).
  { constructor; [reflexivity| |intros ? ? []]. intros j t1 Ht1. unfold who. now rewrite Ht1. }
  pose proof (good_l w behave (zlen T) who Hdisc fuel [] (NoDup_nil _) ltac:(intros ? []) ltac:(unfold zlen; cbn [length]; lia) T [] i now u Hinv Hi) as HG.
  destruct HG as (T' & tr & r & E & H1 & H2). cbn [app] in E. exists T', tr.
  split; [apply (i_len _ _ _ _ H1)|]. split; [exact H2|].
  destruct fuel as [|fuel]; [lia|]. cbn [poll] in *. rewrite Ht in *. cbn [obind] in *.
  destruct (stopwatch_is_timer_reached w (stopwatch_ t) now); [|reflexivity].
  destruct (perform w (poll w behave fuel) (behave (callback t) i u (targ t)) T ([] ++ [Began i (callback t) u (targ t)])) as [[T1 tr1]| | |] eqn:Ep; cbn [obind] in *; try discriminate.
  destruct (zget T1 i) as [t1| | |] eqn:Et1; cbn [obind] in *; try discriminate.
  injection E as ET Etr Er. split; [rewrite <- ET, <- Etr; reflexivity|]. split.
  - assert (Htr1 : exists mid, tr1 = Began i (callback t) u (targ t) :: mid).
    { destruct (Hd i t u Ht) as (k & Hk & Hkt). clear - Ep Hk Hkt Ht Hdisc Hinv Hi Hf.
      assert (Hpre : forall b T tr T' tr', perform w (poll w behave fuel) b T tr = Done (T', tr') ->
                (forall T tr j now u T' tr' r, poll w behave fuel T tr j now u = Done (T', tr', r) -> exists m, tr' = tr ++ m) -> exists m, tr' = tr ++ m).
      { induction b as [|i0 o k0 IH|i0 now0 k0 IH|i0 now0 u0 k0 IH]; intros T0 tr0 T0' tr0' E HP; cbn [perform] in E.
        - injection E as <- <-. exists []. now rewrite app_nil_r.
        - destruct (zget T0 i0); cbn [obind] in E; try discriminate. eapply IH; eauto.
        - destruct (zget T0 i0); cbn [obind] in E; try discriminate. eapply IH; eauto.
        - destruct (poll w behave fuel T0 tr0 i0 now0 u0) as [[[T2 tr2] r]| | |] eqn:E2; cbn [obind] in E; try discriminate.
          destruct (HP _ _ _ _ _ _ _ _ E2) as (m1 & ->). destruct (IH _ _ _ _ _ E HP) as (m2 & ->). exists (m1 ++ m2). now rewrite app_assoc. }
      assert (Hpoll : forall f T tr j now u T' tr' r, poll w behave f T tr j now u = Done (T', tr', r) -> exists m, tr' = tr ++ m).
      { clear. induction f as [|f IH]; intros T tr j now u T' tr' r E; [discriminate|]. cbn [poll] in E.
        destruct (zget T j) as [t| | |]; cbn [obind] in E; try discriminate.
        destruct (stopwatch_is_timer_reached w (stopwatch_ t) now); [|injection E as <- <- <-; exists []; now rewrite app_nil_r].
        destruct (perform w (poll w behave f) (behave (callback t) j u (targ t)) T (tr ++ [Began j (callback t) u (targ t)])) as [[T1 tr1]| | |] eqn:E1; cbn [obind] in E; try discriminate.
        destruct (zget T1 j); cbn [obind] in E; try discriminate. injection E as <- <- <-.
        assert (G : forall b T tr T' tr', perform w (poll w behave f) b T tr = Done (T', tr') -> exists m, tr' = tr ++ m).
        { induction b as [|i0 o k0 IHb|i0 now0 k0 IHb|i0 now0 u0 k0 IHb]; intros T0 tr0 T0' tr0' E; cbn [perform] in E.
          - injection E as <- <-. exists []. now rewrite app_nil_r.
          - destruct (zget T0 i0); cbn [obind] in E; try discriminate. eapply IHb; eauto.
          - destruct (zget T0 i0); cbn [obind] in E; try discriminate. eapply IHb; eauto.
          - destruct (poll w behave f T0 tr0 i0 now0 u0) as [[[T2 tr2] r]| | |] eqn:E2; cbn [obind] in E; try discriminate.
            destruct (IH _ _ _ _ _ _ _ _ E2) as (m1 & ->). destruct (IHb _ _ _ _ _ E) as (m2 & ->). exists (m1 ++ m2). now rewrite app_assoc. }
        destruct (G _ _ _ _ _ E1) as (m & ->). exists ([Began j (callback t) u (targ t)] ++ m ++ [Ended j]). now rewrite <- !app_assoc. }
      destruct (Hpre _ _ _ _ _ Ep (Hpoll fuel)) as (m & ->). exists m. reflexivity. }
    destruct Htr1 as (mid & ->). exists mid. rewrite <- Etr. reflexivity.
  - rewrite <- ET. eexists. split; [now apply (zget_upd_same _ _ t1)|]. unfold reloaded.
    destruct (autoreload t1 =? 0) eqn:Ea; cbn [negb with_sw autoreload stopwatch_]; rewrite Ea; [reflexivity|].
    unfold stopwatch_restart, stopwatch_stop, stopwatch_start. cbn. auto.
Qed.

(** * One timer *)

Lemma own_run : forall (P : table -> list (ev Cb User Arg) -> Z -> Z -> User -> outcome (table * list (ev Cb User Arg) * Z)) l (t : timer Cb Arg) tr,
  perform w P (own_calls 0 l) [t] tr = Done ([fold_left (fun t o => apply w o t) l t], tr).
Proof. intros P l. induction l as [|o l IH]; intros t tr; [reflexivity|]. cbn [own_calls perform zget]. cbn. apply IH. Qed.

Lemma single_l : forall script, (forall c u a, behave c 0 u a = own_calls 0 (script c u a)) ->
  forall fuel t tr now u,
  poll w behave (S fuel) [t] tr 0 now u
  = let '(t', r, e) := gel_timer_manage_callback w (fun c t u a => fold_left (fun t o => apply w o t) (script c u a) t) t now u in
    Done ([t'], tr ++ match e with Some (c, u, a) => [Began 0 c u a; Ended 0] | None => [] end, r).
Proof.
  intros script Hs fuel t tr now u. cbn [poll]. change (zget [t] 0) with (@Done (timer Cb Arg) t). cbn [obind].
  unfold gel_timer_manage_callback. destruct (stopwatch_is_timer_reached w (stopwatch_ t) now); [|now rewrite app_nil_r].
  rewrite Hs, own_run. cbn [obind].
  set (t1 := fold_left (fun (t0 : timer Cb Arg) (o : op) => apply w o t0) (script (callback t) u (targ t)) t).
  change (zget [t1] 0) with (@Done (timer Cb Arg) t1). cbn [obind]. cbn [upd Z.to_nat]. rewrite <- app_assoc.
  destruct (negb (autoreload t1 =? 0)); reflexivity.
Qed.
End Final.
