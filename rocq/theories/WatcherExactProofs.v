(** Proof of the exact behaviour of a watcher list, whatever its callbacks write. *)
From Verif Require Import Base BaseLemmas TimeModel TimeSpec TimeProofs WatcherModel WatcherSpec WatcherSystem WatcherProofs.

(** The watcher [x] is in the state [s]. *)
Definition same_sight (w : Z) (x : watcher) (s : sight) : Prop :=
  place s = current x /\ many s = size x /\ who s = cb x /\ arg s = data x /\ wait s = delay x /\
  seen s = recorded x /\
  match since s with Some c => moved x = 1 /\ timestamp x = counter w c | None => moved x = 0 end.

Definition sound (N w : Z) (x : watcher) (s : sight) : Prop := ready N x /\ same_sight w x s.

Section Exact.
Variables I w : Z.
Variable eff : Z -> Z -> Z -> list Z -> list Z.
Variable N : Z.
Hypothesis Hw : 0 < w.
Hypothesis HI : I <= w.
Hypothesis Heff : forall c a d m, zlen (eff c a d m) = zlen m.

Lemma differs_news : forall x s m, sound N w x s -> zlen m = N -> differs x m = Done (news m s).
Proof using.
  intros x s m [(Hf & Hr & _) (P1 & P2 & _ & _ & _ & P6 & _)] Hm. rewrite (differs_ok N) by assumption. f_equal.
  unfold news, look. rewrite P1, P2, P6.
  destruct (list_eq_dec Z.eq_dec _ _) as [E|E].
  - apply bytes_eqb_spec in E. now rewrite E.
  - destruct (bytes_eqb _ _) eqn:Eb; [apply bytes_eqb_spec in Eb; contradiction|reflexivity].
Qed.

Lemma call_report : forall x s m, sound N w x s -> zlen m = N -> call eff x m = Done (after eff m s, report m s).
Proof using.
  intros x s m [(Hf & _ & Hc) (P1 & P2 & P3 & P4 & _)] Hm. unfold call.
  destruct (Z.eqb_spec (cb x) 0); [contradiction|]. rewrite (read_cur N) by assumption. cbn [obind].
  unfold after, report, look. rewrite P1, P2, P3, P4. reflexivity.
Qed.

(** Any change of moved and of the timestamp. *)
Lemma retimed : forall x s t v o, sound N w x s -> match o with Some c => v = 1 /\ t = counter w c | None => v = 0 end ->
  sound N w (set_moved (set_timestamp x t) v) (remember s (seen s) o).
Proof using.
  intros x s t v o [Hr (P1 & P2 & P3 & P4 & P5 & P6 & _)] Ho. split; [exact Hr|].
  unfold same_sight, remember, set_moved, set_timestamp, recorded in *. cbn. tauto.
Qed.

Lemma set_timestamp_self : forall x, set_timestamp x (timestamp x) = x.
Proof using. now intros []. Qed.

Lemma set_moved_self : forall x, set_moved x (moved x) = x.
Proof using. now intros []. Qed.

Lemma save_sound : forall x s m, sound N w x s -> zlen m = N ->
  exists x', save x m = Done x' /\ sound N w x' (remember s (look m s) (since s)).
Proof using.
  intros x s m [(Hf & Hr & Hc) (P1 & P2 & P3 & P4 & P5 & P6 & P7)] Hm.
  destruct (save_ok N x m Hf Hr Hm) as (x' & E & (S1 & S2 & S3 & S4 & S5) & Hr' & Ho & Ht & Hmv).
  exists x'. split; [exact E|]. split.
  - split; [unfold fits in *; rewrite S1, S2; exact Hf|]. split; [exact Hr'|]. congruence.
  - unfold same_sight, remember. cbn. rewrite S1, S2, S3, S4, S5, Ho, Ht, Hmv. unfold look. rewrite P1, P2. tauto.
Qed.

Definition on_time (t : Z) (s : sight) : Prop :=
  match since s with Some c => Z.abs (t - (c + wait s)) < 2 ^ (w - 1) | None => True end.

Lemma notice_l : forall t x s m, sound N w x s -> zlen m = N -> on_time t s ->
  exists x', let '(s', m', cs, b) := notice eff t s m in
    process_one I w eff x m (counter w t) = Done (x', m', cs, b) /\ sound N w x' s' /\ zlen m' = N.
Proof using Hw HI Heff.
  intros t x s m H Hm Ht. unfold process_one. rewrite (differs_news x s) by assumption. cbn [obind].
  assert (Ha : forall s, zlen (after eff m s) = N) by (intros; unfold after; rewrite Heff; exact Hm).
  pose proof H as [_ (_ & _ & _ & _ & P5 & _ & P7)].
  assert (H0 : sound N w (set_moved x 0) (remember s (seen s) None)).
  { rewrite <- (set_timestamp_self x) at 1. apply retimed; [exact H|reflexivity]. }
  unfold notice. destruct (news m s).
  - rewrite <- P5. destruct (0 <? wait s).
    + cbn [obind]. destruct (save_sound (set_moved (set_timestamp x (counter w t)) 1) (remember s (seen s) (Some t)) m) as (x' & E & Hx'); [|exact Hm|].
      { apply retimed; [exact H|auto]. }
      rewrite E. cbn [obind]. exists x'. split; [reflexivity|]. split; [exact Hx'|exact Hm].
    + rewrite (call_report (set_moved x 0) (remember s (seen s) None) m H0 Hm). cbn [obind].
      destruct (save_sound (set_moved x 0) (remember s (seen s) None) (after eff m s) H0 (Ha s)) as (x' & E & Hx').
      change (after eff m (remember s (seen s) None)) with (after eff m s).
      rewrite E. cbn [obind]. exists x'. split; [reflexivity|]. split; [exact Hx'|apply Ha].
  - unfold on_time in Ht. destruct (since s) as [c|].
    + destruct P7 as [Q1 Q2]. rewrite Q1. cbn [Z.eqb]. rewrite Q2, <- P5, is_expired_l by assumption.
      destruct (c + wait s <=? t).
      * rewrite (call_report (set_moved x 0) (remember s (seen s) None) m H0 Hm). cbn [obind].
        exists (set_moved x 0). split; [reflexivity|]. split; [exact H0|apply Ha].
      * exists x. auto.
    + rewrite P7. cbn [Z.eqb]. exists x. auto.
Qed.

Lemma alive : forall x s, sound N w x s -> (current x =? 0) = false.
Proof using. intros x s [((H & _) & _) _]. apply Z.eqb_neq. intros E. rewrite E in H. exact (Z.lt_irrefl 0 H). Qed.

Variables (z : watcher) (rest : list watcher).
Hypothesis Hz : current z = 0.

Lemma notice_all_l : forall t xs l m, Forall2 (sound N w) l xs -> zlen m = N -> Forall (on_time t) xs ->
  exists l', let '(xs', m', cs, b) := notice_all eff t xs m in
    watcher_process_changes I w eff (l ++ z :: rest) m (counter w t) = Done (l' ++ z :: rest, m', cs, if b then 1 else 0) /\
    Forall2 (sound N w) l' xs' /\ zlen m' = N.
Proof using Hw HI Heff Hz.
  intros t xs l m H. revert m. induction H as [|x s l xs Hx H IH]; intros m Hm Ht; cbn [notice_all app watcher_process_changes].
  - exists []. rewrite Hz. cbn [Z.eqb app]. split; [reflexivity|]. split; [constructor|exact Hm].
  - inversion Ht as [|? ? T1 T2]; subst x0 l0. rewrite (alive x s Hx).
    destruct (notice_l t x s m Hx Hm T1) as (x' & Hn). destruct (notice eff t s m) as [[[s' m1] c1] b1].
    destruct Hn as (E & Hx' & Hm1). rewrite E. cbn [obind].
    destruct (IH m1 Hm1 T2) as (l' & Hl). destruct (notice_all eff t xs m1) as [[[xs' m2] c2] b2].
    destruct Hl as (El & Hl & Hm2). rewrite El. cbn [obind]. exists (x' :: l'). split; [|split; [now constructor|exact Hm2]].
    destruct b1; reflexivity.
Qed.

Lemma forget_l : forall t xs l m, Forall2 (sound N w) l xs -> zlen m = N ->
  exists l', watcher_clear_changes (l ++ z :: rest) m t = Done (l' ++ z :: rest) /\ Forall2 (sound N w) l' (map (forget m) xs).
Proof using Hz.
  intros t xs l m H Hm. induction H as [|x s l xs Hx H IH]; cbn [map app watcher_clear_changes].
  - exists []. rewrite Hz. cbn [Z.eqb app]. split; [reflexivity|constructor].
  - destruct IH as (l' & El & Hl). rewrite (alive x s Hx), (differs_news x s) by assumption. cbn [obind].
    pose proof Hx as [_ (_ & _ & _ & _ & P5 & _ & P7)].
    assert (Hy : exists y, (if news m s then save (if 0 <? delay x then set_moved (set_timestamp x t) 0 else x) m else Done x) = Done y /\
      sound N w y (forget m s)).
    { unfold forget. destruct (news m s); [|exists x; auto]. rewrite <- P5. destruct (0 <? wait s).
      - destruct (save_sound (set_moved (set_timestamp x t) 0) (remember s (seen s) None) m) as (y & E & Hy); [|exact Hm|].
        { now apply retimed. }
        exists y. split; [exact E|exact Hy].
      - apply save_sound; assumption. }
    destruct Hy as (y & -> & Hy). cbn [obind]. rewrite El. cbn [obind]. exists (y :: l'). split; [reflexivity|]. now constructor.
Qed.

Lemma news_l : forall xs l m, Forall2 (sound N w) l xs -> zlen m = N ->
  watcher_check_for_changes (l ++ z :: rest) m = Done (if existsb (news m) xs then 1 else 0).
Proof using Hz.
  intros xs l m H Hm. induction H as [|x s l xs Hx H IH]; cbn [existsb app watcher_check_for_changes].
  - rewrite Hz. reflexivity.
  - rewrite (alive x s Hx), (differs_news x s) by assumption. cbn [obind]. destruct (news m s); [reflexivity|exact IH].
Qed.

Lemma tell_all_l : forall xs l m, Forall2 (sound N w) l xs -> zlen m = N ->
  watcher_trigger_all eff (l ++ z :: rest) m = Done (tell_all eff xs m).
Proof using Heff Hz.
  intros xs l m H. revert m. induction H as [|x s l xs Hx H IH]; intros m Hm; cbn [tell_all app watcher_trigger_all].
  - rewrite Hz. reflexivity.
  - rewrite (alive x s Hx), (call_report x s) by assumption. cbn [obind].
    rewrite IH by (unfold after; rewrite Heff; exact Hm). cbn [obind]. now destruct (tell_all eff xs (after eff m s)).
Qed.

Lemma step_l : forall xs l o, Forall2 (sound N w) l xs -> in_order N (length xs) o ->
  match o with OProcess t _ => Forall (on_time t) xs | _ => True end ->
  exists l', wexec I w eff (l ++ z :: rest) o = Done (l' ++ z :: rest, snd (sight_step eff xs o)) /\
    Forall2 (sound N w) l' (fst (sight_step eff xs o)).
Proof using Hw HI Heff Hz.
  intros xs l o H [Hm Hi] Ht. destruct o as [t m|t m|m|m|i m]; cbn [given wexec sight_step] in *.
  - destruct (notice_all_l t xs l m H Hm Ht) as (l' & Hl). destruct (notice_all eff t xs m) as [[[xs' m'] cs] b].
    destruct Hl as (E & Hl & _). rewrite E. cbn [obind]. exists l'. auto.
  - destruct (forget_l (counter w t) xs l m H Hm) as (l' & E & Hl). rewrite E. cbn [obind]. exists l'. auto.
  - rewrite (news_l xs) by assumption. cbn [obind]. exists l. auto.
  - rewrite (tell_all_l xs) by assumption. destruct (tell_all eff xs m) as [m' cs]. cbn [obind]. exists l. auto.
  - destruct (nth_error xs i) as [s|] eqn:E; [|apply nth_error_None in E; lia].
    assert (Hx : exists x, nth_error l i = Some x /\ sound N w x s).
    { clear -H E. revert i E. induction H as [|x s' l xs Hx H IH]; intros [|i] E; cbn in *; try discriminate; [|auto].
      injection E as ->. eauto. }
    destruct Hx as (x & Ex & Hx). exists l. split; [|exact H]. unfold watcher_trigger_cb, zget.
    destruct (Z.ltb_spec (Z.of_nat i) 0); [lia|]. rewrite Nat2Z.id.
    assert (En : nth_error (l ++ z :: rest) i = Some x).
    { rewrite nth_error_app1; [exact Ex|]. apply nth_error_Some. congruence. }
    rewrite En. cbn [obind]. rewrite (call_report x s) by assumption. reflexivity.
Qed.

Lemma step_length : forall xs o, length (fst (sight_step eff xs o)) = length xs.
Proof using Heff.
  intros xs [t m|t m|m|m|i m]; cbn [sight_step].
  - revert m. assert (Hl : forall m, length (fst (fst (fst (notice_all eff t xs m)))) = length xs).
    { induction xs as [|x xs IH]; intros m; [reflexivity|]. cbn [notice_all]. destruct (notice eff t x m) as [[[x1 m1] c1] b1].
      specialize (IH m1). destruct (notice_all eff t xs m1) as [[[xs2 m2] c2] b2]. cbn in *. lia. }
    intros m. specialize (Hl m). destruct (notice_all eff t xs m) as [[[xs' m'] cs] b]. exact Hl.
  - apply map_length.
  - reflexivity.
  - now destruct (tell_all eff xs m).
  - now destruct (nth_error xs i).
Qed.

Lemma exec_l : forall ops xs l, Forall2 (sound N w) l xs -> Forall (in_order N (length xs)) ops ->
  paced eff (2 ^ (w - 1)) xs ops ->
  exists l', wexecs I w eff (l ++ z :: rest) ops = Done (l' ++ z :: rest, sight_run eff xs ops).
Proof using Hw HI Heff Hz.
  induction ops as [|o ops IH]; intros xs l H Ho Hp; cbn [wexecs sight_run].
  - exists l. reflexivity.
  - inversion Ho as [|? ? O1 O2]; subst x l0. cbn [paced] in Hp. destruct Hp as [P1 P2].
    destruct (step_l xs l o H O1) as (l1 & E & H1). { destruct o; auto. }
    rewrite E. cbn [obind]. pose proof (step_length xs o) as Hl. destruct (sight_step eff xs o) as [xs' out]. cbn [fst snd] in *.
    destruct (IH xs' l1 H1) as (l' & El); [now rewrite Hl|exact P2|]. rewrite El. cbn [obind]. exists l'. reflexivity.
Qed.

End Exact.

Lemma watcher_exact_l : forall I w eff malloc ok block z rest ws init ops,
  0 < w -> I <= w -> current z = 0 ->
  Forall (fun x => fresh x /\ fits (zlen init) x) ws ->
  (malloc = true -> ok = true) -> (malloc = false -> Forall (fun x => size x <= block /\ zlen (old x) = block) ws) ->
  (forall c a d m, zlen (eff c a d m) = zlen m) ->
  Forall (in_order (zlen init) (length ws)) ops -> paced eff (2 ^ (w - 1)) (map (opened init) ws) ops ->
  exists l l', watcher_list_init malloc ok block (ws ++ z :: rest) init = Done l /\
    wexecs I w eff l ops = Done (l', sight_run eff (map (opened init) ws) ops).
Proof.
  intros I w eff malloc ok block z rest ws init ops Hw HI Hz Hf Hok Hbl He Ho Hp.
  destruct (init_l I w eff init (zlen init) z rest malloc ok block ws init Hz eq_refl Hf Hok Hbl) as (l & El & Hl). specialize (Hl eq_refl).
  destruct (exec_l I w eff (zlen init) Hw HI He z rest Hz ops (map (opened init) ws) l) as (l' & E).
  - clear - Hl Hf. induction Hl as [|x0 x ws l Hx Hl IH]; [constructor|].
    inversion Hf as [|? ? [(F1 & F2 & F3) F] Hf0]; subst. cbn [map]. constructor; [|auto].
    destruct Hx as ((S1 & S2 & S3 & S4 & S5) & Hr & Hrec & Hm01 & Hd0 & Hd). split.
    + split; [unfold fits in *; rewrite S1, S2; exact F|]. split; [exact Hr|congruence].
    + unfold same_sight, opened. cbn [place many who arg wait seen since]. rewrite S1, S2, S3, S4, S5. cbn [before] in Hrec.
      repeat split; auto. destruct (Z.eq_dec (delay x0) 0) as [E|E]; [auto|apply Hd; exact E].
  - now rewrite map_length.
  - exact Hp.
  - exists (l ++ z :: rest), (l' ++ z :: rest). auto.
Qed.

(** * The pace *)

Definition settled (hf : Z) (last : option Z) (s : sight) : Prop :=
  match since s with
  | Some c => 0 < wait s < hf /\ match last with Some t => c <= t < c + wait s | None => False end
  | None => wait s < hf
  end.

Lemma regular_l : forall eff hf, 0 < hf -> forall ops xs last, Forall (settled hf last) xs -> regular hf last ops -> paced eff hf xs ops.
Proof.
  intros eff hf Hhf. induction ops as [|o ops IH]; intros xs last Hs Hr; [exact Logic.I|]. cbn [paced].
  destruct o as [t m|t m|m|m|i m]; cbn [regular sight_step fst] in *.
  - destruct Hr as [Hr1 Hr2]. split.
    + eapply Forall_impl; [|exact Hs]. intros s H. unfold settled in H. destruct (since s) as [c|]; [|exact Logic.I].
      destruct last as [t'|]; [lia|tauto].
    + apply (IH _ (Some t)); [|exact Hr2]. clear Hr2 IH. revert m.
      assert (Hl : forall m, Forall (settled hf (Some t)) (fst (fst (fst (notice_all eff t xs m))))).
      { induction Hs as [|s xs H Hs IH]; intros m; cbn [notice_all]; [constructor|].
        destruct (notice eff t s m) as [[[s1 m1] c1] b1] eqn:En. specialize (IH m1).
        destruct (notice_all eff t xs m1) as [[[xs2 m2] c2] b2]. cbn [fst] in *. constructor; [|exact IH]. clear IH.
        unfold notice in En. unfold settled in *. destruct (news m s).
        - destruct (Z.ltb_spec 0 (wait s)); injection En as <- <- <- <-; cbn [remember since wait].
          + destruct (since s); lia.
          + destruct (since s); lia.
        - destruct (since s) as [c|] eqn:Es.
          + destruct last as [t'|]; [|tauto]. destruct (Z.leb_spec (c + wait s) t); injection En as <- <- <- <-; cbn [remember since wait]; [lia|].
            rewrite Es. lia.
          + injection En as <- <- <- <-. rewrite Es. exact H. }
      intros m. specialize (Hl m). destruct (notice_all eff t xs m) as [[[xs' m'] cs] b]. exact Hl.
  - split; [exact Logic.I|]. apply (IH _ last); [|exact Hr]. rewrite Forall_map. eapply Forall_impl; [|exact Hs].
    intros s H. unfold settled, forget in *. destruct (news m s); [|exact H].
    destruct (Z.ltb_spec 0 (wait s)); cbn [remember since wait]; destruct (since s); lia.
  - split; [exact Logic.I|]. now apply (IH _ last).
  - split; [exact Logic.I|]. destruct (tell_all eff xs m). now apply (IH _ last).
  - split; [exact Logic.I|]. destruct (nth_error xs i); now apply (IH _ last).
Qed.

Lemma watcher_paced_l : forall w eff ws init ops, 0 < w -> Forall (fun x => delay x < 2 ^ (w - 1)) ws ->
  regular (2 ^ (w - 1)) None ops -> paced eff (2 ^ (w - 1)) (map (opened init) ws) ops.
Proof.
  intros w eff ws init ops Hw Hd Hr. apply (regular_l _ _) with None; [lia| |exact Hr].
  rewrite Forall_map. eapply Forall_impl; [|exact Hd]. intros x H. exact H.
Qed.

(** Without delays nothing is ever noticed and left for later. *)
Lemma immediate_l : forall eff hf ops xs, Forall (fun s => wait s <= 0 /\ since s = None) xs -> paced eff hf xs ops.
Proof.
  intros eff hf. induction ops as [|o ops IH]; intros xs Hs; [exact Logic.I|]. cbn [paced].
  destruct o as [t m|t m|m|m|i m]; cbn [sight_step fst] in *.
  - split; [eapply Forall_impl; [|exact Hs]; intros s [_ ->]; exact Logic.I|]. apply IH. clear IH. revert m.
    assert (Hl : forall m, Forall (fun s => wait s <= 0 /\ since s = None) (fst (fst (fst (notice_all eff t xs m))))).
    { induction Hs as [|s xs [H1 H2] Hs IH]; intros m; cbn [notice_all]; [constructor|].
      destruct (notice eff t s m) as [[[s1 m1] c1] b1] eqn:En. specialize (IH m1).
      destruct (notice_all eff t xs m1) as [[[xs2 m2] c2] b2]. cbn [fst] in *. constructor; [|exact IH]. clear IH.
      unfold notice in En. rewrite H2 in En. destruct (Z.ltb_spec 0 (wait s)); [lia|].
      destruct (news m s); injection En as <- <- <- <-; auto. }
    intros m. specialize (Hl m). destruct (notice_all eff t xs m) as [[[xs' m'] cs] b]. exact Hl.
  - split; [exact Logic.I|]. apply IH. rewrite Forall_map. eapply Forall_impl; [|exact Hs].
    intros s [H1 H2]. unfold forget. destruct (news m s); [|auto]. destruct (0 <? wait s); auto.
  - split; [exact Logic.I|]. now apply IH.
  - split; [exact Logic.I|]. destruct (tell_all eff xs m). now apply IH.
  - split; [exact Logic.I|]. destruct (nth_error xs i); now apply IH.
Qed.
