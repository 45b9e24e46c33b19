From Verif Require Import Base BaseLemmas StateMachineModel SmNestModel SmNestSpec.

Section SmNestProofs.
Context {M E : Type}.
Variable managers : list (M -> E -> body M E).

Lemma state_after_app : forall (a b : list (ev E)) s, state_after s (a ++ b) = state_after (state_after s a) b.
Proof. intros a; induction a as [|[s' e|r] a IH]; intros b s; cbn; auto. Qed.

Lemma dispatched_app : forall s (a b : list (ev E)), dispatched s a -> dispatched (state_after s a) b -> dispatched s (a ++ b).
Proof.
  intros s a b Ha Hb before s' e rest Eq.
  apply app_eq_app in Eq as (l & [[E1 E2]|[E1 E2]]).
  - destruct l as [|x l].
    + cbn in E2. subst a. rewrite app_nil_r in *. symmetry in E2. apply (Hb [] _ e rest E2).
    + cbn in E2. inversion E2; subst x. apply (Ha before s' e l). exact E1.
  - subst before. rewrite state_after_app. apply (Hb l s' e rest). exact E2.
Qed.

Lemma dispatched_one : forall s (e : E), dispatched s [Began s e].
Proof.
  intros s e before s' e' rest Eq. destruct before as [|x before]; cbn in Eq.
  - now inversion Eq.
  - inversion Eq. destruct before; discriminate.
Qed.

Lemma dispatched_end : forall s r, dispatched s [@Ended E r].
Proof.
  intros s r before s' e' rest Eq. destruct before as [|x before]; cbn in Eq; inversion Eq. destruct before; discriminate.
Qed.

Definition int_managers := forall f, In f managers -> forall m e, returns (fun r => INT_MIN <= r <= INT_MAX) (f m e).

Lemma manager_in : forall s f, zget managers s = Done f -> In f managers.
Proof.
  intros s f H. unfold zget in H. destruct (s <? 0); [discriminate|].
  destruct (nth_error managers (Z.to_nat s)) eqn:Hn; inversion H; subst. now apply nth_error_In in Hn.
Qed.

(** Everything about a finished call. *)
Lemma call_ok : int_managers -> forall fuel s tr m e s' tr' m' a, send managers fuel s tr m e = Done (s', tr', m', a) ->
  exists inner r, tr' = tr ++ Began s e :: inner ++ [Ended r] /\ calls inner /\
    dispatched s (Began s e :: inner ++ [Ended r]) /\ s' = state_after s (Began s e :: inner ++ [Ended r]) /\
    a = (if r <? 0 then 0 else 1).
Proof.
  intros Hi fuel. induction fuel as [|fuel IH]; intros s tr m e s' tr' m' a H; [discriminate|].
  cbn [send] in H. destruct (zget managers s) as [f| | |] eqn:Ef; try discriminate. cbn [obind] in H.
  pose proof (Hi f (manager_in _ _ Ef) m e) as Hr.
  assert (G : forall b, returns (fun r => INT_MIN <= r <= INT_MAX) b -> forall s0 tr0 s1 tr1 m1 r1,
    perform (send managers fuel) b s0 tr0 = Done (s1, tr1, m1, r1) ->
    INT_MIN <= r1 <= INT_MAX /\
    exists inner, tr1 = tr0 ++ inner /\ calls inner /\ dispatched s0 inner /\ s1 = state_after s0 inner).
  { clear - IH. intros b; induction b as [m r|m e k IHb]; intros Hb s0 tr0 s1 tr1 m1 r1 H; cbn in H.
    - inversion H; subst. split; [exact Hb|]. exists []. rewrite app_nil_r. repeat split; try constructor.
      intros [|x l] s e rest Eq; discriminate.
    - destruct (send managers fuel s0 tr0 m e) as [[[[s2 tr2] m2] a2]| | |] eqn:Es; try discriminate. cbn [obind] in H.
      apply IH in Es as (inner & r & Et & Hc & Hd & Es & Ea).
      destruct (IHb m2 a2 (Hb m2 a2) _ _ _ _ _ _ H) as (Hr1 & inner' & Et' & Hc' & Hd' & Es'). split; [exact Hr1|].
      exists ((Began s0 e :: inner ++ [Ended r]) ++ inner'). repeat split.
      + rewrite Et', Et, <- app_assoc. reflexivity.
      + constructor; auto. now constructor.
      + apply dispatched_app; auto. now rewrite <- Es.
      + rewrite state_after_app, <- Es. exact Es'. }
  destruct (perform _ _ _ _) as [[[[s1 tr1] m1] r1]| | |] eqn:Ep; try discriminate. cbn [obind] in H.
  destruct (G _ Hr _ _ _ _ _ _ Ep) as (Hr1 & inner & Et & Hc & Hd & Es). exists inner, r1.
  assert (Hend : dispatched s (Began s e :: inner ++ [Ended r1])).
  { change (Began s e :: inner ++ [Ended r1]) with ([Began s e] ++ inner ++ [Ended r1]).
    apply dispatched_app; [apply dispatched_one|]. cbn [state_after]. apply dispatched_app; auto. apply dispatched_end. }
  assert (Haft : state_after s (Began s e :: inner ++ [Ended r1]) = if r1 <? 0 then s1 else r1).
  { cbn [state_after]. rewrite state_after_app, <- Es. reflexivity. }
  rewrite Haft. destruct (Z.leb_spec 0 r1); inversion H; subst s' tr' m' a; rewrite Et, <- !app_assoc; cbn [app];
    (destruct (Z.ltb_spec r1 0); [lia || auto|]; try lia);
    repeat split; auto; try (rewrite wrap_small; unfold INT_MAX in *; lia).
Qed.

(** Modest managers. *)

Lemma calls_app : forall (a b : list (ev E)), calls a -> calls b -> calls (a ++ b).
Proof. intros a b Ha. induction Ha; intros Hb; [exact Hb|]. rewrite <- app_assoc. constructor; auto. Qed.

Lemma calls_start : forall (l : list (ev E)), calls l -> l = [] \/ exists s e l', l = Began s e :: l'.
Proof.
  intros l H. destruct H as [|l l' Hl _]; [now left|]. right. destruct Hl. do 3 eexists. reflexivity.
Qed.

Lemma kept_app : forall (a b : list (ev E)), kept a -> kept b -> (b = [] \/ exists s e l, b = Began s e :: l) -> kept (a ++ b).
Proof.
  intros a b Ha Hb Hs before r between r' rest Eq Hr Hr'.
  apply app_eq_app in Eq as (l & [[E1 E2]|[E1 E2]]).
  - destruct l as [|x l].
    + cbn in E2. rewrite <- E2 in *. apply (Hb [] r between r' rest); auto.
    + cbn in E2. inversion E2 as [[Ex Er]]. subst x.
      symmetry in Er. apply app_eq_app in Er as (l2 & [[F1 F2]|[F1 F2]]).
      * destruct l2 as [|y l2].
        -- cbn in F2. destruct Hs as [->|(s & e & lb & ->)]; discriminate.
        -- cbn in F2. inversion F2; subst y. apply (Ha before r between r' l2); auto. rewrite E1, F1. reflexivity.
      * destruct Hs as [->|(s & e & lb & ->)].
        -- destruct l2; discriminate.
        -- destruct l2 as [|y l2]; cbn in F2; [discriminate|]. inversion F2; subst y.
           exists s, e. rewrite F1. apply in_or_app. right. now left.
  - subst before. apply (Hb l r between r' rest); auto.
Qed.

Lemma kept_one : forall s (e : E), kept [Began s e].
Proof. intros s e before r between r' rest Eq. destruct before as [|x [|y before]]; discriminate. Qed.

Lemma kept_end : forall (l : list (ev E)) r, kept l -> r < 0 -> kept (l ++ [Ended r]).
Proof.
  intros l r Hl Hr before r1 between r2 rest Eq H1 H2.
  destruct (@exists_last _ (Ended r2 :: rest) ltac:(discriminate)) as (mid & x & Ex).
  destruct rest as [|y rest] using rev_ind.
  - replace (before ++ Ended r1 :: between ++ [Ended r2]) with ((before ++ Ended r1 :: between) ++ [Ended r2]) in Eq
      by (now rewrite <- app_assoc).
    apply app_inj_tail in Eq as [_ Eq]. inversion Eq. lia.
  - replace (before ++ Ended r1 :: between ++ Ended r2 :: rest ++ [y])
      with ((before ++ Ended r1 :: between ++ Ended r2 :: rest) ++ [y]) in Eq
      by (rewrite <- app_assoc; cbn; now rewrite <- app_assoc).
    apply app_inj_tail in Eq as [Eq _]. apply (Hl _ _ _ _ _ Eq); auto.
Qed.

Lemma kept_plain : forall s (e : E) r, kept [Began s e; Ended r].
Proof.
  intros s e r before r1 between r2 rest Eq. exfalso.
  apply (f_equal (@length _)) in Eq as El. rewrite app_length in El. cbn in El. rewrite app_length in El. cbn in El.
  destruct before as [|x before]; [discriminate|cbn in El; lia].
Qed.

Lemma modest_ok : (forall f, In f managers -> forall m e, modest (f m e)) ->
  forall fuel s tr m e s' tr' m' a, send managers fuel s tr m e = Done (s', tr', m', a) ->
  exists l, tr' = tr ++ Began s e :: l /\ kept (Began s e :: l).
Proof.
  intros Hm fuel. induction fuel as [|fuel IH]; intros s tr m e s' tr' m' a H; [discriminate|].
  cbn [send] in H. destruct (zget managers s) as [f| | |] eqn:Ef; try discriminate. cbn [obind] in H.
  pose proof (Hm f (manager_in _ _ Ef) m e) as Hb.
  assert (G : forall b, returns (fun r => r < 0) b -> forall s0 tr0 s1 tr1 m1 r1,
    perform (send managers fuel) b s0 tr0 = Done (s1, tr1, m1, r1) ->
    r1 < 0 /\ exists l, tr1 = tr0 ++ l /\ kept l /\ (l = [] \/ exists s e l', l = Began s e :: l')).
  { clear - IH. intros b; induction b as [m r|m e k IHb]; intros Hb s0 tr0 s1 tr1 m1 r1 H; cbn in H.
    - inversion H; subst. split; [exact Hb|]. exists []. rewrite app_nil_r. repeat split; auto.
      intros [|x l] r between r' rest Eq; discriminate.
    - destruct (send managers fuel s0 tr0 m e) as [[[[s2 tr2] m2] a2]| | |] eqn:Es; try discriminate. cbn [obind] in H.
      apply IH in Es as (l & Et & Hk). destruct (IHb m2 a2 (Hb m2 a2) _ _ _ _ _ _ H) as (Hr1 & l' & Et' & Hk' & Hs').
      split; [exact Hr1|]. exists ((Began s0 e :: l) ++ l'). repeat split.
      + rewrite Et', Et, <- app_assoc. reflexivity.
      + now apply kept_app.
      + right. cbn. eauto. }
  destruct (f m e) as [m0 r|m0 e0 k].
  - cbn in H. exists [Ended r]. split; [|apply kept_plain].
    destruct (0 <=? r); inversion H; now rewrite <- app_assoc.
  - cbn [perform modest] in *.
    destruct (send managers fuel s (tr ++ [Began s e]) m0 e0) as [[[[s2 tr2] m2] a2]| | |] eqn:Es; try discriminate.
    cbn [obind] in H. apply IH in Es as (l & Et & Hk).
    destruct (perform _ _ _ _) as [[[[s1 tr1] m1] r1]| | |] eqn:Ep; try discriminate. cbn [obind] in H.
    destruct (G _ (Hb m2 a2) _ _ _ _ _ _ Ep) as (Hr1 & l' & Et' & Hk' & Hs').
    destruct (Z.leb_spec 0 r1); [lia|]. inversion H; subst s' tr' m' a.
    exists ((Began s e0 :: l) ++ l' ++ [Ended r1]). split.
    + rewrite Et', Et, <- !app_assoc. reflexivity.
    + change (Began s e :: (Began s e0 :: l) ++ l' ++ [Ended r1]) with ([Began s e] ++ (Began s e0 :: l) ++ l' ++ [Ended r1]).
      rewrite !app_assoc. apply kept_end; auto. rewrite <- app_assoc.
      apply kept_app; [apply kept_one|apply kept_app; auto|right; cbn; eauto].
Qed.

(** Calls that return. *)
Lemma returns_ok : forall (measure : E -> nat),
  zlen managers <= INT_MAX ->
  (forall f, In f managers -> forall m e, returns (fun r => r < zlen managers) (f m e)) ->
  (forall f, In f managers -> forall m e, sends (fun e' => (measure e' < measure e)%nat) (f m e)) ->
  forall fuel s tr m e, 0 <= s < zlen managers -> (measure e < fuel)%nat ->
  exists s' tr' m' a, send managers fuel s tr m e = Done (s', tr', m', a) /\ 0 <= s' < zlen managers.
Proof.
  intros measure Hl Hv Hm fuel. induction fuel as [|fuel IH]; intros s tr m e Hs Hf; [lia|].
  cbn [send]. assert (Ef : exists f, zget managers s = Done f).
  { unfold zget. destruct (Z.ltb_spec s 0); [lia|]. destruct (nth_error managers (Z.to_nat s)) eqn:En; [eauto|].
    apply nth_error_None in En. unfold zlen in Hs. lia. }
  destruct Ef as [f Ef]. rewrite Ef. cbn [obind]. pose proof (manager_in _ _ Ef) as Hin.
  specialize (Hv f Hin m e). specialize (Hm f Hin m e).
  assert (G : forall b, returns (fun r => r < zlen managers) b ->
    sends (fun e' => (measure e' < measure e)%nat) b -> forall s tr, 0 <= s < zlen managers ->
    exists s' tr' m' r, perform (send managers fuel) b s tr = Done (s', tr', m', r) /\ 0 <= s' < zlen managers /\ r < zlen managers).
  { clear - IH Hf. intros b; induction b as [m r|m e' k IHb]; intros Hr Hb s tr Hs; cbn.
    - do 4 eexists. split; [reflexivity|]. cbn in Hr. auto.
    - destruct Hb as [He Hb]. destruct (IH s tr m e' Hs ltac:(lia)) as (s1 & tr1 & m1 & a1 & -> & Hs1). cbn [obind].
      apply IHb; auto.  }
  destruct (G _ Hv Hm s (tr ++ [Began s e]) Hs) as (s1 & tr1 & m1 & r1 & -> & Hs1 & Hr1). cbn [obind].
  destruct (Z.leb_spec 0 r1); do 4 eexists; (split; [reflexivity|]); auto.
  rewrite wrap_small; unfold INT_MAX in *; lia.
Qed.

End SmNestProofs.

(** Managers that send nothing. *)
Lemma plain_ok : forall (M E : Type) (table : list (M -> E -> M * Z)) s m e,
  (do (s', tr, m', a) <- send (map (fun (f : M -> E -> M * Z) m e => Return (fst (f m e)) (snd (f m e))) table) 1 s [] m e;
   Done (mkMachine table s', m', a)) = sm_send_event (mkMachine table s) m e.
Proof.
  intros M E table s m e. unfold sm_send_event. cbn [managers state send]. unfold zget.
  destruct (s <? 0); [reflexivity|]. rewrite nth_error_map.
  destruct (nth_error table (Z.to_nat s)) as [f|]; [|reflexivity]. cbn [option_map obind perform].
  destruct (f m e) as [m' r]. cbn [fst snd]. destruct (0 <=? r); reflexivity.
Qed.
