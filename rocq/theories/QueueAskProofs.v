From Coq Require Import ZifyBool.
From Verif Require Import Base BaseLemmas QueueModel QueueProofs QueueConcModel QueueConcSpec QueueConcSystem QueueConcProofs QueueAskModel.

Section QueueAskProofs.
Context {A : Type}.
Variables (k cap : Z).
Hypothesis Hk : 0 <= k <= 15.
Hypothesis Hcap : cap = 2 ^ k.
Notation counts := (@counts A cap).

Lemma p_step : forall s wt rt a s', counts s wt rt -> pstep a s = Done s' ->
  exists wt', counts s' wt' rt /\ wt <= wt' /\ cp s' = cp s /\ cret s' = cret s.
Proof using Hk Hcap.
  intros s wt rt a s' C E. destruct (counts_p k cap Hk Hcap s wt rt a C) as (s2 & wt' & E2 & C2 & H1 & H2).
  rewrite E in E2. injection E2 as <-. exists wt'. split; [exact C2|]. split; [|split; assumption].
  rewrite (c_pub _ _ _ _ C), (c_pub _ _ _ _ C2). clear - E. unfold published. unfold pstep in E. destruct (pp s) as [|b w|b|b w|b i].
  - injection E as <-. cbn [pp pret cp cret]. lia.
  - destruct (_ =? _); injection E as <-; cbn [pp pret]; [|lia]. rewrite accepted_app. cbn. rewrite app_nil_r. lia.
  - injection E as <-. cbn [pp pret cp cret]. lia.
  - injection E as <-. cbn [pp pret cp cret]. lia.
  - destruct (zset (items (shared s)) i b); try discriminate. injection E as <-. cbn [pp pret]. rewrite accepted_app. cbn. rewrite (zlen_app1 0). lia.
Qed.

Lemma c_step : forall s wt rt d s', counts s wt rt -> cstep d s = Done s' ->
  exists rt', counts s' wt rt' /\ rt <= rt' /\ pp s' = pp s /\ pret s' = pret s.
Proof using Hk Hcap.
  intros s wt rt d s' C E. destruct (counts_c k cap Hk Hcap s wt rt d C) as (s2 & rt' & E2 & C2 & H1 & H2).
  rewrite E in E2. injection E2 as <-. exists rt'. split; [exact C2|]. split; [|split; assumption].
  rewrite (c_cla _ _ _ _ C), (c_cla _ _ _ _ C2). clear - E. unfold claimed. unfold cstep in E. destruct (cp s) as [|b w|b|b w|b i].
  - injection E as <-. cbn [pp pret cp cret]. lia.
  - destruct (_ =? _); injection E as <-; cbn [cp cret]; [|lia]. rewrite removals_app. cbn. rewrite app_nil_r. lia.
  - injection E as <-. cbn [pp pret cp cret]. lia.
  - injection E as <-. cbn [pp pret cp cret]. lia.
  - destruct b; [destruct (zget (items (shared s)) i); try discriminate|]; injection E as <-; cbn [cp cret]; rewrite removals_app; cbn; rewrite (zlen_app1 0); lia.
Qed.

Lemma p_moves : forall s wt rt s', counts s wt rt -> moves true false s s' ->
  exists wt', counts s' wt' rt /\ wt <= wt' /\ cp s' = cp s /\ cret s' = cret s.
Proof using Hk Hcap.
  intros s wt rt s' C M. induction M as [|s1 s2 a _ _ IH E|s1 s2 d Hd _ _ _]; [|..|discriminate].
  - exists wt. repeat split; try apply C; lia.
  - destruct IH as (w1 & C1 & L1 & A1 & B1). destruct (p_step _ _ _ _ _ C1 E) as (w2 & C2 & L2 & A2 & B2).
    exists w2. repeat split; try apply C2; try congruence; lia.
Qed.

Lemma c_moves : forall s wt rt s', counts s wt rt -> moves false true s s' ->
  exists rt', counts s' wt rt' /\ rt <= rt' /\ pp s' = pp s /\ pret s' = pret s.
Proof using Hk Hcap.
  intros s wt rt s' C M. induction M as [|s1 s2 a Ha _ _ _|s1 s2 d _ _ IH E]; [|discriminate|].
  - exists rt. repeat split; try apply C; lia.
  - destruct IH as (w1 & C1 & L1 & A1 & B1). destruct (c_step _ _ _ _ _ C1 E) as (w2 & C2 & L2 & A2 & B2).
    exists w2. repeat split; try apply C2; try congruence; lia.
Qed.

(** The dequeuing thread goes on after it knew of an item. *)
Definition taking (c0 : list (Z * option A)) (s : qstate A) (wt rt : Z) : Prop :=
  (cret s = c0 /\ match cp s with
                  | CIdle => rt < wt
                  | CLoadR _ w => exists wt0, w = wt0 mod 65536 /\ rt < wt0 <= wt
                  | _ => True
                  end) \/
  exists o l, cret s = c0 ++ (0, o) :: l.

Lemma taking_moves : forall c0 s wt rt z, counts s wt rt -> taking c0 s wt rt -> moves true true s z ->
  exists wt' rt', counts z wt' rt' /\ taking c0 z wt' rt'.
Proof using Hk Hcap.
  intros c0 s wt rt z C T M. pose proof (cap_range k cap Hk Hcap) as HC. induction M as [|s1 s2 a _ _ IH E|s1 s2 d _ _ IH E].
  - eauto.
  - destruct IH as (w1 & r1 & C1 & T1). destruct (p_step _ _ _ _ _ C1 E) as (w2 & C2 & L2 & A2 & B2). exists w2, r1. split; [exact C2|].
    unfold taking in *. rewrite A2, B2. destruct T1 as [[T1 T2]|T1]; [left|right; exact T1]. split; [exact T1|].
    destruct (cp s1) as [|e w|e|e r|e i]; auto; [lia|]. destruct T2 as (w0 & X & Y). exists w0. split; [exact X|lia].
  - destruct IH as (w1 & r1 & C1 & T1). destruct (c_step _ _ _ _ _ C1 E) as (r2 & C2 & L2 & A2 & B2). exists w1, r2. split; [exact C2|].
    pose proof (c_r _ _ _ _ C1) as HR. pose proof (c_w _ _ _ _ C1) as HW. pose proof (c_le _ _ _ _ C1) as HL.
    assert (R2 : r2 = r1 + (match cp s1 with CStoreR _ _ => 1 | _ => 0 end)).
    { rewrite (c_cla _ _ _ _ C1), (c_cla _ _ _ _ C2). clear - E. unfold claimed. unfold cstep in E. destruct (cp s1) as [|b w|b|b w|b i].
      - injection E as <-. cbn [pp pret cp cret]. lia.
      - destruct (_ =? _); injection E as <-; cbn [cp cret]; [|lia]. rewrite removals_app. cbn. rewrite app_nil_r. lia.
      - injection E as <-. cbn [pp pret cp cret]. lia.
      - injection E as <-. cbn [pp pret cp cret]. lia.
      - destruct b; [destruct (zget (items (shared s1)) i); try discriminate|]; injection E as <-; cbn [cp cret]; rewrite removals_app; cbn; rewrite (zlen_app1 0); lia. }
    unfold taking in *. unfold cstep in E. destruct T1 as [[T1 T2]|(o & l & T1)].
    + destruct (cp s1) as [|e w|e|e r|e i].
      * injection E as <-. left. cbn [cret cp]. split; [exact T1|]. exists w1. split; [exact HW|lia].
      * destruct T2 as (w0 & X & Y). rewrite X, HR, (diff_mod r1 w0 (w0 - r1)) in E by lia.
        destruct (Z.eqb_spec (w0 - r1) 0); [lia|]. injection E as <-. left. cbn [cret cp]. auto.
      * injection E as <-. left. cbn [cret cp]. auto.
      * injection E as <-. left. cbn [cret cp]. auto.
      * right. destruct e; [destruct (zget (items (shared s1)) i) as [x| | |]; try discriminate|]; injection E as <-; cbn [cret]; rewrite T1; eauto.
    + right. exists o.
      assert (X : exists l', cret s2 = cret s1 ++ l').
      { clear - E. destruct (cp s1) as [|b w|b|b w|b i].
        - injection E as <-. exists []. cbn. now rewrite app_nil_r.
        - destruct (_ =? _); injection E as <-; cbn [cret]; [eauto|]. exists []. now rewrite app_nil_r.
        - injection E as <-. exists []. cbn. now rewrite app_nil_r.
        - injection E as <-. exists []. cbn. now rewrite app_nil_r.
        - destruct b; [destruct (zget (items (shared s1)) i); try discriminate|]; injection E as <-; cbn [cret]; eauto. }
      destruct X as (l' & ->). rewrite T1. exists (l ++ l'). now rewrite <- app_assoc.
Qed.

(** The enqueuing thread goes on after it knew of a free cell. *)
Definition giving (p0 : list (A * Z)) (s : qstate A) (wt rt : Z) : Prop :=
  (pret s = p0 /\ match pp s with
                  | PIdle | PLoadR _ _ => wt - rt < cap
                  | _ => True
                  end) \/
  exists a l, pret s = p0 ++ (a, 0) :: l.

Lemma giving_moves : forall p0 s wt rt z, counts s wt rt -> giving p0 s wt rt -> moves true true s z ->
  exists wt' rt', counts z wt' rt' /\ giving p0 z wt' rt'.
Proof using Hk Hcap.
  intros p0 s wt rt z C T M. pose proof (cap_range k cap Hk Hcap) as HC. induction M as [|s1 s2 a _ _ IH E|s1 s2 d _ _ IH E].
  - eauto.
  - destruct IH as (w1 & r1 & C1 & T1). destruct (p_step _ _ _ _ _ C1 E) as (w2 & C2 & L2 & A2 & B2). exists w2, r1. split; [exact C2|].
    pose proof (c_r _ _ _ _ C1) as HR. pose proof (c_w _ _ _ _ C1) as HW. pose proof (c_le _ _ _ _ C1) as HL. pose proof (c_cap _ _ _ _ C1) as HN.
    pose proof (c_pp _ _ _ _ C1) as HP.
    assert (R2 : w2 = w1 + (match pp s1 with PStoreW _ _ => 1 | _ => 0 end)).
    { rewrite (c_pub _ _ _ _ C1), (c_pub _ _ _ _ C2). clear - E. unfold published. unfold pstep in E. destruct (pp s1) as [|b w|b|b w|b i].
      - injection E as <-. cbn [pp pret cp cret]. lia.
      - destruct (_ =? _); injection E as <-; cbn [pp pret]; [|lia]. rewrite accepted_app. cbn. rewrite app_nil_r. lia.
      - injection E as <-. cbn [pp pret cp cret]. lia.
      - injection E as <-. cbn [pp pret cp cret]. lia.
      - destruct (zset (items (shared s1)) i b); try discriminate. injection E as <-. cbn [pp pret]. rewrite accepted_app. cbn. rewrite (zlen_app1 0). lia. }
    unfold giving in *. unfold pstep in E. destruct T1 as [[T1 T2]|(o & l & T1)].
    + destruct (pp s1) as [|e w|e|e r|e i].
      * injection E as <-. left. cbn [pret pp]. split; [exact T1|]. lia.
      * rewrite HP, HR, (diff_mod r1 w1 (w1 - r1)) in E by lia. unfold capacity in E. rewrite HN in E.
        destruct (Z.eqb_spec (w1 - r1) cap); [lia|]. injection E as <-. left. cbn [pret pp]. auto.
      * injection E as <-. left. cbn [pret pp]. auto.
      * injection E as <-. left. cbn [pret pp]. auto.
      * right. destruct (zset (items (shared s1)) i e) as [x| | |]; try discriminate; injection E as <-; cbn [pret]; rewrite T1; eauto.
    + right. exists o.
      assert (X : exists l', pret s2 = pret s1 ++ l').
      { clear - E. destruct (pp s1) as [|b w|b|b w|b i].
        - injection E as <-. exists []. cbn. now rewrite app_nil_r.
        - destruct (_ =? _); injection E as <-; cbn [pret]; [eauto|]. exists []. now rewrite app_nil_r.
        - injection E as <-. exists []. cbn. now rewrite app_nil_r.
        - injection E as <-. exists []. cbn. now rewrite app_nil_r.
        - destruct (zset (items (shared s1)) i b); try discriminate; injection E as <-; cbn [pret]; eauto. }
      destruct X as (l' & ->). rewrite T1. exists (l ++ l'). now rewrite <- app_assoc.
  - destruct IH as (w1 & r1 & C1 & T1). destruct (c_step _ _ _ _ _ C1 E) as (r2 & C2 & L2 & A2 & B2). exists w1, r2. split; [exact C2|].
    unfold giving in *. rewrite A2, B2. destruct T1 as [[T1 T2]|T1]; [left|right; exact T1]. split; [exact T1|].
    destruct (pp s1) as [|e w|e|e r|e i]; auto; lia.
Qed.

Lemma eq_mod : forall a b, 0 <= a - b <= 32768 -> (a mod 65536 - b mod 65536 =? 0) = (a - b =? 0).
Proof.
  intros a b H. pose proof (Z.div_mod a 65536). pose proof (Z.div_mod b 65536).
  pose proof (Z.mod_pos_bound a 65536). pose proof (Z.mod_pos_bound b 65536). lia.
Qed.

Lemma ask_dequeue_l : forall m (q : queue A) s x y, zlen (items q) = cap -> qsteps m q s -> cp s = CIdle ->
  moves true false s x -> moves true false s y ->
  asked_empty (write_idx (shared x)) (read_idx (shared y)) = (published x =? claimed x) /\
  (forall z, asked_empty (write_idx (shared x)) (read_idx (shared y)) = false ->
     moves true true x z -> zlen (cret s) < zlen (cret z) -> exists o l, cret z = cret s ++ (0, o) :: l).
Proof using Hk Hcap.
  intros m q s x y Hq R Hi Mx My. pose proof (cap_range k cap Hk Hcap) as HC.
  destruct (counts_reach k cap Hk Hcap m q s Hq R) as (wt & rt & C).
  destruct (p_moves s wt rt x C Mx) as (wx & Cx & Lx & Px & Rx). destruct (p_moves s wt rt y C My) as (wy & Cy & Ly & Py & Ry).
  assert (E : asked_empty (write_idx (shared x)) (read_idx (shared y)) = (published x =? claimed x)).
  { unfold asked_empty. rewrite (c_w _ _ _ _ Cx), (c_r _ _ _ _ Cy). pose proof (c_le _ _ _ _ Cx).
    rewrite eq_mod by lia. rewrite <- (c_pub _ _ _ _ Cx), <- (c_cla _ _ _ _ Cx). lia. }
  split; [exact E|]. intros z N M L. rewrite E in N.
  destruct (taking_moves (cret s) x wx rt z Cx) as (w' & r' & _ & T).
  - left. split; [exact Rx|]. rewrite Px, Hi. pose proof (c_le _ _ _ _ Cx). rewrite (c_pub _ _ _ _ Cx), (c_cla _ _ _ _ Cx) in *. lia.
  - exact M.
  - destruct T as [[T _]|T]; [rewrite T in L; lia|exact T].
Qed.

Lemma ask_enqueue_l : forall m (q : queue A) s x y, zlen (items q) = cap -> qsteps m q s -> pp s = PIdle ->
  moves false true s x -> moves false true s y ->
  asked_full cap (write_idx (shared y)) (read_idx (shared x)) = (published x - claimed x =? cap) /\
  (forall z, asked_full cap (write_idx (shared y)) (read_idx (shared x)) = false ->
     moves true true x z -> zlen (pret s) < zlen (pret z) -> exists a l, pret z = pret s ++ (a, 0) :: l).
Proof using Hk Hcap.
  intros m q s x y Hq R Hi Mx My. pose proof (cap_range k cap Hk Hcap) as HC.
  destruct (counts_reach k cap Hk Hcap m q s Hq R) as (wt & rt & C).
  destruct (c_moves s wt rt x C Mx) as (wx & Cx & Lx & Px & Rx). destruct (c_moves s wt rt y C My) as (wy & Cy & Ly & Py & Ry).
  assert (E : asked_full cap (write_idx (shared y)) (read_idx (shared x)) = (published x - claimed x =? cap)).
  { unfold asked_full. rewrite (c_w _ _ _ _ Cy), (c_r _ _ _ _ Cx). pose proof (c_le _ _ _ _ Cx).
    rewrite (diff_mod wx wt (wt - wx)) by lia. rewrite <- (c_pub _ _ _ _ Cx), <- (c_cla _ _ _ _ Cx). reflexivity. }
  split; [exact E|]. intros z N M L. rewrite E in N.
  destruct (giving_moves (pret s) x wt wx z Cx) as (w' & r' & _ & T).
  - left. split; [exact Rx|]. rewrite Px, Hi. pose proof (c_le _ _ _ _ Cx). rewrite (c_pub _ _ _ _ Cx), (c_cla _ _ _ _ Cx) in *. lia.
  - exact M.
  - destruct T as [[T _]|T]; [rewrite T in L; lia|exact T].
Qed.

End QueueAskProofs.
