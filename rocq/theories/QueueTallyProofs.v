From Coq Require Import ZifyBool.
From Verif Require Import Base BaseLemmas QueueModel QueueProofs QueueConcModel QueueConcSpec QueueConcSystem QueueConcProofs QueueAskModel QueueAskProofs QueueTallyModel QueueTallySpec.

Section QueueTallyProofs.
Context {A : Type}.
Variables (k cap : Z).
Hypothesis Hk : 0 <= k <= 15.
Hypothesis Hcap : cap = 2 ^ k.
Notation counts := (@counts A cap).

Definition firsts {R : Type} (result : R -> Z) (n : Z) (l : list R) : Prop := forall j c, nth_error l j = Some c -> Z.of_nat j < n -> result c = 0.

Lemma firsts_more : forall (R : Type) (f : R -> Z) n l l', firsts f n l -> n <= zlen l -> firsts f n (l ++ l').
Proof.
  intros R f n l l' F L j c E Lt. unfold zlen in L. rewrite nth_error_app1 in E by lia. exact (F j c E Lt).
Qed.

Lemma firsts_one : forall (R : Type) (f : R -> Z) n l c, firsts f n l -> f c = 0 -> firsts f n (l ++ [c]).
Proof.
  intros R f n l c F H j d E Lt. destruct (Nat.lt_ge_cases j (length l)) as [L|L].
  - rewrite nth_error_app1 in E by exact L. exact (F j d E Lt).
  - rewrite nth_error_app2 in E by exact L. destruct (j - length l)%nat as [|i]; cbn in E; [now injection E as <-|destruct i; discriminate].
Qed.

Lemma zlen_one : forall (R : Type) (l : list R) c, zlen (l ++ [c]) = zlen l + 1.
Proof. intros. unfold zlen. rewrite app_length. cbn. lia. Qed.

(** The dequeuing thread goes on after it knew of [n] items. *)
Definition taking_n (n rt0 : Z) (c0 : list (Z * option A)) (s : qstate A) (wt rt : Z) : Prop :=
  rt0 + n <= wt /\ exists l, cret s = c0 ++ l /\ firsts fst n l /\
  (zlen l < n -> rt = rt0 + zlen l + (match cp s with CCell _ _ => 1 | _ => 0 end) /\
    match cp s with CLoadR _ w => exists wt0, w = wt0 mod 65536 /\ rt < wt0 <= wt | _ => True end).

Lemma taking_n_moves : forall n rt0 c0 s wt rt z, counts s wt rt -> taking_n n rt0 c0 s wt rt -> moves true true s z ->
  exists wt' rt', counts z wt' rt' /\ taking_n n rt0 c0 z wt' rt'.
Proof using Hk Hcap.
  intros n rt0 c0 s wt rt z C T M. pose proof (cap_range k cap Hk Hcap) as HC. induction M as [|s1 s2 a _ _ IH E|s1 s2 d _ _ IH E].
  - eauto.
  - destruct IH as (w1 & r1 & C1 & T1 & l & Tl & Tf & Tr). destruct (p_step k cap Hk Hcap _ _ _ _ _ C1 E) as (w2 & C2 & L2 & A2 & B2). exists w2, r1. split; [exact C2|].
    split; [lia|]. exists l. rewrite A2, B2. split; [exact Tl|]. split; [exact Tf|]. intros L. destruct (Tr L) as [X Y]. split; [exact X|].
    destruct (cp s1) as [|e w|e|e r|e i]; auto. destruct Y as (w0 & Y1 & Y2). exists w0. split; [exact Y1|lia].
  - destruct IH as (w1 & r1 & C1 & T1 & l & Tl & Tf & Tr). destruct (c_step k cap Hk Hcap _ _ _ _ _ C1 E) as (r2 & C2 & L2 & A2 & B2). exists w1, r2. split; [exact C2|].
    pose proof (c_r _ _ _ _ C1) as HR. pose proof (c_w _ _ _ _ C1) as HW. pose proof (c_le _ _ _ _ C1) as HL.
    assert (R2 : r2 = r1 + (match cp s1 with CStoreR _ _ => 1 | _ => 0 end)).
    { rewrite (c_cla _ _ _ _ C1), (c_cla _ _ _ _ C2). clear - E. unfold claimed. unfold cstep in E. destruct (cp s1) as [|b w|b|b w|b i].
      - injection E as <-. cbn [pp pret cp cret]. lia.
      - destruct (_ =? _); injection E as <-; cbn [cp cret]; [|lia]. rewrite removals_app. cbn. rewrite app_nil_r. lia.
      - injection E as <-. cbn [pp pret cp cret]. lia.
      - injection E as <-. cbn [pp pret cp cret]. lia.
      - destruct b; [destruct (zget (items (shared s1)) i); try discriminate|]; injection E as <-; cbn [cp cret]; rewrite removals_app; cbn; rewrite (zlen_app1 0); lia. }
    split; [exact T1|]. destruct (Z.lt_ge_cases (zlen l) n) as [L|L].
    + destruct (Tr L) as [X Y]. unfold cstep in E. destruct (cp s1) as [|e w|e|e r|e i].
      * injection E as <-. exists l. cbn [cret cp]. split; [exact Tl|]. split; [exact Tf|]. intros _. split; [lia|]. exists w1. split; [exact HW|lia].
      * destruct Y as (w0 & Y1 & Y2). rewrite Y1, HR, (diff_mod r1 w0 (w0 - r1)) in E by lia.
        destruct (Z.eqb_spec (w0 - r1) 0); [lia|]. injection E as <-. exists l. cbn [cret cp]. split; [exact Tl|]. split; [exact Tf|]. intros _. split; [lia|exact Logic.I].
      * injection E as <-. exists l. cbn [cret cp]. split; [exact Tl|]. split; [exact Tf|]. intros _. split; [lia|exact Logic.I].
      * injection E as <-. exists l. cbn [cret cp]. split; [exact Tl|]. split; [exact Tf|]. intros _. split; [lia|exact Logic.I].
      * assert (Q : exists o, cret s2 = cret s1 ++ [(0, o)] /\ cp s2 = CIdle)
          by (destruct e; [destruct (zget (items (shared s1)) i) as [x| | |]; try discriminate|]; injection E as <-; cbn [cret cp]; eauto).
        destruct Q as (o & -> & ->). exists (l ++ [(0, o)]). rewrite Tl, <- app_assoc. split; [reflexivity|]. split; [now apply firsts_one|].
        intros _. rewrite zlen_one. split; [lia|exact Logic.I].
    + assert (X : exists l', cret s2 = cret s1 ++ l').
      { clear - E. unfold cstep in E. destruct (cp s1) as [|b w|b|b w|b i].
        - injection E as <-. exists []. cbn. now rewrite app_nil_r.
        - destruct (_ =? _); injection E as <-; cbn [cret]; [eauto|]. exists []. now rewrite app_nil_r.
        - injection E as <-. exists []. cbn. now rewrite app_nil_r.
        - injection E as <-. exists []. cbn. now rewrite app_nil_r.
        - destruct b; [destruct (zget (items (shared s1)) i); try discriminate|]; injection E as <-; cbn [cret]; eauto. }
      destruct X as (l' & ->). rewrite Tl. exists (l ++ l'). rewrite <- app_assoc. split; [reflexivity|]. split; [now apply firsts_more|].
      intros Q. unfold zlen in Q, L. rewrite app_length in Q. lia.
Qed.

(** The enqueuing thread goes on after it knew of [n] free cells. *)
Definition giving_n (n wt0 : Z) (p0 : list (A * Z)) (s : qstate A) (wt rt : Z) : Prop :=
  wt0 + n <= rt + cap /\ exists l, pret s = p0 ++ l /\ firsts snd n l /\
  (zlen l < n -> wt = wt0 + zlen l + (match pp s with PCell _ _ => 1 | _ => 0 end)).

Lemma giving_n_moves : forall n wt0 p0 s wt rt z, counts s wt rt -> giving_n n wt0 p0 s wt rt -> moves true true s z ->
  exists wt' rt', counts z wt' rt' /\ giving_n n wt0 p0 z wt' rt'.
Proof using Hk Hcap.
  intros n wt0 p0 s wt rt z C T M. pose proof (cap_range k cap Hk Hcap) as HC. induction M as [|s1 s2 a _ _ IH E|s1 s2 d _ _ IH E].
  - eauto.
  - destruct IH as (w1 & r1 & C1 & T1 & l & Tl & Tf & Tr). destruct (p_step k cap Hk Hcap _ _ _ _ _ C1 E) as (w2 & C2 & L2 & A2 & B2). exists w2, r1. split; [exact C2|].
    pose proof (c_r _ _ _ _ C1) as HR. pose proof (c_w _ _ _ _ C1) as HW. pose proof (c_le _ _ _ _ C1) as HL. pose proof (c_cap _ _ _ _ C1) as HN.
    pose proof (c_pp _ _ _ _ C1) as HP.
    assert (R2 : w2 = w1 + (match pp s1 with PStoreW _ _ => 1 | _ => 0 end)).
    { rewrite (c_pub _ _ _ _ C1), (c_pub _ _ _ _ C2). clear - E. unfold published. unfold pstep in E. destruct (pp s1) as [|b w|b|b w|b i].
      - injection E as <-. cbn [pp pret cp cret]. lia.
      - destruct (_ =? _); injection E as <-; cbn [pp pret]; [|lia]. rewrite accepted_app. cbn. rewrite app_nil_r. lia.
      - injection E as <-. cbn [pp pret cp cret]. lia.
      - injection E as <-. cbn [pp pret cp cret]. lia.
      - destruct (zset (items (shared s1)) i b); try discriminate. injection E as <-. cbn [pp pret]. rewrite accepted_app. cbn. rewrite (zlen_app1 0). lia. }
    split; [exact T1|]. destruct (Z.lt_ge_cases (zlen l) n) as [L|L].
    + pose proof (Tr L) as X. unfold pstep in E. destruct (pp s1) as [|e w|e|e r|e i].
      * injection E as <-. exists l. cbn [pret pp]. split; [exact Tl|]. split; [exact Tf|]. intros _. lia.
      * rewrite HP, HR, (diff_mod r1 w1 (w1 - r1)) in E by lia. unfold capacity in E. rewrite HN in E.
        destruct (Z.eqb_spec (w1 - r1) cap); [lia|]. injection E as <-. exists l. cbn [pret pp]. split; [exact Tl|]. split; [exact Tf|]. intros _. lia.
      * injection E as <-. exists l. cbn [pret pp]. split; [exact Tl|]. split; [exact Tf|]. intros _. lia.
      * injection E as <-. exists l. cbn [pret pp]. split; [exact Tl|]. split; [exact Tf|]. intros _. lia.
      * assert (Q : pret s2 = pret s1 ++ [(e, 0)] /\ pp s2 = PIdle)
          by (destruct (zset (items (shared s1)) i e) as [x| | |]; try discriminate; injection E as <-; cbn [pret pp]; auto).
        destruct Q as (-> & ->). exists (l ++ [(e, 0)]). rewrite Tl, <- app_assoc. split; [reflexivity|]. split; [now apply firsts_one|].
        intros _. rewrite zlen_one. lia.
    + assert (X : exists l', pret s2 = pret s1 ++ l').
      { clear - E. unfold pstep in E. destruct (pp s1) as [|b w|b|b w|b i].
        - injection E as <-. exists []. cbn. now rewrite app_nil_r.
        - destruct (_ =? _); injection E as <-; cbn [pret]; [eauto|]. exists []. now rewrite app_nil_r.
        - injection E as <-. exists []. cbn. now rewrite app_nil_r.
        - injection E as <-. exists []. cbn. now rewrite app_nil_r.
        - destruct (zset (items (shared s1)) i b); try discriminate; injection E as <-; cbn [pret]; eauto. }
      destruct X as (l' & ->). rewrite Tl. exists (l ++ l'). rewrite <- app_assoc. split; [reflexivity|]. split; [now apply firsts_more|].
      intros Q. unfold zlen in Q, L. rewrite app_length in Q. lia.
  - destruct IH as (w1 & r1 & C1 & T1 & l & Tl & Tf & Tr). destruct (c_step k cap Hk Hcap _ _ _ _ _ C1 E) as (r2 & C2 & L2 & A2 & B2). exists w1, r2. split; [exact C2|].
    split; [lia|]. exists l. rewrite A2, B2. auto.
Qed.

(** The value of the count. *)
Lemma count_value : forall a b, 0 <= a - b <= 32768 ->
  asked_count (a mod 65536) (b mod 65536) = (a - b) + (if a mod 65536 <? b mod 65536 then 2 ^ 64 - 2 ^ 16 else 0).
Proof using.
  clear Hk Hcap. intros a b H. unfold asked_count, wrap. change (2 ^ 64) with 18446744073709551616. change (2 ^ 16) with 65536.
  pose proof (Z.div_mod a 65536). pose proof (Z.div_mod b 65536). pose proof (Z.mod_pos_bound a 65536). pose proof (Z.mod_pos_bound b 65536).
  set (x := a mod 65536) in *. set (y := b mod 65536) in *. destruct (Z.ltb_spec x y).
  - replace (x - y) with (x - y + 18446744073709551616 + (-1) * 18446744073709551616) by lia. rewrite Z.mod_add by lia. rewrite Z.mod_small by lia. lia.
  - rewrite Z.mod_small by lia. lia.
Qed.

Lemma count_low : forall n (b : bool), 0 <= n <= 32768 -> wrap 16 (n + (if b then 2 ^ 64 - 2 ^ 16 else 0)) = n.
Proof using.
  clear Hk Hcap. intros n b H. unfold wrap. destruct b; [|rewrite Z.add_0_r; apply Z.mod_small; change (2 ^ 16) with 65536; lia].
  replace (2 ^ 64 - 2 ^ 16) with (281474976710655 * 2 ^ 16) by reflexivity. rewrite Z.mod_add by lia. apply Z.mod_small. change (2 ^ 16) with 65536. lia.
Qed.

Lemma tally_dequeue_l : forall m (q : queue A) s x y, zlen (items q) = cap -> qsteps m q s -> cp s = CIdle ->
  moves true false s x -> moves true false s y ->
  let w := write_idx (shared x) in let r := read_idx (shared y) in
  asked_count w r = published x - claimed x + (if w <? r then 2 ^ 64 - 2 ^ 16 else 0) /\
  wrap 16 (asked_count w r) = published x - claimed x /\
  forall z, moves true true x z -> next_succeed fst (wrap 16 (asked_count w r)) (cret s) (cret z).
Proof using Hk Hcap.
  intros m q s x y Hq R Hi Mx My w r. pose proof (cap_range k cap Hk Hcap) as HC.
  destruct (counts_reach k cap Hk Hcap m q s Hq R) as (wt & rt & C).
  destruct (p_moves k cap Hk Hcap s wt rt x C Mx) as (wx & Cx & Lx & Px & Rx). destruct (p_moves k cap Hk Hcap s wt rt y C My) as (wy & Cy & Ly & Py & Ry).
  pose proof (c_le _ _ _ _ Cx) as HL.
  assert (E : asked_count w r = published x - claimed x + (if w <? r then 2 ^ 64 - 2 ^ 16 else 0)).
  { unfold w, r. rewrite (c_w _ _ _ _ Cx), (c_r _ _ _ _ Cy), <- (c_pub _ _ _ _ Cx), <- (c_cla _ _ _ _ Cx). apply count_value. lia. }
  assert (E' : wrap 16 (asked_count w r) = published x - claimed x).
  { rewrite E. apply count_low. rewrite <- (c_pub _ _ _ _ Cx), <- (c_cla _ _ _ _ Cx). lia. }
  split; [exact E|]. split; [exact E'|]. intros z M. rewrite E', <- (c_pub _ _ _ _ Cx), <- (c_cla _ _ _ _ Cx).
  destruct (taking_n_moves (wx - rt) rt (cret s) x wx rt z Cx) as (w' & r' & _ & _ & l & T1 & T2 & _).
  - split; [lia|]. exists []. rewrite app_nil_r. split; [exact Rx|]. split; [intros [|j] c Q; discriminate|]. intros _. rewrite Px, Hi. split; [unfold zlen; cbn; lia|exact Logic.I].
  - exact M.
  - exists l. split; [exact T1|exact T2].
Qed.

Lemma tally_enqueue_l : forall m (q : queue A) s x y, zlen (items q) = cap -> qsteps m q s -> pp s = PIdle ->
  moves false true s x -> moves false true s y ->
  let w := write_idx (shared y) in let r := read_idx (shared x) in
  asked_count w r = published x - claimed x + (if w <? r then 2 ^ 64 - 2 ^ 16 else 0) /\
  wrap 16 (asked_count w r) = published x - claimed x /\
  forall z, moves true true x z -> next_succeed snd (cap - wrap 16 (asked_count w r)) (pret s) (pret z).
Proof using Hk Hcap.
  intros m q s x y Hq R Hi Mx My w r. pose proof (cap_range k cap Hk Hcap) as HC.
  destruct (counts_reach k cap Hk Hcap m q s Hq R) as (wt & rt & C).
  destruct (c_moves k cap Hk Hcap s wt rt x C Mx) as (rx & Cx & Lx & Px & Rx). destruct (c_moves k cap Hk Hcap s wt rt y C My) as (ry & Cy & Ly & Py & Ry).
  pose proof (c_le _ _ _ _ Cx) as HL.
  assert (E : asked_count w r = published x - claimed x + (if w <? r then 2 ^ 64 - 2 ^ 16 else 0)).
  { unfold w, r. rewrite (c_w _ _ _ _ Cy), (c_r _ _ _ _ Cx), <- (c_pub _ _ _ _ Cx), <- (c_cla _ _ _ _ Cx). apply count_value. lia. }
  assert (E' : wrap 16 (asked_count w r) = published x - claimed x).
  { rewrite E. apply count_low. rewrite <- (c_pub _ _ _ _ Cx), <- (c_cla _ _ _ _ Cx). lia. }
  split; [exact E|]. split; [exact E'|]. intros z M. rewrite E', <- (c_pub _ _ _ _ Cx), <- (c_cla _ _ _ _ Cx).
  destruct (giving_n_moves (cap - (wt - rx)) wt (pret s) x wt rx z Cx) as (w' & r' & _ & _ & l & T1 & T2 & _).
  - split; [lia|]. exists []. rewrite app_nil_r. split; [exact Rx|]. split; [intros [|j] c Q; discriminate|]. intros _. rewrite Px, Hi. unfold zlen. cbn. lia.
  - exact M.
  - exists l. split; [exact T1|exact T2].
Qed.

End QueueTallyProofs.
