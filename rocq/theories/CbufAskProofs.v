From Coq Require Import ZifyBool ZifyNat.
From Verif Require Import Base BaseLemmas CbufModel CbufSpec CbufProofs SpscModel SpscSpec SpscProofs ObserverModel ObserverSpec ObserverProofs CbufAskSpec.

Section P.
Context {A : Type}.
Variables (region : list A) (c0 : cbuf A).
Hypothesis Hn : 1 <= zlen region < 2 ^ 64.
Hypothesis Hi : circular_buf_init region (zlen region) = Some c0.
Local Notation n := (zlen region).

Lemma elements_p : forall s s' : sys A, pstep s s' -> cret s' = cret s /\ cp s' = cp s /\ tail (sh s') = tail (sh s) /\
  exists l, pret s' = pret s ++ l /\ elements s' = elements s + stored (accepted l).
Proof.
  intros s s' H. inversion H; subst; cbn [cret pret cp sh]; (split; [reflexivity|split; [reflexivity|split; [reflexivity|]]]);
    unfold elements; cbn [cret pret];
    first [exists (@nil (op A * out A)); rewrite app_nil_r; split; [reflexivity|cbn; lia]
          |eexists; split; [reflexivity|]; unfold accepted, stored; rewrite flat_map_app, app_length; lia].
Qed.

Lemma elements_c : forall s s' : sys A, cstep s s' -> pret s' = pret s /\ pp s' = pp s /\ head (sh s') = head (sh s) /\
  exists l, cret s' = cret s ++ l /\ elements s' = elements s - stored (delivered l).
Proof.
  intros s s' H. inversion H; subst; cbn [cret pret pp sh]; (split; [reflexivity|split; [reflexivity|split; [reflexivity|]]]);
    unfold elements; cbn [cret pret];
    first [exists (@nil (op A * out A)); rewrite app_nil_r; split; [reflexivity|cbn; lia]
          |eexists; split; [reflexivity|]; unfold delivered, stored; rewrite flat_map_app, app_length; lia].
Qed.

Lemma stored_nonneg : forall l : list A, 0 <= stored l. Proof. intros. unfold stored. lia. Qed.

Lemma last_cons : forall (l : list (sys A)) a b, last (a :: l) b = last l a.
Proof. induction l as [|u l IH]; intros a b; [reflexivity|]. change (last (u :: l) b = last (u :: l) a). now rewrite !IH. Qed.

Lemma p_run : forall l s, run_of (@pstep A) s l -> forall x, In x (s :: l) ->
  elements x <= elements (last l s) /\ cret (last l s) = cret s /\ cp (last l s) = cp s.
Proof.
  induction l as [|s' l IH]; intros s Hr x Hx.
  - destruct Hx as [<-|[]]. cbn. repeat split. lia.
  - destruct Hr as [H1 H2]. destruct (elements_p s s' H1) as (E1 & E2 & _ & k & _ & E3). pose proof (stored_nonneg (accepted k)).
    rewrite last_cons. destruct Hx as [<-|Hx].
    + destruct (IH s' H2 s' (or_introl eq_refl)) as (F1 & F2 & F3). repeat split; [lia|congruence|congruence].
    + destruct (IH s' H2 x Hx) as (F1 & F2 & F3). repeat split; [lia|congruence|congruence].
Qed.

Lemma c_run : forall l s, run_of (@cstep A) s l -> forall x, In x (s :: l) ->
  elements (last l s) <= elements x /\ pret (last l s) = pret s /\ pp (last l s) = pp s.
Proof.
  induction l as [|s' l IH]; intros s Hr x Hx.
  - destruct Hx as [<-|[]]. cbn. repeat split. lia.
  - destruct Hr as [H1 H2]. destruct (elements_c s s' H1) as (E1 & E2 & _ & k & _ & E3). pose proof (stored_nonneg (delivered k)).
    rewrite last_cons. destruct Hx as [<-|Hx].
    + destruct (IH s' H2 s' (or_introl eq_refl)) as (F1 & F2 & F3). repeat split; [lia|congruence|congruence].
    + destruct (IH s' H2 x Hx) as (F1 & F2 & F3). repeat split; [lia|congruence|congruence].
Qed.

Lemma last_in : forall (l : list (sys A)) s, In (last l s) (s :: l).
Proof. induction l as [|x l IH]; intros s; [now left|]. right. rewrite last_cons. apply IH. Qed.

(** [l]: the results since the answer; [e]: the elements known to be there then. *)
Definition ok (e : Z) (l : list (op A * out A)) : Prop :=
  forall j call, nth_error l j = Some call -> Z.of_nat j < e -> fst (snd call) = 0.

Lemma ok_app : forall e l call, ok e l -> (zlen l < e -> fst (snd call) = 0) -> ok e (l ++ [call]).
Proof.
  intros e l call O H j x Hx Hj. destruct (Nat.lt_ge_cases j (length l)) as [L|L].
  - rewrite nth_error_app1 in Hx by exact L. exact (O j x Hx Hj).
  - rewrite nth_error_app2 in Hx by exact L. destruct (j - length l)%nat eqn:D.
    + cbn in Hx. injection Hx as <-. apply H. unfold zlen. lia.
    + exfalso. apply nth_error_In in Hx as Hy. assert (Some x <> None) as X by discriminate. rewrite <- Hx in X. apply nth_error_Some in X. cbn in X. lia.
Qed.

Definition taking (b : list (op A * out A)) (e : Z) (z : sys A) : Prop :=
  exists l, cret z = b ++ l /\ ok e l /\
    (zlen l < e -> e - zlen l <= elements z /\ match cp z with CEmpty1 h => h <> tail (sh z) | _ => True end).

Lemma zlen_1 : forall (l : list (op A * out A)) x, zlen (l ++ [x]) = zlen l + 1.
Proof. intros. unfold zlen. rewrite app_length. cbn. lia. Qed.

Lemma taking_step : forall b e s s', reachable c0 s -> taking b e s -> both s s' -> taking b e s'.
Proof using Hn Hi.
  intros b e s s' R (l & E & O & T) [H|H].
  - destruct (elements_p s s' H) as (E1 & E2 & E3 & k & _ & E4). pose proof (stored_nonneg (accepted k)).
    exists l. rewrite E1, E2, E3. split; [exact E|]. split; [exact O|]. intros L. destruct (T L) as [T1 T2]. split; [lia|exact T2].
  - pose proof (empty_at region c0 Hn Hi s R) as EA. unfold observed_empty in EA.
    destruct (elements_c s s' H) as (_ & _ & _ & k & E3 & E4).
    inversion H as [s0 P|s0 P|s0 h P Q|s0 h P Q|s0 P|s0 t v P Q|s0 t P Q|s0 v P|s0 v t P]; subst s0 s'; cbn [cret sh cp] in *.
    + exists l. split; [exact E|]. split; [exact O|]. intros L. cbn [cp]. destruct (T L) as [T1 _].
      assert (k = []) as -> by (apply (app_inv_head (cret s)); rewrite app_nil_r; auto). cbn in E4. split; [lia|exact Logic.I].
    + exists l. split; [exact E|]. split; [exact O|]. intros L. cbn [cp]. destruct (T L) as [T1 _].
      assert (k = []) as -> by (apply (app_inv_head (cret s)); rewrite app_nil_r; auto). cbn in E4. split; [lia|]. cbn [sh]. lia.
    + exists (l ++ [(Getc, (-1, []))]). cbn [cret cp sh]. split; [rewrite E, <- app_assoc; reflexivity|].
      assert (N : ~ zlen l < e) by (intros L; destruct (T L) as [_ T2]; rewrite P in T2; contradiction).
      split; [apply ok_app; [exact O|intros L; contradiction]|]. rewrite zlen_1. intros L. lia.
    + exists l. split; [exact E|]. split; [exact O|]. intros L. cbn [cp]. destruct (T L) as [T1 _].
      assert (k = []) as -> by (apply (app_inv_head (cret s)); rewrite app_nil_r; auto). cbn in E4. split; [lia|exact Logic.I].
    + exists l. split; [exact E|]. split; [exact O|]. intros L. cbn [cp]. destruct (T L) as [T1 _].
      assert (k = []) as -> by (apply (app_inv_head (cret s)); rewrite app_nil_r; auto). cbn in E4. split; [lia|exact Logic.I].
    + exists l. split; [exact E|]. split; [exact O|]. intros L. cbn [cp]. destruct (T L) as [T1 _].
      assert (k = []) as -> by (apply (app_inv_head (cret s)); rewrite app_nil_r; auto). cbn in E4. split; [lia|exact Logic.I].
    + exists l. split; [exact E|]. split; [exact O|]. intros L. cbn [cp]. destruct (T L) as [T1 _].
      assert (k = []) as -> by (apply (app_inv_head (cret s)); rewrite app_nil_r; auto). cbn in E4. split; [lia|exact Logic.I].
    + exists l. split; [exact E|]. split; [exact O|]. intros L. cbn [cp]. destruct (T L) as [T1 _].
      assert (k = []) as -> by (apply (app_inv_head (cret s)); rewrite app_nil_r; auto). cbn in E4. split; [lia|exact Logic.I].
    + apply app_inv_head in E3. subst k. cbn in E4.
      exists (l ++ [(Getc, (0, [v]))]). cbn [cret cp]. split; [rewrite E, <- app_assoc; reflexivity|].
      split; [apply ok_app; [exact O|reflexivity]|]. rewrite zlen_1. intros L. destruct T as [T1 _]; [lia|]. split; [lia|exact Logic.I].
Qed.

Definition giving (b : list (op A * out A)) (f : Z) (z : sys A) : Prop :=
  exists l, pret z = b ++ l /\ ok f l /\ (zlen l < f -> f - zlen l <= n - 1 - elements z).

Lemma giving_step : forall b f s s', reachable c0 s -> giving b f s -> both s s' -> giving b f s'.
Proof using Hn Hi.
  intros b f s s' R (l & E & O & T) [H|H].
  - destruct (elements_p s s' H) as (_ & _ & _ & k & E3 & E4).
    assert (K : (k = [] /\ elements s' = elements s) \/ (exists a, k = [(Putc a, (0, []))] /\ elements s' = elements s + 1) \/
                (exists a, k = [(Putc a, (-1, []))] /\ elements s = n - 1 /\ elements s' = elements s)).
    { pose proof (full_at region c0 Hn Hi s R) as FA.
      destruct (elements_l region c0 Hn Hi s R) as (q & I & _). pose proof (i_pp _ _ _ I) as HP. pose proof (i_size _ _ _ I) as HS. clear I.
      inversion H; subst s0 s'; cbn [pret] in E3;
        try (left; assert (k = []) as -> by (apply (app_inv_head (pret s)); rewrite app_nil_r; auto); cbn in E4; split; [reflexivity|lia]);
        apply app_inv_head in E3; subst k; cbn in E4.
      - right; right. exists a. split; [reflexivity|]. rewrite H0 in HP. subst h. unfold nxt in H1. rewrite HS in H1.
        unfold observed_full in FA. split; [|lia]. apply Z.eqb_eq. rewrite <- FA. apply Z.eqb_eq. exact H1.
      - right; left. exists a. split; [reflexivity|lia].
      - right; left. exists a. split; [reflexivity|lia]. }
    destruct K as [[-> K]|[(a & -> & K)|(a & -> & K1 & K2)]].
    + exists l. rewrite E3, app_nil_r. split; [exact E|]. split; [exact O|]. intros L. specialize (T L). lia.
    + exists (l ++ [(Putc a, (0, []))]). rewrite E3, E, <- app_assoc. split; [reflexivity|]. split; [apply ok_app; [exact O|reflexivity]|].
      rewrite zlen_1. intros L. assert (L' : zlen l < f) by lia. specialize (T L'). lia.
    + exists (l ++ [(Putc a, (-1, []))]). rewrite E3, E, <- app_assoc. split; [reflexivity|].
      assert (N : ~ zlen l < f) by (intros L; specialize (T L); lia).
      split; [apply ok_app; [exact O|intros L; contradiction]|]. rewrite zlen_1. intros L. lia.
  - destruct (elements_c s s' H) as (E1 & E2 & _ & k & _ & E4). pose proof (stored_nonneg (delivered k)).
    exists l. rewrite E1. split; [exact E|]. split; [exact O|]. intros L. specialize (T L). lia.
Qed.

Lemma keeps_run : forall (Q : sys A -> Prop), (forall s s', reachable c0 s -> Q s -> both s s' -> Q s') ->
  forall l s, reachable c0 s -> Q s -> run_of both s l -> forall z, In z (s :: l) -> Q z.
Proof.
  intros Q HQ. induction l as [|s' l IH]; intros s R H Hr z [<-|Hz]; try exact H; [destruct Hz|].
  destruct Hr as [H1 H2]. apply (IH s'); auto; [exact (both_reach c0 s s' R H1)|exact (HQ s s' R H H1)].
Qed.

Lemma getc_l : forall s l l2 z e, reachable c0 s -> cp s = CIdle -> run_of (@pstep A) s l -> run_of both (last l s) l2 -> In z (last l s :: l2) ->
  (exists x, In x (s :: l) /\ e <= elements x) -> next_succeed e (cret s) (cret z).
Proof using Hn Hi.
  intros s l l2 z e R Hc Hr Hr2 Hz (x & Hx & He). destruct (p_run l s Hr x Hx) as (P1 & P2 & P3).
  assert (Rl : reachable c0 (last l s)) by (apply (run_reach c0 pstep l s); auto using last_in; now left).
  destruct (keeps_run (taking (cret s) e) (taking_step (cret s) e) l2 (last l s) Rl) with (z := z) as (k & K1 & K2 & _); auto.
  - exists []. rewrite app_nil_r. split; [exact P2|]. split; [intros [|j] c X; discriminate X|]. rewrite P3, Hc. cbn. intros _. split; [lia|exact Logic.I].
  - exists k. split; assumption.
Qed.

Lemma putc_l : forall s l l2 z f, reachable c0 s -> run_of (@cstep A) s l -> run_of both (last l s) l2 -> In z (last l s :: l2) ->
  (exists x, In x (s :: l) /\ f <= n - 1 - elements x) -> next_succeed f (pret s) (pret z).
Proof using Hn Hi.
  intros s l l2 z f R Hr Hr2 Hz (x & Hx & He). destruct (c_run l s Hr x Hx) as (P1 & P2 & P3).
  assert (Rl : reachable c0 (last l s)) by (apply (run_reach c0 cstep l s); auto using last_in; now right).
  destruct (keeps_run (giving (pret s) f) (giving_step (pret s) f) l2 (last l s) Rl) with (z := z) as (k & K1 & K2 & _); auto.
  - exists []. rewrite app_nil_r. split; [exact P2|]. split; [intros [|j] c X; discriminate X|]. cbn. intros _. lia.
  - exists k. split; assumption.
Qed.

End P.
