From Coq Require Import ZifyBool.
From Verif Require Import Base BaseLemmas QueueModel QueueProofs QueueConcModel QueueConcSpec QueueConcSystem.

Section QueueConcProofs.
Context {A : Type}.
Variables (k cap : Z).
Hypothesis Hk : 0 <= k <= 15.
Hypothesis Hcap : cap = 2 ^ k.

Lemma Hpow : pow2cap cap. Proof using Hk Hcap. exists k. auto. Qed.
Lemma cap_range : 1 <= cap <= 32768. Proof using Hk Hcap. exact (proj1 (pow2cap_div cap Hpow)). Qed.

Record counts (s : qstate A) (wt rt : Z) : Prop := {
  c_cap : zlen (items (shared s)) = cap;
  c_w : write_idx (shared s) = wt mod 65536;
  c_r : read_idx (shared s) = rt mod 65536;
  c_pub : wt = published s;
  c_cla : rt = claimed s;
  c_le : 0 <= wt - rt <= cap;
  c_pp : match pp s with
         | PIdle => True
         | PLoadR _ w => w = wt mod 65536
         | PLoadW _ => exists n, In n (pseen s) /\ wt - rt <= n <= cap - 1
         | PStoreW _ w => w = wt mod 65536 /\ exists n, In n (pseen s) /\ wt - rt <= n <= cap - 1
         | PCell _ i => i = (wt - 1) mod cap /\ exists n, In n (pseen s) /\ wt - 1 - rt <= n <= cap - 1
         end;
  c_cp : match cp s with
         | CIdle => True
         | CLoadR _ w => exists wt0, w = wt0 mod 65536 /\ rt <= wt0 <= wt
         | CLoadI _ => exists n, In n (cseen s) /\ 1 <= n <= wt - rt
         | CStoreR _ r => r = rt mod 65536 /\ exists n, In n (cseen s) /\ 1 <= n <= wt - rt
         | CCell _ i => i = (rt - 1) mod cap /\ exists n, In n (cseen s) /\ 1 <= n <= wt - (rt - 1)
         end }.

Lemma accepted_app : forall l (a : A) r, accepted (l ++ [(a, r)]) = accepted l ++ (if r =? 0 then [a] else []).
Proof. intros. unfold accepted. rewrite filter_app, map_app. cbn. destruct (r =? 0); reflexivity. Qed.
Lemma removals_app : forall l (o : option A) r, removals (l ++ [(r, o)]) = removals l ++ (if r =? 0 then [o] else []).
Proof. intros. unfold removals. rewrite filter_app, map_app. cbn. destruct (r =? 0); reflexivity. Qed.
Lemma zlen_app1 : forall {B} (l : list B) x, zlen (l ++ [x]) = zlen l + 1.
Proof. intros. unfold zlen. rewrite app_length. cbn. lia. Qed.

(** The counts survive a step of either thread. *)
Lemma counts_p : forall s wt rt a, counts s wt rt -> exists s' wt', pstep a s = Done s' /\ counts s' wt' rt /\ cp s' = cp s /\ cret s' = cret s.
Proof using Hk Hcap.
  intros s wt rt a [C1 C2 C3 C4 C5 C6 C7 C8]. pose proof cap_range as Hc. unfold pstep. unfold published, claimed in *.
  destruct s as [q p c pr cr ps cs]; cbn [shared pp cp pret cret pseen cseen] in *. destruct p as [|b w|b|b w|b i].
  - do 2 eexists. split; [reflexivity|]. split; [|split; reflexivity]. constructor; unfold published, claimed; cbn [shared pp cp pret cret pseen cseen]; eauto.
  - subst w. rewrite C3, (diff_mod rt wt (wt - rt)) by lia. unfold capacity. rewrite C1. destruct (Z.eqb_spec (wt - rt) cap).
    + do 2 eexists. split; [reflexivity|]. split; [|split; reflexivity]. constructor; unfold published, claimed; cbn [shared pp cp pret cret pseen cseen]; eauto.
      rewrite accepted_app. cbn. rewrite app_nil_r. lia.
    + do 2 eexists. split; [reflexivity|]. split; [|split; reflexivity]. constructor; unfold published, claimed; cbn [shared pp cp pret cret pseen cseen]; eauto.
      exists (wt - rt). split; [apply in_or_app; right; left; reflexivity|]. lia.
  - do 2 eexists. split; [reflexivity|]. split; [|split; reflexivity]. constructor; unfold published, claimed; cbn [shared pp cp pret cret pseen cseen]; eauto.
  - destruct C7 as (-> & n & Hn & Ln). exists (mkQs (mkQueue (read_idx q) (wrap 16 (wt mod 65536 + 1)) (items q)) (PCell b (wrap 16 (Z.land (wt mod 65536) (wrap 64 (capacity q - 1))))) c pr cr ps cs), (wt + 1).
    split; [reflexivity|]. split; [|split; reflexivity]. constructor; unfold published, claimed; cbn [shared pp cp pret cret pseen cseen read_idx write_idx items]; auto.
    + rewrite succ_mod. reflexivity.
    + lia.
    + lia.
    + unfold capacity. rewrite C1, (index_eq cap wt Hpow). split; [f_equal; lia|]. exists n. split; [assumption|]. lia.
    + destruct c as [|d w|d|d r|d i]; auto.
      * destruct C8 as (w0 & E & L). exists w0. split; [assumption|]. lia.
      * destruct C8 as (m & Hm & L). exists m. split; [assumption|]. lia.
      * destruct C8 as (E & m & Hm & L). split; [assumption|]. exists m. split; [assumption|]. lia.
      * destruct C8 as (E & m & Hm & L). split; [assumption|]. exists m. split; [assumption|]. lia.
  - destruct C7 as (-> & n & Hn & Ln). assert (Hi : 0 <= (wt - 1) mod cap < cap) by (apply Z.mod_pos_bound; lia).
    rewrite zset_ok by lia. cbn [obind]. do 2 eexists. split; [reflexivity|]. split; [|split; reflexivity].
    constructor; unfold published, claimed; cbn [shared pp cp pret cret pseen cseen read_idx write_idx items]; eauto.
    + rewrite zlen_upd. exact C1.
    + rewrite accepted_app. cbn. rewrite zlen_app1. lia.
Qed.

Lemma counts_c : forall s wt rt d, counts s wt rt -> exists s' rt', cstep d s = Done s' /\ counts s' wt rt' /\ pp s' = pp s /\ pret s' = pret s.
Proof using Hk Hcap.
  intros s wt rt d [C1 C2 C3 C4 C5 C6 C7 C8]. pose proof cap_range as Hc. unfold cstep. unfold published, claimed in *.
  destruct s as [q p c pr cr ps cs]; cbn [shared pp cp pret cret pseen cseen] in *. destruct c as [|e w|e|e r|e i].
  - do 2 eexists. split; [reflexivity|]. split; [|split; reflexivity]. constructor; unfold published, claimed; cbn [shared pp cp pret cret pseen cseen]; eauto.
    exists wt. split; [assumption|]. lia.
  - destruct C8 as (w0 & -> & L). rewrite C3, (diff_mod rt w0 (w0 - rt)) by lia. destruct (Z.eqb_spec (w0 - rt) 0).
    + do 2 eexists. split; [reflexivity|]. split; [|split; reflexivity]. constructor; unfold published, claimed; cbn [shared pp cp pret cret pseen cseen]; eauto.
      rewrite removals_app. cbn. rewrite app_nil_r. lia.
    + do 2 eexists. split; [reflexivity|]. split; [|split; reflexivity]. constructor; unfold published, claimed; cbn [shared pp cp pret cret pseen cseen]; eauto.
      exists (w0 - rt). split; [apply in_or_app; right; left; reflexivity|]. lia.
  - do 2 eexists. split; [reflexivity|]. split; [|split; reflexivity]. constructor; unfold published, claimed; cbn [shared pp cp pret cret pseen cseen]; eauto.
  - destruct C8 as (-> & n & Hn & Ln). exists (mkQs (mkQueue (wrap 16 (rt mod 65536 + 1)) (write_idx q) (items q)) p (CCell e (wrap 16 (Z.land (rt mod 65536) (wrap 64 (capacity q - 1))))) pr cr ps cs), (rt + 1).
    split; [reflexivity|]. split; [|split; reflexivity]. constructor; unfold published, claimed; cbn [shared pp cp pret cret pseen cseen read_idx write_idx items]; auto.
    + rewrite succ_mod. reflexivity.
    + lia.
    + lia.
    + destruct p as [|b w|b|b w|b i]; auto.
      * destruct C7 as (m & Hm & L). exists m. split; [assumption|]. lia.
      * destruct C7 as (E & m & Hm & L). split; [assumption|]. exists m. split; [assumption|]. lia.
      * destruct C7 as (E & m & Hm & L). split; [assumption|]. exists m. split; [assumption|]. lia.
    + unfold capacity. rewrite C1, (index_eq cap rt Hpow). split; [f_equal; lia|]. exists n. split; [assumption|]. lia.
  - destruct C8 as (-> & n & Hn & Ln). assert (Hi : 0 <= (rt - 1) mod cap < cap) by (apply Z.mod_pos_bound; lia).
    destruct e.
    + destruct (items q) as [|x0 its] eqn:Ei; [cbn in C1; lia|]. rewrite <- Ei in *. rewrite (zget_ok _ (items q) _ x0) by lia. cbn [obind].
      do 2 eexists. split; [reflexivity|]. split; [|split; reflexivity].
      constructor; unfold published, claimed; cbn [shared pp cp pret cret pseen cseen read_idx write_idx items]; eauto.
      rewrite removals_app. cbn. rewrite zlen_app1. lia.
    + do 2 eexists. split; [reflexivity|]. split; [|split; reflexivity].
      constructor; unfold published, claimed; cbn [shared pp cp pret cret pseen cseen read_idx write_idx items]; eauto.
      rewrite removals_app. cbn. rewrite zlen_app1. lia.
Qed.

Lemma counts_start : forall q : queue A, zlen (items q) = cap -> counts (qstart q) 0 0.
Proof using Hk Hcap. intros q H. pose proof cap_range. constructor; cbn; auto; lia. Qed.

Lemma counts_reach : forall m q s, zlen (items q) = cap -> qsteps m q s -> exists wt rt, counts s wt rt.
Proof using Hk Hcap.
  intros m q s Hq H. induction H as [|s s' a _ IH _ E|s s' d _ IH _ E].
  - exists 0, 0. apply counts_start, Hq.
  - destruct IH as (wt & rt & C). destruct (counts_p s wt rt a C) as (s2 & wt' & E2 & C2 & _). rewrite E in E2. injection E2 as <-. eauto.
  - destruct IH as (wt & rt & C). destruct (counts_c s wt rt d C) as (s2 & rt' & E2 & C2 & _). rewrite E in E2. injection E2 as <-. eauto.
Qed.

(** The cells hold the accepted items not yet removed. *)
Record cells (s : qstate A) : Prop := {
  k_cells : forall j a, nth_error (accepted (pret s)) j = Some a -> zlen (removals (cret s)) <= Z.of_nat j ->
              nth_error (items (shared s)) (Z.to_nat (Z.of_nat j mod cap)) = Some a;
  k_faith : faithful (accepted (pret s)) (removals (cret s)) }.

Lemma cells_p : forall s wt rt a s', counts s wt rt -> cells s ->
  (cp s = CIdle \/ Forall (fun n => n <= cap - 2) (pseen s)) -> pstep a s = Done s' -> cells s'.
Proof using Hk Hcap.
  intros s wt rt a s' [C1 C2 C3 C4 C5 C6 C7 C8] [K F] M E. pose proof cap_range as Hc. unfold pstep in E. unfold published, claimed in *.
  destruct s as [q p c pr cr ps cs]; cbn [shared pp cp pret cret pseen cseen] in *. destruct p as [|b w|b|b w|b i].
  - injection E as <-. split; assumption.
  - destruct (_ =? _) in E; injection E as <-; split; cbn [shared pret cret]; try rewrite accepted_app; cbn [Z.eqb]; try rewrite app_nil_r; assumption.
  - injection E as <-. split; assumption.
  - injection E as <-. split; assumption.
  - destruct C7 as (-> & n & Hn & Ln). assert (Hi : 0 <= (wt - 1) mod cap < cap) by (apply Z.mod_pos_bound; lia).
    rewrite zset_ok in E by lia. cbn [obind] in E. injection E as <-. split; cbn [shared pret cret items]; rewrite accepted_app; cbn [Z.eqb].
    + intros j x Hj Lj. assert (Lw : zlen (accepted pr) = wt - 1) by lia.
      assert (R' : wt - 1 - zlen (removals cr) <= cap - 1).
      { destruct c as [|d w|d|d r|d i]; try lia. destruct M as [M|M]; [discriminate|]. rewrite Forall_forall in M. specialize (M n Hn). cbn beta in M. lia. }
      destruct (Z.eq_dec (Z.of_nat j) (wt - 1)) as [Ej|Nj].
      * rewrite nth_error_app2 in Hj by (unfold zlen in *; lia). replace (j - length (accepted pr))%nat with 0%nat in Hj by (unfold zlen in *; lia). injection Hj as ->.
        rewrite Ej. apply nth_error_upd_eq. unfold zlen in *; lia.
      * assert (Hl : (j < length (accepted pr))%nat).
        { assert (H2 : (j < length (accepted pr ++ [b]))%nat) by (apply nth_error_Some; rewrite Hj; discriminate). rewrite app_length in H2. cbn in H2. unfold zlen in *; lia. }
        rewrite nth_error_app1 in Hj by assumption. rewrite nth_error_upd_neq; [exact (K j x Hj Lj)|].
        intros X. apply Nj. symmetry. apply Z2Nat.inj in X; [|lia|apply Z.mod_pos_bound; lia].
        symmetry. apply (mod_inj cap); [lia|unfold zlen in *; lia|]. now symmetry.
    + intros j o Hj. destruct (F j o Hj) as (x & Hx & Ho). exists x. split; [|assumption]. rewrite nth_error_app1; [assumption|]. apply nth_error_Some. rewrite Hx. discriminate.
Qed.

Lemma cells_c : forall s wt rt d s', counts s wt rt -> cells s ->
  (pp s = PIdle \/ Forall (fun n => 2 <= n) (cseen s)) -> cstep d s = Done s' -> cells s'.
Proof using Hk Hcap.
  intros s wt rt d s' [C1 C2 C3 C4 C5 C6 C7 C8] [K F] M E. pose proof cap_range as Hc. unfold cstep in E. unfold published, claimed in *.
  destruct s as [q p c pr cr ps cs]; cbn [shared pp cp pret cret pseen cseen] in *. destruct c as [|e w|e|e r|e i].
  - injection E as <-. split; assumption.
  - destruct (_ =? _) in E; injection E as <-; split; cbn [shared pret cret]; try rewrite removals_app; cbn [Z.eqb]; try rewrite app_nil_r; assumption.
  - injection E as <-. split; assumption.
  - injection E as <-. split; assumption.
  - destruct C8 as (-> & n & Hn & Ln).
    assert (La : zlen (removals cr) < zlen (accepted pr)).
    { destruct p as [|b w|b|b w|b i]; try lia. destruct M as [M|M]; [discriminate|]. rewrite Forall_forall in M. specialize (M n Hn). cbn beta in M. lia. }
    destruct (nth_error (accepted pr) (length (removals cr))) as [x|] eqn:Ex; [|apply nth_error_None in Ex; unfold zlen in La; lia].
    assert (Cx : nth_error (items q) (Z.to_nat ((rt - 1) mod cap)) = Some x).
    { replace (rt - 1) with (Z.of_nat (length (removals cr))) by (unfold zlen in *; lia). apply K; [assumption|unfold zlen; lia]. }
    assert (Fx : forall o, o = None \/ o = Some x -> faithful (accepted pr) (removals (cr ++ [(0, o)]))).
    { intros o Ho j o' Hj. rewrite removals_app in Hj. cbn [Z.eqb] in Hj. destruct (Nat.lt_ge_cases j (length (removals cr))) as [L|G].
      - rewrite nth_error_app1 in Hj by assumption. exact (F j o' Hj).
      - rewrite nth_error_app2 in Hj by assumption. destruct (j - length (removals cr))%nat as [|z] eqn:Ez; [|destruct z; discriminate].
        injection Hj as <-. exists x. split; [|assumption]. replace j with (length (removals cr)) by lia. assumption. }
    assert (Kx : forall o j a, nth_error (accepted pr) j = Some a -> zlen (removals (cr ++ [(0, o)])) <= Z.of_nat j -> nth_error (items q) (Z.to_nat (Z.of_nat j mod cap)) = Some a).
    { intros o j a Hj Lj. apply K; [assumption|]. rewrite removals_app in Lj. cbn [Z.eqb] in Lj. rewrite zlen_app1 in Lj. lia. }
    destruct e.
    + unfold zget in E. destruct (Z.ltb_spec ((rt - 1) mod cap) 0); [discriminate|]. rewrite Cx in E. cbn [obind] in E. injection E as <-. split; cbn [shared pret cret]; [apply Kx|apply Fx; now right].
    + injection E as <-. split; cbn [shared pret cret]; [apply Kx|apply Fx; now left].
Qed.

(** What was seen stays recorded. *)
Lemma pstep_seen : forall a (s s' : qstate A), pstep a s = Done s' -> (exists l, pseen s' = pseen s ++ l) /\ cseen s' = cseen s.
Proof.
  intros a s s' E. unfold pstep in E. destruct (pp s) as [|b w|b|b w|b i].
  - injection E as <-. cbn. split; [exists []; now rewrite app_nil_r|reflexivity].
  - destruct (_ =? _) in E; injection E as <-; cbn; split; eauto. exists []. now rewrite app_nil_r.
  - injection E as <-. cbn. split; [exists []; now rewrite app_nil_r|reflexivity].
  - injection E as <-. cbn. split; [exists []; now rewrite app_nil_r|reflexivity].
  - destruct (zset _ _ _); try discriminate. cbn [obind] in E. injection E as <-. cbn. split; [exists []; now rewrite app_nil_r|reflexivity].
Qed.
Lemma cstep_seen : forall d (s s' : qstate A), cstep d s = Done s' -> (exists l, cseen s' = cseen s ++ l) /\ pseen s' = pseen s.
Proof.
  intros d s s' E. unfold cstep in E. destruct (cp s) as [|b w|b|b w|b i].
  - injection E as <-. cbn. split; [exists []; now rewrite app_nil_r|reflexivity].
  - destruct (_ =? _) in E; injection E as <-; cbn; split; eauto. exists []. now rewrite app_nil_r.
  - injection E as <-. cbn. split; [exists []; now rewrite app_nil_r|reflexivity].
  - injection E as <-. cbn. split; [exists []; now rewrite app_nil_r|reflexivity].
  - destruct b; [destruct (zget _ _); try discriminate|]; cbn [obind] in E; injection E as <-; cbn; (split; [exists []; now rewrite app_nil_r|reflexivity]).
Qed.

Lemma faithful_l : forall m q s, zlen (items q) = cap -> qsteps m q s ->
  (m = DequeueHandler \/ Forall (fun n => n <= cap - 2) (pseen s)) ->
  (m = EnqueueHandler \/ Forall (fun n => 2 <= n) (cseen s)) -> cells s.
Proof using Hk Hcap.
  intros m q s Hq H. induction H as [|s s' a H0 IH G E|s s' d H0 IH G E]; intros MP MC.
  - split; [intros [|j] x Hx; discriminate|intros [|j] x Hx; discriminate].
  - destruct (counts_reach m q s Hq H0) as (wt & rt & C). destruct (pstep_seen a s s' E) as ((l & El) & Ec). rewrite El in MP. rewrite Ec in MC.
    assert (MP' : m = DequeueHandler \/ Forall (fun n => n <= cap - 2) (pseen s)) by (destruct MP as [MP|MP]; [now left|right; apply Forall_app in MP; tauto]).
    apply (cells_p s wt rt a); auto. destruct MP' as [->|MP']; [left; apply G; reflexivity|now right].
  - destruct (counts_reach m q s Hq H0) as (wt & rt & C). destruct (cstep_seen d s s' E) as ((l & El) & Ec). rewrite El in MC. rewrite Ec in MP.
    assert (MC' : m = EnqueueHandler \/ Forall (fun n => 2 <= n) (cseen s)) by (destruct MC as [MC|MC]; [now left|right; apply Forall_app in MC; tauto]).
    apply (cells_c s wt rt d); auto. destruct MC' as [->|MC']; [left; apply G; reflexivity|now right].
Qed.

Lemma counts_l : forall m (q : queue A) s, zlen (items q) = cap -> qsteps m q s ->
  0 <= published s - claimed s <= cap /\
  (forall a, exists s', pstep a s = Done s') /\ (forall d, exists s', cstep d s = Done s').
Proof using Hk Hcap.
  intros m q s Hq H. destruct (counts_reach m q s Hq H) as (wt & rt & C). split; [|split].
  - destruct C as [_ _ _ -> -> L _ _]. exact L.
  - intros a. destruct (counts_p s wt rt a C) as (s' & _ & E & _). eauto.
  - intros d. destruct (counts_c s wt rt d C) as (s' & _ & E & _). eauto.
Qed.

Lemma alone_l : forall s : qstate A,
  (forall a q' r, pp s = PIdle -> queue_enqueue (shared s) a = Done (q', r) ->
     exists n s', p_alone n a s = Done s' /\ shared s' = q' /\ pp s' = PIdle /\ pret s' = pret s ++ [(a, r)] /\ cp s' = cp s /\ cret s' = cret s) /\
  (forall d q' r x, cp s = CIdle -> queue_dequeue (shared s) d = Done (q', (r, x)) ->
     exists n s', c_alone n d s = Done s' /\ shared s' = q' /\ cp s' = CIdle /\ cret s' = cret s ++ [(r, x)] /\ pp s' = pp s /\ pret s' = pret s).
Proof.
  intros [[rd wr its] p c pr cr ps cs]. cbn [shared pp cp pret cret]. split.
  - intros a q' r -> E. unfold queue_enqueue in E. cbn [write_idx read_idx items] in E. destruct (_ =? _) eqn:Ef in E.
    + injection E as <- <-. exists 2%nat. cbn [p_alone pstep pp shared obind write_idx read_idx cp pret cret pseen cseen]. rewrite Ef. eexists. split; [reflexivity|]. repeat split.
    + destruct (zset _ _ _) as [its'| | |] eqn:Ez in E; try discriminate. cbn [obind] in E. injection E as <- <-. exists 5%nat.
      cbn [p_alone pstep pp shared obind write_idx read_idx cp pret cret pseen cseen]. rewrite Ef. cbn [p_alone pstep pp shared obind write_idx read_idx items cp pret cret pseen cseen].
      unfold capacity in *. cbn [items] in *. rewrite Ez. cbn [obind]. eexists. split; [reflexivity|]. repeat split.
  - intros d q' r x -> E. unfold queue_dequeue in E. cbn [write_idx read_idx items] in E. destruct (_ =? _) eqn:Ef in E.
    + injection E as <- <- <-. exists 2%nat. cbn [c_alone cstep pp shared obind write_idx read_idx cp pret cret pseen cseen]. rewrite Ef. eexists. split; [reflexivity|]. repeat split.
    + destruct d.
      * destruct (zget _ _) as [y| | |] eqn:Ez in E; try discriminate. cbn [obind] in E. injection E as <- <- <-. exists 5%nat.
        cbn [c_alone cstep pp shared obind write_idx read_idx cp pret cret pseen cseen]. rewrite Ef. cbn [c_alone cstep pp shared obind write_idx read_idx items cp pret cret pseen cseen].
        unfold capacity in *. cbn [items] in *. rewrite Ez. cbn [obind]. eexists. split; [reflexivity|]. repeat split.
      * injection E as <- <- <-. exists 5%nat.
        cbn [c_alone cstep pp shared obind write_idx read_idx cp pret cret pseen cseen]. rewrite Ef. cbn [c_alone cstep pp shared obind write_idx read_idx items cp pret cret pseen cseen].
        eexists. split; [reflexivity|]. repeat split.
Qed.

Lemma qsched_steps : forall m (q : queue A) sch s s', qsteps m q s -> qsched m s sch = Done s' -> qsteps m q s'.
Proof.
  intros m q. induction sch as [|[a|d] sch IH]; intros s s' H E; cbn [qsched] in E.
  - injection E as <-. exact H.
  - destruct (may_p m s) eqn:M; [|discriminate]. destruct (pstep a s) as [s1| | |] eqn:E1; try discriminate. apply (IH s1); [|exact E].
    apply (qs_enqueue m q s s1 a); [exact H| |exact E1]. intros ->. unfold may_p in M. destruct (cp s); congruence.
  - destruct (may_c m s) eqn:M; [|discriminate]. destruct (cstep d s) as [s1| | |] eqn:E1; try discriminate. apply (IH s1); [|exact E].
    apply (qs_dequeue m q s s1 d); [exact H| |exact E1]. intros ->. unfold may_c in M. destruct (pp s); congruence.
Qed.

End QueueConcProofs.
