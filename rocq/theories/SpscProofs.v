From Coq Require Import ZifyBool ZifyNat.
From Verif Require Import Base BaseLemmas CbufModel CbufSpec CbufProofs SpscModel SpscSpec.

Section SpscProofs.
Context {A : Type}.

Lemma fifo_run_app : forall cap (o1 o2 : list (op A)) q,
  fifo_run cap q (o1 ++ o2) = fifo_run cap q o1 ++ fifo_run cap (fifo_state cap q o1) o2.
Proof.
  intros cap o1; induction o1 as [|o o1 IH]; intros o2 q; [reflexivity|].
  unfold fifo_state. cbn [app fifo_run fold_left].
  destruct (fifo_step cap q o) as [q' r] eqn:E. cbn [fst app]. f_equal. apply IH.
Qed.

Lemma fifo_state_app : forall cap (o1 o2 : list (op A)) q,
  fifo_state cap q (o1 ++ o2) = fifo_state cap (fifo_state cap q o1) o2.
Proof. intros. unfold fifo_state. apply fold_left_app. Qed.

Definition extra (s : sys A) : list (op A * out A) :=
  match cp s with
  | CEmpty1 h => if h =? tail (sh s) then [(Getc, (-1, []))] else []
  | _ => []
  end.

Record inv (n : Z) (s : sys A) (q : list A) : Prop := mkInv {
  i_size : bufsize (sh s) = n;
  i_len : zlen (buffer (sh s)) = n;
  i_n : 1 <= n < 2 ^ 64;
  i_tail : 0 <= tail (sh s) < n;
  i_q : zlen q <= n - 1;
  i_head : head (sh s) = (tail (sh s) + zlen q) mod n;
  i_win : window (buffer (sh s)) n (tail (sh s)) q;
  i_bad : bad s = false;
  i_lin : fifo_run (n - 1) [] (map fst (lin s)) = map snd (lin s);
  i_state : fifo_state (n - 1) [] (map fst (lin s)) = q;
  i_pret : filter is_put (lin s) = pret s;
  i_cret : filter is_get (lin s) = cret s ++ extra s;
  i_pp : match pp s with
         | PIdle | PFull0 _ => True
         | PFull1 _ h => h = head (sh s)
         | PCell0 _ => zlen q <= n - 2
         | PCell1 _ h => zlen q <= n - 2 /\ h = head (sh s)
         | PAdv0 a | PHead0 a => zlen q <= n - 2 /\ window (buffer (sh s)) n (tail (sh s)) (q ++ [a])
         | PAdv1 a h | PHead1 a h =>
             zlen q <= n - 2 /\ window (buffer (sh s)) n (tail (sh s)) (q ++ [a]) /\ h = head (sh s)
         end;
  i_cp : match cp s with
         | CIdle | CEmpty0 => True
         | CEmpty1 h => h <> tail (sh s) -> q <> []
         | CCell0 => q <> []
         | CCell1 t => q <> [] /\ t = tail (sh s)
         | CTail0 v => exists q', q = v :: q'
         | CTail1 v t => (exists q', q = v :: q') /\ t = tail (sh s)
         end }.

Lemma head_range : forall n s q, inv n s q -> 0 <= head (sh s) < n.
Proof. intros n s q I. rewrite (i_head _ _ _ I). apply Z.mod_pos_bound. destruct (i_n _ _ _ I); lia. Qed.

Lemma nxt_val : forall n (s : sys A) i, bufsize (sh s) = n -> 1 <= n < 2 ^ 64 -> 0 <= i < n ->
  nxt (sh s) i = (i + 1) mod n.
Proof. intros n s i E Hn Hi. unfold nxt. rewrite E, wrap_small by lia. reflexivity. Qed.

Lemma nxt_full : forall n s q, inv n s q ->
  (nxt (sh s) (head (sh s)) = tail (sh s) <-> zlen q = n - 1).
Proof.
  intros n s q I. pose proof (head_range n s q I). destruct I.
  rewrite (nxt_val n) by auto. rewrite i_head0, Zplus_mod_idemp_l.
  pose proof (zlen_nonneg A q).
  destruct (Z.eq_dec (zlen q) (n - 1)) as [E|E].
  - split; auto. intros _. replace (tail (sh s) + zlen q + 1) with (tail (sh s) + 1 * n) by lia.
    rewrite Z.mod_add, Z.mod_small by lia. reflexivity.
  - split; [|lia]. rewrite mod_cases by lia.
    destruct (Z.ltb_spec (tail (sh s) + zlen q + 1) n); lia.
Qed.

Lemma head_eq_tail : forall n s q, inv n s q -> (head (sh s) = tail (sh s) <-> q = []).
Proof.
  intros n s q []. pose proof (zlen_nonneg A q). rewrite i_head0, mod_cases by lia.
  split; intros E.
  - destruct q; auto. unfold zlen in *; cbn [length] in *.
    destruct (Z.ltb_spec (tail (sh s) + Z.of_nat (S (length q))) n); lia.
  - rewrite E. change (zlen (@nil A)) with 0. destruct (Z.ltb_spec (tail (sh s) + 0) n); lia.
Qed.

Lemma window_app1 : forall b n t (W D : list A), window b n t (W ++ D) -> window b n t W.
Proof.
  intros b n t W D H i Hi. specialize (H i). rewrite app_length, nth_error_app in H.
  destruct (Nat.ltb_spec i (length W)); [|lia]. apply H. lia.
Qed.

Lemma lin_snoc : forall cap l o r q, fifo_run cap [] (map fst l) = map snd l ->
  fifo_state cap [] (map fst l) = q -> snd (fifo_step cap q o) = r ->
  fifo_run cap [] (map fst (l ++ [(o, r)])) = map snd (l ++ [(o, r)]) /\
  fifo_state cap [] (map fst (l ++ [(o, r)])) = fst (fifo_step cap q o) :> list A.
Proof.
  intros cap l o r q H1 H2 H3. rewrite !map_app, fifo_run_app, fifo_state_app. cbn [map fst snd].
  rewrite H1, H2. cbn [fifo_run]. unfold fifo_state. cbn [fold_left].
  destruct (fifo_step cap q o) as [q' r'] eqn:E. cbn [snd] in H3. subst r'. split; reflexivity.
Qed.

Ltac fin := cbn [sh pp cp pret cret lin bad buffer bufsize head tail with_head with_tail with_buffer];
  first [assumption | exact I | reflexivity | tauto | lia | idtac].

Lemma pstep_inv : forall n s s' q, inv n s q -> pstep s s' -> exists q', inv n s' q'.
Proof.
  intros n s s' q I Hs. pose proof (head_range n s q I) as Hhd. pose proof (nxt_full n s q I) as Hfull.
  pose proof (zlen_nonneg A q) as Hqnn. pose proof I as [].
  inversion Hs; subst s0 s'; cbn; rewrite H in *; cbn in i_pp0.
  - exists q; constructor; fin.
  - exists q; constructor; fin.
  - subst h. apply Hfull in H0.
    destruct (lin_snoc (n - 1) (lin s) (Putc a) (-1, []) q) as [L1 L2]; auto.
    { cbn. unfold stored. fold (zlen q). destruct (Z.ltb_spec (zlen q) (n - 1)); [lia|reflexivity]. }
    exists q. constructor; fin.
    + etransitivity; [exact L2|]. cbn. unfold stored. fold (zlen q). destruct (Z.ltb_spec (zlen q) (n - 1)); [lia|reflexivity].
    + rewrite filter_app. cbn. congruence.
    + rewrite filter_app. cbn. rewrite app_nil_r. exact i_cret0.
  - subst h. assert (zlen q <> n - 1) by tauto.
    exists q; constructor; fin.
  - exists q; constructor; fin. 
  - destruct i_pp0 as [Hq Hh]. subst h. rewrite zset_ok in H0 by lia. inversion H0; subst b.
    assert (Hw : window (upd (buffer (sh s)) (Z.to_nat (head (sh s))) a) n (tail (sh s)) (q ++ [a])).
    { pose proof (window_write (buffer (sh s)) n (tail (sh s)) q [a] (head (sh s))) as W.
      replace (upd (buffer (sh s)) (Z.to_nat (head (sh s))) a) with
        (firstn (Z.to_nat (head (sh s))) (buffer (sh s)) ++ [a] ++
         skipn (Z.to_nat (head (sh s)) + length [a]) (buffer (sh s))).
      - apply W; auto; unfold zlen in *; cbn [length]; lia.
      - assert (Hn : (Z.to_nat (head (sh s)) < length (buffer (sh s)))%nat) by (unfold zlen in *; lia).
        revert Hn. generalize (Z.to_nat (head (sh s))). generalize (buffer (sh s)).
        clear. intros l; induction l; intros m Hm; cbn in Hm; [lia|].
        destruct m; cbn; [reflexivity|]. f_equal. apply IHl. lia. }
    exists q; constructor; fin.
    + rewrite zlen_upd. auto.
    + eapply window_app1; eauto.
  - destruct i_pp0 as [Hq Hh]. subst h. rewrite zset_ok in H0 by lia. discriminate.
  - exists q; constructor; fin.
  - destruct i_pp0 as (Hq & Hw & Hh). subst h. apply Hfull in H0. lia.
  - exists q; constructor; fin.
  - exists q; constructor; fin.
  - destruct i_pp0 as (Hq & Hw & Hh). subst h.
    assert (Hz : zlen (q ++ [a]) = zlen q + 1) by (unfold zlen; rewrite app_length; cbn [length]; lia).
    destruct (lin_snoc (n - 1) (lin s) (Putc a) (0, []) q) as [L1 L2]; auto.
    { cbn. unfold stored. fold (zlen q). destruct (Z.ltb_spec (zlen q) (n - 1)); [reflexivity|lia]. }
    exists (q ++ [a]). constructor; fin.
    + rewrite (nxt_val n) by auto. rewrite i_head0, Zplus_mod_idemp_l, Hz. f_equal; lia.
    + etransitivity; [exact L2|]. cbn. unfold stored. fold (zlen q). destruct (Z.ltb_spec (zlen q) (n - 1)); [reflexivity|lia].
    + rewrite filter_app. cbn. congruence.
    + rewrite filter_app. cbn. rewrite app_nil_r. exact i_cret0.
    + destruct (cp s); auto; intros; try (destruct q; discriminate).
      * destruct i_cp0. split; auto. destruct q; discriminate.
      * destruct i_cp0 as [q' ->]. exists (q' ++ [a]). reflexivity.
      * destruct i_cp0 as [[q' ->] ->]. split; auto. exists (q' ++ [a]). reflexivity.
Qed.

Lemma cstep_inv : forall n s s' q, inv n s q -> cstep s s' -> exists q', inv n s' q'.
Proof.
  intros n s s' q I Hs. pose proof (head_range n s q I) as Hhd. pose proof (head_eq_tail n s q I) as Hemp.
  pose proof (zlen_nonneg A q) as Hqnn. pose proof I as [].
  inversion Hs; subst s0 s'; cbn; rewrite H in *; cbn in i_cp0;
  unfold extra in i_cret0; rewrite H in i_cret0; rewrite ?app_nil_r in i_cret0.
  - exists q; constructor; fin. cbn. rewrite app_nil_r. exact i_cret0.
  - exists q. destruct (Z.eqb_spec (head (sh s)) (tail (sh s))) as [E|E].
    + assert (Eq : q = []) by tauto. rewrite Eq in *. clear Eq q.
      destruct (lin_snoc (n - 1) (lin s) Getc (-1, []) []) as [L1 L2]; auto.
      constructor; fin.
      * rewrite filter_app. cbn. rewrite app_nil_r. exact i_pret0.
      * rewrite filter_app. cbn. unfold extra; cbn. rewrite E, Z.eqb_refl. congruence.
    + constructor; fin.
      * unfold extra; cbn. destruct (Z.eqb_spec (head (sh s)) (tail (sh s))); [lia|].
        rewrite app_nil_r. exact i_cret0.
  - subst h. rewrite Z.eqb_refl in i_cret0. exists q; constructor; fin.
    rewrite app_nil_r. exact i_cret0.
  - destruct (Z.eqb_spec h (tail (sh s))); [contradiction|]. rewrite app_nil_r in i_cret0.
    exists q; constructor; fin. rewrite app_nil_r. exact i_cret0.
  - exists q; constructor; fin. rewrite app_nil_r. exact i_cret0.
  - destruct i_cp0 as [Hq Ht]. subst t. exists q; constructor; fin.
    + rewrite app_nil_r. exact i_cret0.
    + destruct q as [|x q']; [congruence|]. exists q'. f_equal.
      pose proof (i_win0 O) as W. cbn [length nth_error] in W.
      rewrite Z.add_0_r, Z.mod_small in W by lia.
      unfold zget in H0. destruct (Z.ltb_spec (tail (sh s)) 0); [lia|].
      rewrite <- W in H0 by lia. congruence.
  - destruct i_cp0 as [Hq Ht]. subst t.
    unfold zget in H0. destruct (Z.ltb_spec (tail (sh s)) 0); [lia|].
    destruct (nth_error (buffer (sh s)) (Z.to_nat (tail (sh s)))) eqn:E; [discriminate|].
    apply nth_error_None in E. unfold zlen in *. lia.
  - exists q; constructor; fin. rewrite app_nil_r. exact i_cret0.
  - destruct i_cp0 as [[q' Hq] Ht]. subst t. rewrite Hq in *. clear Hq q.
    destruct (lin_snoc (n - 1) (lin s) Getc (0, [v]) (v :: q')) as [L1 L2]; auto.
    assert (Hz : zlen (v :: q') = zlen q' + 1) by (unfold zlen; cbn [length]; lia).
    assert (Hn : nxt (sh s) (tail (sh s)) = (tail (sh s) + 1) mod n) by (apply nxt_val; auto).
    pose proof (zlen_nonneg A q') as Hq'nn.
    exists q'. constructor; fin; try rewrite Hn.
    + rewrite i_head0, Zplus_mod_idemp_l. f_equal. lia.
    + apply (window_skip _ _ _ _ 1) in i_win0; auto; lia.
    + rewrite filter_app. cbn. rewrite app_nil_r. exact i_pret0.
    + rewrite filter_app. cbn. rewrite app_nil_r. congruence.
    + assert (Hwa : forall a, window (buffer (sh s)) n (tail (sh s)) ((v :: q') ++ [a]) ->
                 window (buffer (sh s)) n ((tail (sh s) + 1) mod n) (q' ++ [a])).
      { intros a W. apply (window_skip _ _ _ _ 1) in W; auto; try lia.
        unfold zlen; cbn [length app]; lia. }
      destruct (pp s); auto; try lia.
      * destruct i_pp0 as (? & W). split; [lia|auto].
      * destruct i_pp0 as (? & W & ?). split; [lia|auto].
      * destruct i_pp0 as (? & W). split; [lia|auto].
      * destruct i_pp0 as (? & W & ?). split; [lia|auto].
Qed.

Lemma init_inv : forall (region : list A) c0, 1 <= zlen region < 2 ^ 64 ->
  circular_buf_init region (zlen region) = Some c0 -> inv (zlen region) (init_sys c0) [].
Proof.
  intros region c0 Hn E. unfold circular_buf_init in E.
  destruct (Z.leb_spec (zlen region) 0); [lia|]. inversion E; subst c0; clear E.
  constructor; cbn [init_sys circular_buf_reset sh pp cp pret cret lin bad buffer bufsize head tail];
    change (zlen (@nil A)) with 0; auto; try lia.
  intros i Hi; cbn in Hi; lia.
Qed.

Lemma reachable_inv : forall (region : list A) c0 s, 1 <= zlen region < 2 ^ 64 ->
  circular_buf_init region (zlen region) = Some c0 -> reachable c0 s ->
  exists q, inv (zlen region) s q.
Proof.
  intros region c0 s Hn E R. induction R.
  - exists []. now apply init_inv.
  - destruct IHR as [q I]. eapply pstep_inv; eauto.
  - destruct IHR as [q I]. eapply cstep_inv; eauto.
Qed.

Lemma spsc_race_free_l : forall (region : list A) c0 s, 1 <= zlen region < 2 ^ 64 ->
  circular_buf_init region (zlen region) = Some c0 -> reachable c0 s ->
  forall a i j, pp s = PCell1 a i -> cp s = CCell1 j -> i <> j.
Proof.
  intros region c0 s Hn E R a i j Hp Hc. destruct (reachable_inv region c0 s Hn E R) as [q I].
  pose proof (head_eq_tail _ _ _ I) as He. destruct I. rewrite Hp in i_pp0. rewrite Hc in i_cp0.
  destruct i_pp0 as [_ ->]. destruct i_cp0 as [Hq ->]. tauto.
Qed.

(** A legal sequential FIFO history delivers a prefix of what it accepted. *)
Lemma legal_prefix : forall cap (l : list (op A * out A)) q0,
  Forall (fun e => is_put e = true \/ is_get e = true) l -> 0 <= cap -> stored q0 <= cap ->
  fifo_run cap q0 (map fst l) = map snd l ->
  q0 ++ accepted l = delivered l ++ fifo_state cap q0 (map fst l) /\
  stored (fifo_state cap q0 (map fst l)) <= cap.
Proof.
  intros cap; induction l as [|[o r] l IH]; intros q0 HF Hcap Hq H.
  - cbn. rewrite app_nil_r. auto.
  - inversion HF as [|? ? H1 H2]; subst. cbn [map fst snd fifo_run] in H.
    unfold fifo_state. cbn [map fst fold_left]. fold (fifo_state cap (fst (fifo_step cap q0 o)) (map fst l)).
    destruct (fifo_step cap q0 o) as [q1 r1] eqn:E. inversion H; subst r1. cbn [fst].
    assert (Hs : stored q1 <= cap /\ q0 ++ accepted [(o, r)] = delivered [(o, r)] ++ q1).
    { unfold stored in *. destruct o; cbn in H1; try (destruct H1; discriminate).
      - cbn in E. unfold stored in E.
        destruct (Z.ltb_spec (Z.of_nat (length q0)) cap); inversion E; subst; cbn.
        + rewrite app_length. cbn [length]. split; [lia|reflexivity].
        + rewrite app_nil_r. split; [lia|reflexivity].
      - cbn in E. destruct q0; inversion E; subst; cbn in *.
        + split; [lia|reflexivity].
        + rewrite app_nil_r. split; [lia|reflexivity]. }
    destruct Hs as [Hs1 Hs2]. destruct (IH q1 H2 Hcap Hs1) as [I1 I2]; [assumption|].
    split; [|exact I2].
    change (accepted ((o, r) :: l)) with (accepted ([(o, r)] ++ l)).
    change (delivered ((o, r) :: l)) with (delivered ([(o, r)] ++ l)).
    unfold accepted, delivered in *. rewrite !flat_map_app, app_assoc, Hs2, <- !app_assoc, I1. reflexivity.
Qed.

Lemma accepted_filter : forall l : list (op A * out A), accepted l = accepted (filter is_put l).
Proof.
  induction l as [|[o [z d]] l IH]; [reflexivity|].
  unfold accepted in *. cbn [filter is_put fst flat_map]. rewrite IH.
  destruct o; cbn [is_put fst flat_map app]; try reflexivity.
Qed.

Lemma delivered_filter : forall l : list (op A * out A), delivered l = delivered (filter is_get l).
Proof.
  induction l as [|[o [z d]] l IH]; [reflexivity|].
  unfold delivered in *. cbn [filter is_get fst flat_map]. rewrite IH.
  destruct o; cbn [is_get fst flat_map app]; try reflexivity.
Qed.

Definition only (s : sys A) := Forall (fun e => is_put e = true \/ is_get e = true) (lin s).

Lemma reachable_only : forall c0 s, reachable c0 s -> only s.
Proof.
  intros c0 s R. unfold only. induction R as [|s s' R IH Hs|s s' R IH Hs].
  - constructor.
  - inversion Hs; subst; cbn; auto; apply Forall_app; split; auto.
  - inversion Hs; subst; cbn; auto.
    + destruct (head (sh s) =? tail (sh s)); auto. apply Forall_app; split; auto.
    + apply Forall_app; split; auto.
Qed.

Lemma spsc_linearizable_l : forall (region : list A) c0 s, 1 <= zlen region < 2 ^ 64 ->
  circular_buf_init region (zlen region) = Some c0 -> reachable c0 s ->
  linearizable (zlen region - 1) (pret s) (cret s) /\ bad s = false.
Proof.
  intros region c0 s Hn E R. destruct (reachable_inv region c0 s Hn E R) as [q []].
  split; [|auto]. exists (lin s), (extra s). repeat split; auto.
  { exact (reachable_only c0 s R). }
  unfold extra. destruct (cp s); cbn; try lia. destruct (h =? tail (sh s)); cbn; lia.
Qed.

Lemma spsc_fifo_l : forall (region : list A) c0 s, 1 <= zlen region < 2 ^ 64 ->
  circular_buf_init region (zlen region) = Some c0 -> reachable c0 s ->
  exists in_flight, accepted (pret s) = delivered (cret s) ++ in_flight /\
    stored in_flight <= zlen region - 1.
Proof.
  intros region c0 s Hn E R. pose proof (reachable_only c0 s R) as HO.
  destruct (reachable_inv region c0 s Hn E R) as [q I]. destruct I.
  destruct (legal_prefix (zlen region - 1) (lin s) [] HO) as [P1 P2]; auto.
  - lia.
  - unfold stored; cbn; lia.
  - exists (fifo_state (zlen region - 1) [] (map fst (lin s))). split; [|exact P2].
    cbn [app] in P1. rewrite accepted_filter, i_pret0 in P1. rewrite P1. f_equal.
    rewrite delivered_filter, i_cret0. unfold delivered. rewrite flat_map_app.
    unfold extra. destruct (cp s); cbn; try apply app_nil_r.
    destruct (h =? tail (sh s)); apply app_nil_r.
Qed.

End SpscProofs.
