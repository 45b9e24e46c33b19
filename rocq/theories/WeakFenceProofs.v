(** With a barrier between calls the results are those of some sequential order. *)
From Coq Require Import ZifyBool ZifyNat Sorting.Sorted.
From Verif Require Import Base BaseLemmas CbufModel CbufSpec CbufSystem CbufProofs SpscModel SpscSpec SpscProofs
  WeakModel WeakSpec WeakProofs.

Section WeakFenceProofs.
Context {A : Type}.
Notation inv := WeakProofs.inv.

Definition ahead (s : weak A) : list (op A * out A) :=
  match wc s with
  | CEmpty1 h => if h =? c_tail s then [(Getc, (-1, []))] else []
  | _ => []
  end.

Record lin_inv (n : Z) (s : weak A) (Pm Cm : Z) (L : list (op A * out A)) : Prop := mkLin {
  l_only : only_putc_getc L;
  l_legal : fifo_run (n - 1) [] (map fst L) = map snd L;
  l_state : fifo_state (n - 1) [] (map fst L) =
            skipn (Z.to_nat Cm) (firstn (Z.to_nat Pm) (accepted (wret_p s)));
  l_p : (Pm = nP s /\ filter is_put L = wret_p s) \/
        (Pm = nP s - 1 /\ wp s = PIdle /\ exists a, filter is_put L ++ [(Putc a, (0, []))] = wret_p s);
  l_c : (Cm = nC s /\ filter is_get L = wret_c s ++ ahead s) \/
        (Cm = nC s - 1 /\ wc s = CIdle /\ exists v, filter is_get L ++ [(Getc, (0, [v]))] = wret_c s) }.

Lemma only_snoc : forall (L : list (op A * out A)) e, only_putc_getc L -> is_put e = true \/ is_get e = true ->
  only_putc_getc (L ++ [e]).
Proof. intros L e H1 H2. apply Forall_app. auto. Qed.

Lemma ahead_eq : forall n (s s' : weak A) Pm Cm pl Pm' Cm' pl', inv n s Pm Cm pl -> inv n s' Pm' Cm' pl' ->
  wc s' = wc s -> wret_c s' = wret_c s -> ahead s' = ahead s.
Proof.
  intros n s s' Pm Cm pl Pm' Cm' pl' I I' E1 E2. unfold ahead. rewrite E1. destruct (wc s); auto.
  rewrite (view_c_tail _ _ _ _ _ I), (view_c_tail _ _ _ _ _ I'). unfold nC. now rewrite E2.
Qed.

Lemma drained_p : forall n (s : weak A) Pm Cm pl, inv n s Pm Cm pl -> pq s = [] -> Pm = nP s.
Proof.
  intros n s Pm Cm pl I E. pose proof (pending_heads _ _ _ _ _ I) as H. rewrite E in H. cbn in H. lia.
Qed.

Lemma drained_c : forall n (s : weak A) Pm Cm pl, inv n s Pm Cm pl -> cq s = [] -> Cm = nC s.
Proof.
  intros n s Pm Cm pl I E. pose proof (pending_tails _ _ _ _ _ I) as H. rewrite E in H. cbn in H. lia.
Qed.

(** The producer's steps change neither what the consumer sees nor its results. *)
Lemma prod_lin : forall n (s : weak A) Pm Cm pl L a0 pl', inv n s Pm Cm pl -> lin_inv n s Pm Cm L ->
  (wp s = PIdle -> pq s = []) -> inv n (prod_move s a0) Pm Cm pl' ->
  exists L', lin_inv n (prod_move s a0) Pm Cm L'.
Proof.
  intros n s Pm Cm pl L a0 pl' I [] Hf I'.
  assert (Hc : wc (prod_move s a0) = wc s /\ wret_c (prod_move s a0) = wret_c s)
    by (apply (idle_consumer InOrder s (Produce a0)); discriminate).
  destruct Hc as [Hc1 Hc2]. pose proof (ahead_eq _ _ _ _ _ _ _ _ _ I I' Hc1 Hc2) as Ha.
  assert (Hnc : nC (prod_move s a0) = nC s) by (unfold nC; now rewrite Hc2).
  assert (Hpm : Pm = nP s /\ filter is_put L = wret_p s).
  { destruct l_p0 as [?|(E & Hw & _)]; auto. apply (drained_p _ _ _ _ _ I) in Hf; auto. lia. }
  clear l_p0 Hf. destruct Hpm as [Hpm Hfl].
  assert (Same : wret_p (prod_move s a0) = wret_p s -> lin_inv n (prod_move s a0) Pm Cm L).
  { intros E. constructor; auto.
    - now rewrite E.
    - left. unfold nP. rewrite E. auto.
    - rewrite Hnc, Hc1, Hc2, Ha. exact l_c0. }
  pose proof (full_ok _ _ _ _ _ I) as Vf. pose proof (i_pp _ _ _ _ _ I) as Hpp.
  pose proof (i_w _ _ _ _ _ I) as Hw. pose proof (nP_xs s) as HW.
  unfold prod_move in *. destruct (wp s) eqn:Ep; try (exists L; apply Same; reflexivity).
  - rewrite Hpp, Vf in *. destruct (Z.eqb_spec (nP s) (Cm + n - 1)) as [E|E].
    2:{ exists L; apply Same; reflexivity. }
    assert (Hst : stored (skipn (Z.to_nat Cm) (firstn (Z.to_nat Pm) (accepted (wret_p s)))) = n - 1).
    { unfold stored. rewrite skipn_length, firstn_length.
      pose proof (i_c _ _ _ _ _ I). pose proof (i_n _ _ _ _ _ I). clear - Hpm E H H0. unfold nP, zlen in *. lia. }
    destruct (lin_snoc (n - 1) L (Putc a) (-1, []) _ l_legal0 l_state0) as [L1 L2].
    { cbn [fifo_step]. rewrite Hst, Z.ltb_irrefl. reflexivity. }
    exists (L ++ [(Putc a, (-1, []))]). cbn [p_ret wc wret_c wp wret_p mem pq cq wbad] in *. constructor.
    + apply only_snoc; auto.
    + exact L1.
    + rewrite L2. cbn [fifo_step]. rewrite Hst, Z.ltb_irrefl. cbn [fst p_ret wret_p].
      rewrite accepted_app. cbn [accepted flat_map]. now rewrite app_nil_r.
    + left. unfold nP. cbn [p_ret wret_p]. rewrite accepted_app, filter_app. cbn. rewrite app_nil_r.
      split; [exact Hpm|congruence].
    + rewrite filter_app. cbn [filter is_get fst]. rewrite app_nil_r. rewrite Ha. cbn [p_ret wc wret_c].
      unfold nC in *. cbn [p_ret wret_c]. exact l_c0.
  - exists L. apply Same. destruct (zset _ _ _); reflexivity.
  - rewrite Hpp, Vf in *. destruct (Z.eqb_spec (nP s) (Cm + n - 1)) as [E|E].
    + exfalso. cbn [written] in HW. change (zlen [a]) with 1 in HW. lia.
    + exists L; apply Same; reflexivity.
  - exists L. constructor; auto.
    + rewrite l_state0. cbn [p_ret p_store wret_p]. rewrite accepted_app. f_equal.
      rewrite firstn_app, Hpm. unfold nP, zlen. rewrite Nat2Z.id, Nat.sub_diag, firstn_O, app_nil_r. reflexivity.
    + right. unfold nP. cbn [p_ret p_store wret_p wp]. rewrite accepted_app. cbn [accepted flat_map app].
      split; [unfold nP, zlen in *; rewrite app_length; cbn [length]; lia|]. split; [reflexivity|].
      exists a. congruence.
Qed.

Lemma skipn_cons : forall (l : list A) k v, nth_error l k = Some v -> skipn k l = v :: skipn (S k) l.
Proof. intros l; induction l; intros [|k] v H; try discriminate; cbn in *; [congruence|auto]. Qed.

Lemma firstn_snoc : forall (l : list A) k v, nth_error l k = Some v -> firstn (S k) l = firstn k l ++ [v].
Proof. intros l; induction l; intros [|k] v H; try discriminate; cbn in *; [congruence|f_equal; auto]. Qed.

Lemma cons_lin : forall n (s : weak A) Pm Cm pl L, inv n s Pm Cm pl -> lin_inv n s Pm Cm L ->
  (wc s = CIdle -> cq s = []) -> exists L', lin_inv n (cons_move s) Pm Cm L'.
Proof.
  intros n s Pm Cm pl L I [] Hf. pose proof (cons_inv _ _ _ _ _ I) as I'.
  pose proof (i_n _ _ _ _ _ I) as Hn.
  pose proof (i_c _ _ _ _ _ I) as HC. pose proof (i_p _ _ _ _ _ I) as HP.
  assert (Hcm : Cm = nC s /\ filter is_get L = wret_c s ++ ahead s).
  { destruct l_c0 as [?|(E & Hw & _)]; auto. apply (drained_c _ _ _ _ _ I) in Hf; auto. lia. }
  clear l_c0 Hf. destruct Hcm as [Hcm Hfl].
  assert (Hp : wp (cons_move s) = wp s /\ wret_p (cons_move s) = wret_p s).
  { unfold cons_move. destruct (wc s); try (split; reflexivity).
    - destruct (h =? c_tail s); split; reflexivity.
    - destruct (c_cell s t); split; reflexivity. }
  destruct Hp as [Hp1 Hp2].
  assert (Hnp : nP (cons_move s) = nP s) by (unfold nP; now rewrite Hp2).
  assert (Same : wret_c (cons_move s) ++ ahead (cons_move s) = wret_c s ++ ahead s ->
    nC (cons_move s) = nC s -> lin_inv n (cons_move s) Pm Cm L).
  { intros E1 E2. constructor; auto.
    - now rewrite Hp2.
    - rewrite Hnp, Hp1, Hp2. exact l_p0.
    - left. rewrite E1, E2. auto. }
  pose proof (view_c_tail _ _ _ _ _ I) as Vt. pose proof (view_c_head _ _ _ _ _ I) as Vh.
  pose proof (view_c_cell _ _ _ _ _ I) as Vc. pose proof (i_cp _ _ _ _ _ I) as Hcp.
  pose proof (i_bad _ _ _ _ _ I') as Hbad.
  unfold cons_move in *. destruct (wc s) eqn:Ec.
  - exists L. apply Same; [|reflexivity]. unfold ahead. rewrite Ec. reflexivity.
  - unfold ahead in Same, Hfl. rewrite Ec, app_nil_r in *.
    cbn [c_at wc wret_c] in *. change (c_tail (c_at s (CEmpty1 (c_head s)))) with (c_tail s) in *.
    destruct (Z.eqb_spec (c_head s) (c_tail s)) as [E|E].
    2:{ exists L. apply Same; [now rewrite app_nil_r|reflexivity]. }
    assert (Eq : Pm = Cm).
    { rewrite Vt, Vh in E. apply mod_inj in E; [lia|lia|].
      pose proof (i_w _ _ _ _ _ I) as Hw. pose proof (nW_range s) as HW. clear - HC HP Hw HW Hcm. lia. }
    assert (Hemp : skipn (Z.to_nat Cm) (firstn (Z.to_nat Pm) (accepted (wret_p s))) = []).
    { apply skipn_all2. rewrite firstn_length. lia. }
    rewrite Hemp in l_state0.
    destruct (lin_snoc (n - 1) L Getc (-1, []) _ l_legal0 l_state0) as [L1 L2]; [reflexivity|].
    exists (L ++ [(Getc, (-1, []))]). constructor; auto.
    + apply only_snoc; auto.
    + rewrite L2. cbn [fifo_step fst c_at wret_p]. now rewrite Hemp.
    + rewrite Hnp. cbn [c_at wp wret_p]. rewrite filter_app. cbn [filter is_put fst]. rewrite app_nil_r.
      exact l_p0.
    + left. split; [exact Hcm|]. rewrite filter_app. cbn [filter is_get fst c_at wret_c]. rewrite Hfl.
      unfold ahead. cbn [c_at wc]. change (c_tail (c_at s (CEmpty1 (c_head s)))) with (c_tail s).
      rewrite E, Z.eqb_refl. reflexivity.
  - exists L. unfold ahead in *. rewrite Ec in *. destruct (h =? c_tail s).
    + apply Same.
      * cbn [c_ret wc wret_c]. rewrite app_nil_r. reflexivity.
      * unfold nC. cbn [c_ret wret_c]. rewrite delivered_app. cbn. now rewrite app_nil_r.
    + apply Same; reflexivity.
  - exists L. unfold ahead in *. rewrite Ec in *. apply Same; reflexivity.
  - exists L. unfold ahead in *. rewrite Ec in *.
    destruct (c_cell s t); [apply Same; reflexivity|discriminate..].
  - exists L. unfold ahead in *. rewrite Ec in *. apply Same; reflexivity.
  - exists L. constructor; auto.
    + right. unfold nC. cbn [c_ret c_store wc wret_c]. rewrite delivered_app. cbn [delivered flat_map app].
      split; [unfold nC, zlen in *; rewrite app_length; cbn [length]; lia|]. split; [reflexivity|].
      exists v. rewrite Hfl. unfold ahead. rewrite Ec, app_nil_r. reflexivity.
Qed.

Lemma drainp_lin : forall n (s s' : weak A) Pm Cm pl L Pm' pl', inv n s Pm Cm pl -> lin_inv n s Pm Cm L ->
  inv n s' Pm' Cm pl' -> Pm <= Pm' <= Pm + 1 -> wp s' = wp s -> wc s' = wc s ->
  wret_p s' = wret_p s -> wret_c s' = wret_c s ->
  exists L', lin_inv n s' Pm' Cm L'.
Proof.
  intros n s s' Pm Cm pl L Pm' pl' I [] I' Hle E1 E2 E3 E4.
  pose proof (ahead_eq _ _ _ _ _ _ _ _ _ I I' E2 E4) as Ha.
  assert (Hnp : nP s' = nP s) by (unfold nP; now rewrite E3).
  assert (Hnc : nC s' = nC s) by (unfold nC; now rewrite E4).
  destruct (Z.eq_dec Pm' Pm) as [->|Hne].
  - exists L. constructor; rewrite ?Hnp, ?Hnc, ?Ha, ?E1, ?E2, ?E3, ?E4; auto.
  - assert (Pm' = Pm + 1) by lia. subst Pm'. clear Hle Hne.
    pose proof (i_p _ _ _ _ _ I') as HP'. pose proof (i_c _ _ _ _ _ I) as HC. pose proof (i_p _ _ _ _ _ I) as HP.
    pose proof (i_w _ _ _ _ _ I) as Hw. pose proof (nW_range s) as HW.
    destruct l_p0 as [[? _]|(Hpm & Hi & a & Hfl)]; [lia|].
    assert (Ha' : nth_error (accepted (wret_p s)) (Z.to_nat Pm) = Some a).
    { rewrite <- Hfl, accepted_app. cbn [accepted flat_map app]. apply snoc_here.
      unfold nP in Hpm. rewrite <- Hfl, accepted_app in Hpm. cbn [accepted flat_map app] in Hpm.
      unfold zlen in *. rewrite app_length in Hpm. cbn [length] in Hpm. lia. }
    assert (Hlen : length (firstn (Z.to_nat Pm) (accepted (wret_p s))) = Z.to_nat Pm)
      by (rewrite firstn_length; unfold nP, zlen in *; lia).
    destruct (lin_snoc (n - 1) L (Putc a) (0, []) _ l_legal0 l_state0) as [L1 L2].
    { cbn [fifo_step]. unfold stored. rewrite skipn_length, Hlen.
      destruct (Z.ltb_spec (Z.of_nat (Z.to_nat Pm - Z.to_nat Cm)) (n - 1)); [reflexivity|lia]. }
    exists (L ++ [(Putc a, (0, []))]). constructor.
    + apply only_snoc; auto.
    + exact L1.
    + rewrite L2. cbn [fifo_step]. unfold stored. rewrite skipn_length, Hlen.
      destruct (Z.ltb_spec (Z.of_nat (Z.to_nat Pm - Z.to_nat Cm)) (n - 1)); [|lia]. cbn [fst].
      rewrite E3. replace (Z.to_nat (Pm + 1)) with (S (Z.to_nat Pm)) by lia.
      rewrite (firstn_snoc _ _ _ Ha'), skipn_app, Hlen.
      replace (Z.to_nat Cm - Z.to_nat Pm)%nat with O by lia. reflexivity.
    + left. rewrite Hnp, E3. split; [lia|]. rewrite filter_app. cbn [filter is_put fst]. exact Hfl.
    + rewrite Hnc, Ha, E2, E4, filter_app. cbn [filter is_get fst]. rewrite app_nil_r. exact l_c0.
Qed.

Lemma drainc_lin : forall n (s s' : weak A) Pm Cm pl L Cm' pl', inv n s Pm Cm pl -> lin_inv n s Pm Cm L ->
  inv n s' Pm Cm' pl' -> Cm <= Cm' <= Cm + 1 -> wp s' = wp s -> wc s' = wc s ->
  wret_p s' = wret_p s -> wret_c s' = wret_c s ->
  exists L', lin_inv n s' Pm Cm' L'.
Proof.
  intros n s s' Pm Cm pl L Cm' pl' I [] I' Hle E1 E2 E3 E4.
  pose proof (ahead_eq _ _ _ _ _ _ _ _ _ I I' E2 E4) as Ha.
  assert (Hnp : nP s' = nP s) by (unfold nP; now rewrite E3).
  assert (Hnc : nC s' = nC s) by (unfold nC; now rewrite E4).
  destruct (Z.eq_dec Cm' Cm) as [->|Hne].
  - exists L. constructor; rewrite ?Hnp, ?Hnc, ?Ha, ?E1, ?E2, ?E3, ?E4; auto.
  - assert (Cm' = Cm + 1) by lia. subst Cm'. clear Hle Hne.
    pose proof (i_c _ _ _ _ _ I') as HC'. pose proof (i_c _ _ _ _ _ I) as HC. pose proof (i_p _ _ _ _ _ I) as HP.
    destruct l_c0 as [[? _]|(Hcm & Hi & v & Hfl)]; [lia|].
    pose proof (i_fifo _ _ _ _ _ I) as [fl Hfifo].
    assert (Hv : nth_error (accepted (wret_p s)) (Z.to_nat Cm) = Some v).
    { rewrite Hfifo, <- Hfl, delivered_app. cbn [delivered flat_map app]. rewrite <- app_assoc.
      assert (Z.to_nat Cm = length (delivered (filter is_get L))).
      { unfold nC in Hcm. rewrite <- Hfl, delivered_app in Hcm. cbn [delivered flat_map app] in Hcm.
        unfold zlen in *. rewrite app_length in Hcm. cbn [length] in Hcm. lia. }
      rewrite H. fold (delivered (filter is_get L)). rewrite nth_error_app2, Nat.sub_diag by lia. reflexivity. }
    assert (Hv' : nth_error (firstn (Z.to_nat Pm) (accepted (wret_p s))) (Z.to_nat Cm) = Some v).
    { rewrite nth_error_firstn. destruct (Nat.ltb_spec (Z.to_nat Cm) (Z.to_nat Pm)); [exact Hv|lia]. }
    rewrite (skipn_cons _ _ _ Hv') in l_state0.
    destruct (lin_snoc (n - 1) L Getc (0, [v]) _ l_legal0 l_state0) as [L1 L2]; [reflexivity|].
    exists (L ++ [(Getc, (0, [v]))]). constructor.
    + apply only_snoc; auto.
    + exact L1.
    + rewrite L2. cbn [fifo_step fst]. rewrite E3. f_equal. lia.
    + rewrite Hnp, E1, E3, filter_app. cbn [filter is_put fst]. rewrite app_nil_r. exact l_p0.
    + left. rewrite Hnc, E4. split; [lia|]. rewrite filter_app, Ha. cbn [filter is_get fst]. rewrite Hfl.
      unfold ahead. rewrite Hi, app_nil_r. reflexivity.
Qed.

Lemma fence_run : forall ord n sch (s : weak A), ord <> AnyOrder ->
  (exists Pm Cm pl L, inv n s Pm Cm pl /\ lin_inv n s Pm Cm L) -> fenced ord s sch ->
  exists Pm Cm pl L, inv n (fold_left (step ord) sch s) Pm Cm pl /\
    lin_inv n (fold_left (step ord) sch s) Pm Cm L.
Proof.
  intros ord n sch; induction sch as [|m sch IH]; intros s Ho (Pm & Cm & pl & L & I & Il) Hf; cbn [fold_left].
  - eauto 6.
  - cbn [fenced] in Hf. destruct Hf as [Hm Hf]. apply IH; auto. clear IH Hf. destruct m as [a| |i|i].
    + destruct (prod_inv n s Pm Cm pl a I) as [pl' I'].
      destruct (prod_lin _ _ _ _ _ _ a pl' I Il Hm I') as [L' Il']. exists Pm, Cm, pl', L'. auto.
    + destruct (cons_lin _ _ _ _ _ _ I Il Hm) as [L' Il'].
      exists Pm, Cm, pl, L'. split; auto. apply cons_inv; auto.
    + destruct (drainp_inv ord n s Pm Cm pl i Ho I) as (Pm' & pl' & I' & Hle).
      destruct (drainp_lin _ _ _ _ _ _ _ _ _ I Il I' Hle) as [L' Il'];
        try (cbn [step]; destruct (drain _ _ _ _); reflexivity).
      exists Pm', Cm, pl', L'. auto.
    + destruct (drainc_inv ord n s Pm Cm pl i Ho I) as (Cm' & I' & Hle).
      destruct (drainc_lin _ _ _ _ _ _ _ _ _ I Il I' Hle) as [L' Il'];
        try (cbn [step]; destruct (drain _ _ _ _); reflexivity).
      exists Pm, Cm', pl, L'. auto.
Qed.

Lemma weak_fenced_l : forall (region : list A) c0 ord sch, 1 <= zlen region < 2 ^ 64 ->
  circular_buf_init region (zlen region) = Some c0 -> ord <> AnyOrder ->
  fenced ord (weak_init c0) sch ->
  let s := weak_run ord c0 sch in
  linearizable (zlen region - 1) (wret_p s) (wret_c s).
Proof.
  intros region c0 ord sch Hn E Ho Hf s.
  destruct (fence_run ord (zlen region) sch (weak_init c0) Ho) as (Pm & Cm & pl & L & I & []); auto.
  { exists 0, 0, [], []. split; [now apply WeakProofs.init_inv|]. constructor; try reflexivity.
    - constructor.
    - left. split; reflexivity.
    - left. split; reflexivity. }
  change (fold_left (step ord) sch (weak_init c0)) with s in I, l_state0, l_p0, l_c0.
  pose proof (i_c _ _ _ _ _ I) as HC. pose proof (i_p _ _ _ _ _ I) as HP. pose proof (i_n _ _ _ _ _ I) as HN.
  pose proof (i_w _ _ _ _ _ I) as Hw. pose proof (nW_range s) as HW.
  (* the returned putc whose head is still pending goes last but one *)
  assert (G : exists L1, only_putc_getc L1 /\ fifo_run (zlen region - 1) [] (map fst L1) = map snd L1 /\
    fifo_state (zlen region - 1) [] (map fst L1) = skipn (Z.to_nat Cm) (accepted (wret_p s)) /\
    filter is_put L1 = wret_p s /\ filter is_get L1 = filter is_get L).
  { destruct l_p0 as [[Hpm Hfl]|(Hpm & Hi & a & Hfl)].
    - exists L. repeat split; auto. rewrite l_state0, Hpm, firstn_all2; [reflexivity|].
      unfold nP, zlen. lia.
    - assert (Hlen : length (firstn (Z.to_nat Pm) (accepted (wret_p s))) = Z.to_nat Pm)
        by (rewrite firstn_length; unfold nP, zlen in *; lia).
      destruct (lin_snoc (zlen region - 1) L (Putc a) (0, []) _ l_legal0 l_state0) as [L1 L2].
      { cbn [fifo_step]. unfold stored. rewrite skipn_length, Hlen.
        destruct (Z.ltb_spec (Z.of_nat (Z.to_nat Pm - Z.to_nat Cm)) (zlen region - 1)); [reflexivity|lia]. }
      exists (L ++ [(Putc a, (0, []))]). repeat split.
      + apply only_snoc; auto.
      + exact L1.
      + rewrite L2. cbn [fifo_step]. unfold stored. rewrite skipn_length, Hlen.
        destruct (Z.ltb_spec (Z.of_nat (Z.to_nat Pm - Z.to_nat Cm)) (zlen region - 1)); [|lia]. cbn [fst].
        assert (Ea : accepted (wret_p s) = firstn (Z.to_nat Pm) (accepted (wret_p s)) ++ [a]).
        { assert (Hz : zlen (accepted (filter is_put L)) = Pm).
          { unfold nP in Hpm. rewrite <- Hfl, accepted_app in Hpm. cbn [accepted flat_map app] in Hpm.
            unfold zlen in *. rewrite app_length in Hpm. cbn [length] in Hpm.
            fold (accepted (filter is_put L)) in Hpm. lia. }
          rewrite <- Hfl, accepted_app. cbn [accepted flat_map app]. fold (accepted (filter is_put L)).
          rewrite firstn_app, <- Hz. unfold zlen. rewrite Nat2Z.id, firstn_all, Nat.sub_diag. cbn.
          now rewrite app_nil_r. }
        rewrite Ea at 2. rewrite skipn_app, Hlen.
        replace (Z.to_nat Cm - Z.to_nat Pm)%nat with O by lia. reflexivity.
      + rewrite filter_app. exact Hfl.
      + rewrite filter_app. cbn [filter is_get fst]. apply app_nil_r. }
  destruct G as (L1 & G0 & G1 & G2 & G3 & G4). rewrite <- G4 in l_c0.
  destruct l_c0 as [[Hcm Hfl]|(Hcm & Hi & v & Hfl)].
  - exists L1, (ahead s). repeat split; auto.
    unfold ahead. destruct (wc s); cbn; try lia. destruct (h =? c_tail s); cbn; lia.
  - pose proof (i_fifo _ _ _ _ _ I) as [fl Hfifo].
    assert (Hv : nth_error (accepted (wret_p s)) (Z.to_nat Cm) = Some v).
    { rewrite Hfifo, <- Hfl, delivered_app. cbn [delivered flat_map app]. rewrite <- app_assoc.
      assert (Z.to_nat Cm = length (delivered (filter is_get L1))).
      { unfold nC in Hcm. rewrite <- Hfl, delivered_app in Hcm. cbn [delivered flat_map app] in Hcm.
        unfold zlen in *. rewrite app_length in Hcm. cbn [length] in Hcm. lia. }
      rewrite H. fold (delivered (filter is_get L1)). rewrite nth_error_app2, Nat.sub_diag by lia. reflexivity. }
    rewrite (skipn_cons _ _ _ Hv) in G2.
    destruct (lin_snoc (zlen region - 1) L1 Getc (0, [v]) _ G1 G2) as [K1 K2]; [reflexivity|].
    exists (L1 ++ [(Getc, (0, [v]))]), []. repeat split.
    + exact K1.
    + apply only_snoc; auto.
    + rewrite filter_app. cbn [filter is_put fst]. now rewrite app_nil_r.
    + rewrite filter_app, app_nil_r. exact Hfl.
    + cbn; lia.
Qed.

End WeakFenceProofs.
