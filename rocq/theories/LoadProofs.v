From Coq Require Import ZifyBool ZifyNat Sorting.Sorted.
From Verif Require Import Base BaseLemmas CbufModel CbufSpec CbufSystem CbufProofs SpscModel SpscSpec
  WeakModel WeakSpec WeakProofs LoadModel.

Section LoadProofs.
Context {A : Type}.

Ltac zl := repeat match goal with H : context [_ mod _] |- _ => clear H end; lia.

Ltac fin := unfold nP, nC, nW, xs in *;
  try match goal with E : wp _ = _ |- _ => rewrite ?E in * end;
  try match goal with E : wc _ = _ |- _ => rewrite ?E in * end;
  cbn [mem pq cq wp wc wret_p wret_c wbad p_at p_store p_ret c_at c_store c_ret w_bad written with_mem
       buffer bufsize head tail with_head with_tail with_buffer core past tail_at head_at cell_at] in *;
  rewrite ?accepted_app, ?delivered_app in *;
  cbn [accepted delivered flat_map] in *; rewrite ?app_nil_r in *;
  first [assumption
        | match goal with
          | |- True => exact Logic.I
          | |- _ = _ => reflexivity
          | |- _ /\ _ => repeat split; first [assumption | zl]
          | |- _ <= _ => zl
          | |- _ < _ => zl
          end
        | idtac].

Record linv (n : Z) (s : lsys A) (Pm Cm : Z) (pl : list (Z * store A)) (P C : nat -> Z) : Prop := mkLinv {
  l_inv : inv n (core s) Pm Cm pl;
  l_now : nth_error (past s) (length (past s) - 1) = Some (mem (core s));
  l_P : P (length (past s) - 1)%nat = Pm;
  l_C : C (length (past s) - 1)%nat = Cm;
  l_mono : forall t u, (t <= u < length (past s))%nat -> P t <= P u /\ 0 <= C t <= C u;
  l_past : forall t, (t < length (past s))%nat ->
    head (back s t) = P t mod n /\ tail (back s t) = C t mod n /\ zlen (buffer (back s t)) = n;
  l_cells : forall t k, (t < length (past s))%nat -> nC (core s) <= k < P t ->
    nth_error (buffer (back s t)) (Z.to_nat (k mod n)) = nth_error (accepted (wret_p (core s))) (Z.to_nat k);
  l_tat : (tail_at s < length (past s))%nat;
  l_hat : (head_at s < length (past s))%nat;
  l_cat : forall i, (cell_at s i < length (past s))%nat;
  l_room : nW (core s) <= C (tail_at s) + n - 1;
  l_pp : match wp (core s) with PCell0 _ | PCell1 _ _ => nP (core s) <= C (tail_at s) + n - 2 | _ => True end;
  l_cp : match wc (core s) with
         | CIdle | CEmpty0 => nC (core s) <= P (head_at s)
         | CEmpty1 h => h = P (head_at s) mod n /\ nC (core s) <= P (head_at s)
         | _ => nC (core s) < P (head_at s)
         end }.

Lemma nonempty : forall n s Pm Cm pl P C, linv n s Pm Cm pl P C -> (0 < length (past s))%nat.
Proof. intros n s Pm Cm pl P C L. pose proof (l_hat _ _ _ _ _ _ _ L). lia. Qed.

Lemma moment_ok : forall (s : lsys A) lo t, (lo < length (past s))%nat ->
  (lo <= moment s lo t < length (past s))%nat.
Proof. intros s lo t H. unfold moment. destruct t; lia. Qed.

(** The producer's steps that do not look at the tail. *)
Lemma prod_frame : forall (s : weak A) a,
  mem (prod_move s a) = mem s /\ wc (prod_move s a) = wc s /\ wret_c (prod_move s a) = wret_c s /\
  exists l, accepted (wret_p (prod_move s a)) = accepted (wret_p s) ++ l.
Proof.
  intros s a. unfold prod_move. destruct (wp s); cbn [mem wc wret_c wret_p p_at]; repeat split;
    try (exists []; now rewrite app_nil_r).
  - destruct (nxt _ _ =? _); reflexivity.
  - destruct (nxt _ _ =? _); reflexivity.
  - destruct (nxt _ _ =? _); reflexivity.
  - destruct (nxt _ _ =? _); cbn [wret_p p_ret p_at]; rewrite ?accepted_app; eauto.
    exists []. now rewrite app_nil_r.
  - destruct (zset _ _ _); reflexivity.
  - destruct (zset _ _ _); reflexivity.
  - destruct (zset _ _ _); reflexivity.
  - destruct (zset _ _ _); cbn; exists []; now rewrite app_nil_r.
  - destruct (nxt _ _ =? _); reflexivity.
  - destruct (nxt _ _ =? _); reflexivity.
  - destruct (nxt _ _ =? _); reflexivity.
  - destruct (nxt _ _ =? _); cbn [wret_p p_ret p_at]; rewrite ?accepted_app; eauto.
    exists []. now rewrite app_nil_r.
  - cbn [wret_p p_ret p_store]. rewrite accepted_app. eauto.
Qed.

Lemma cells_later : forall n s Pm Cm pl P C, linv n s Pm Cm pl P C ->
  forall l t k, (t < length (past s))%nat -> nC (core s) <= k < P t ->
    nth_error (buffer (back s t)) (Z.to_nat (k mod n)) = nth_error (accepted (wret_p (core s)) ++ l) (Z.to_nat k).
Proof.
  intros n s Pm Cm pl P C L l t k Ht Hk. rewrite (l_cells _ _ _ _ _ _ _ L t k Ht Hk).
  pose proof (l_mono _ _ _ _ _ _ _ L t (length (past s) - 1)%nat ltac:(lia)) as [M _].
  rewrite (l_P _ _ _ _ _ _ _ L) in M. pose proof (i_p _ _ _ _ _ (l_inv _ _ _ _ _ _ _ L)) as Hp.
  pose proof (zlen_nonneg A (delivered (wret_c (core s)))) as HC.
  unfold nP, nC, zlen in *. rewrite nth_error_app1 by zl. reflexivity.
Qed.

(** Stale values of the tail. *)
Lemma stale_full : forall n s Pm Cm pl P C, linv n s Pm Cm pl P C ->
  forall u, (tail_at s <= u < length (past s))%nat ->
  (nxt (mem (core s)) (nP (core s) mod n) =?
     p_tail (with_mem (core s) (with_tail (mem (core s)) (tail (back s u))))) = (nP (core s) =? C u + n - 1).
Proof.
  intros n s Pm Cm pl P C L u Hu. pose proof (l_inv _ _ _ _ _ _ _ L) as I.
  rewrite (next_ok n _ Pm Cm pl I).
  assert (E : p_tail (with_mem (core s) (with_tail (mem (core s)) (tail (back s u)))) = C u mod n).
  { unfold p_tail, with_mem. cbn [pq mem with_tail tail].
    rewrite <- (proj1 (proj2 (l_past _ _ _ _ _ _ _ L u ltac:(lia)))).
    apply load_tail_none. intros t Hi. rewrite <- (i_pq _ _ _ _ _ I) in Hi.
    apply in_map_iff in Hi as ((t' & x) & Ex & Hi). cbn in Ex; subst x.
    pose proof (i_tag _ _ _ _ _ I) as T. rewrite Forall_forall in T. apply (T _ Hi). }
  rewrite E. pose proof (i_n _ _ _ _ _ I). pose proof (i_c _ _ _ _ _ I). pose proof (i_p _ _ _ _ _ I).
  pose proof (nW_range (core s)). pose proof (l_room _ _ _ _ _ _ _ L).
  pose proof (l_mono _ _ _ _ _ _ _ L (tail_at s) u Hu) as [_ M].
  pose proof (l_mono _ _ _ _ _ _ _ L u (length (past s) - 1)%nat ltac:(lia)) as [_ M'].
  rewrite (l_C _ _ _ _ _ _ _ L) in M'. clear L I Hu E.
  apply Bool.eq_iff_eq_true. rewrite !Z.eqb_eq. split; intros E.
  - replace (C u mod n) with ((C u + n) mod n) in E
      by (replace (C u + n) with (C u + 1 * n) by lia; apply Z_mod_plus_full).
    apply mod_inj in E; lia.
  - rewrite E. replace (C u + n - 1 + 1) with (C u + 1 * n) by lia. apply Z_mod_plus_full.
Qed.

Lemma produce_inv : forall n s Pm Cm pl P C a t, linv n s Pm Cm pl P C ->
  exists pl', linv n (l_produce s a t) Pm Cm pl' P C.
Proof.
  intros n s Pm Cm pl P C a t L. pose proof (l_inv _ _ _ _ _ _ _ L) as I.
  assert (Hplain : forall (Hw : match wp (core s) with PFull1 _ _ | PAdv1 _ _ => False | _ => True end),
    exists pl', linv n (mkLsys (prod_move (core s) a) (past s) (tail_at s) (head_at s) (cell_at s)) Pm Cm pl' P C).
  { intros Hw. destruct (prod_inv n _ Pm Cm pl a I) as [pl' I']. exists pl'.
    destruct (prod_frame (core s) a) as (Em & Ec & Er & l & El).
    pose proof (cells_later _ _ _ _ _ _ _ L l) as CL. pose proof (nP_xs (core s)) as HW.
    pose proof L as []. constructor; cbn [core past tail_at head_at cell_at]; auto.
    - now rewrite Em.
    - intros u Hu. unfold back. cbn [core past]. rewrite Em. apply l_past0. exact Hu.
    - intros u k Hu Hk. unfold back. cbn [core past]. rewrite Em, El. apply CL; auto.
      unfold nC in *. rewrite Er in Hk. exact Hk.
    - revert Hw l_room0 l_pp0 HW. clear. unfold nW, nP, xs, prod_move. destruct (wp (core s)) eqn:E; intros Hw H1 H2 H3;
        try destruct Hw; try (destruct (zset _ _ _)); cbn [wp wret_p p_at p_ret p_store w_bad written] in *;
        rewrite ?accepted_app; cbn [accepted flat_map]; unfold zlen in *; rewrite ?app_length in *; cbn [length] in *; lia.
    - revert Hw l_room0 l_pp0. clear. unfold nW, nP, xs, prod_move. destruct (wp (core s)) eqn:E; intros Hw H1 H2;
        try destruct Hw; try (destruct (zset _ _ _)); cbn [wp wret_p p_at p_ret p_store w_bad written] in *; auto.
    - unfold nC in *. rewrite Ec, Er. exact l_cp0. }
  unfold l_produce. destruct (wp (core s)) eqn:Ew; try (apply Hplain; exact Logic.I); clear Hplain.
  - pose proof (moment_ok s (tail_at s) t (l_tat _ _ _ _ _ _ _ L)) as Hu.
    set (u := moment s (tail_at s) t) in *. pose proof (stale_full _ _ _ _ _ _ _ L u Hu) as Vf.
    pose proof (l_mono _ _ _ _ _ _ _ L (tail_at s) u Hu) as [_ M].
    pose proof (l_mono _ _ _ _ _ _ _ L u (length (past s) - 1)%nat ltac:(lia)) as [_ M'].
    rewrite (l_C _ _ _ _ _ _ _ L) in M'. pose proof (i_pp _ _ _ _ _ I) as Hh. rewrite Ew in Hh. subst h.
    unfold prod_move at 1. cbn [wp with_mem]. rewrite Ew.
    change (nxt (mem (with_mem (core s) (with_tail (mem (core s)) (tail (back s u)))))) with (nxt (mem (core s))).
    fold (with_mem (core s) (with_tail (mem (core s)) (tail (back s u)))). rewrite Vf. clear Vf.
    pose proof (nP_xs (core s)) as HW. rewrite Ew in HW. change (zlen (written (PFull1 a0 (nP (core s) mod n)))) with 0 in HW.
    exists pl. pose proof L as []. pose proof I as []. destruct (Z.eqb_spec (nP (core s)) (C u + n - 1)) as [E|E].
    + constructor; cbn [core past tail_at head_at cell_at]; auto; try zl.
      * constructor; fin.
      * fin.
      * fin.
      * fin.
    + constructor; cbn [core past tail_at head_at cell_at]; auto; try zl.
      * constructor; fin.
      * fin.
      * fin.
  - pose proof (moment_ok s (tail_at s) t (l_tat _ _ _ _ _ _ _ L)) as Hu.
    set (u := moment s (tail_at s) t) in *. pose proof (stale_full _ _ _ _ _ _ _ L u Hu) as Vf.
    pose proof (l_mono _ _ _ _ _ _ _ L (tail_at s) u Hu) as [_ M].
    pose proof (i_pp _ _ _ _ _ I) as Hh. rewrite Ew in Hh. subst h.
    unfold prod_move at 1. cbn [wp with_mem]. rewrite Ew.
    change (nxt (mem (with_mem (core s) (with_tail (mem (core s)) (tail (back s u)))))) with (nxt (mem (core s))).
    fold (with_mem (core s) (with_tail (mem (core s)) (tail (back s u)))). rewrite Vf. clear Vf.
    pose proof (nP_xs (core s)) as HW. rewrite Ew in HW.
    change (zlen (written (PAdv1 a0 (nP (core s) mod n)))) with 1 in HW.
    exists pl. pose proof L as []. pose proof I as []. destruct (Z.eqb_spec (nP (core s)) (C u + n - 1)) as [E|E].
    + exfalso. zl.
    + constructor; cbn [core past tail_at head_at cell_at]; auto; try zl.
      * constructor; fin.
      * fin.
      * exact Logic.I.
Qed.

Lemma consume_inv : forall n s Pm Cm pl P C t, linv n s Pm Cm pl P C ->
  linv n (l_consume true s t) Pm Cm pl P C.
Proof.
  intros n s Pm Cm pl P C t L. pose proof (l_inv _ _ _ _ _ _ _ L) as I.
  assert (Hplain : forall (Hw : match wc (core s) with CEmpty0 | CCell1 _ => False | _ => True end),
    linv n (mkLsys (cons_move (core s)) (past s) (tail_at s) (head_at s) (cell_at s)) Pm Cm pl P C).
  { intros Hw. pose proof (cons_inv n _ Pm Cm pl I) as I'.
    pose proof (view_c_tail n _ Pm Cm pl I) as Vt.
    assert (F : mem (cons_move (core s)) = mem (core s) /\ wp (cons_move (core s)) = wp (core s) /\
                wret_p (cons_move (core s)) = wret_p (core s) /\ nC (core s) <= nC (cons_move (core s))).
    { clear - Hw. unfold nC, cons_move. destruct (wc (core s)); try destruct Hw;
        try (destruct (_ =? _)); cbn [mem wp wret_p wret_c c_at c_ret c_store];
        rewrite ?delivered_app; unfold zlen; rewrite ?app_length; repeat split; lia. }
    destruct F as (Em & Ep & Er & Ec). pose proof L as [].
    constructor; cbn [core past tail_at head_at cell_at]; auto.
    - now rewrite Em.
    - intros u Hu. unfold back. cbn [core past]. rewrite Em. apply l_past0. exact Hu.
    - intros u k Hu Hk. unfold back. cbn [core past]. rewrite Em, Er. apply l_cells0; auto. lia.
    - unfold nW, xs. rewrite Ep, Er. exact l_room0.
    - unfold nP. rewrite Ep, Er. exact l_pp0.
    - revert Hw l_cp0 Vt. clear. unfold nC, cons_move. destruct (wc (core s)); intros Hw H Vt; try destruct Hw;
        cbn [wc wret_c c_at c_ret c_store]; auto.
      + destruct H as [-> H]. rewrite Vt.
        destruct (Z.eqb_spec (P (head_at s) mod n) (zlen (delivered (wret_c (core s))) mod n)) as [E|E];
          cbn [wc wret_c c_at c_ret].
        * rewrite delivered_app. cbn [delivered flat_map]. rewrite app_nil_r. exact H.
        * destruct (Z.eq_dec (P (head_at s)) (zlen (delivered (wret_c (core s))))) as [E'|]; [|zl].
          elim E. now rewrite E'.
      + rewrite delivered_app. unfold zlen in *. rewrite app_length. cbn. lia. }
  unfold l_consume. destruct (wc (core s)) eqn:Ew; try (apply Hplain; exact Logic.I); clear Hplain.
  - pose proof (moment_ok s (head_at s) t (l_hat _ _ _ _ _ _ _ L)) as Hu.
    set (u := moment s (head_at s) t) in *.
    pose proof (l_mono _ _ _ _ _ _ _ L (head_at s) u Hu) as [M _].
    pose proof (l_mono _ _ _ _ _ _ _ L u (length (past s) - 1)%nat ltac:(lia)) as [M' _].
    rewrite (l_P _ _ _ _ _ _ _ L) in M'.
    unfold cons_move. cbn [wc with_mem]. rewrite Ew. unfold c_head. cbn [cq mem with_mem with_head head].
    rewrite (i_cq _ _ _ _ _ I), tails_head, (proj1 (l_past _ _ _ _ _ _ _ L u ltac:(lia))).
    pose proof (l_cp _ _ _ _ _ _ _ L) as Hc. rewrite Ew in Hc.
    pose proof L as []. pose proof I as [].
    constructor; cbn [core past tail_at head_at cell_at]; auto; try lia.
    + constructor; fin. exists (P u). split; [auto|zl].
    + fin.
  - set (lo := Nat.max (cell_at s t0) (head_at s)).
    assert (Hlo : (lo < length (past s))%nat).
    { unfold lo. pose proof (l_hat _ _ _ _ _ _ _ L). pose proof (l_cat _ _ _ _ _ _ _ L t0). lia. }
    pose proof (moment_ok s lo t Hlo) as Hu. set (u := moment s lo t) in *.
    pose proof (l_mono _ _ _ _ _ _ _ L (head_at s) u ltac:(unfold lo in *; lia)) as [M _].
    pose proof (l_mono _ _ _ _ _ _ _ L u (length (past s) - 1)%nat ltac:(lia)) as [M' _].
    rewrite (l_P _ _ _ _ _ _ _ L) in M'.
    pose proof (i_cp _ _ _ _ _ I) as Hb. rewrite Ew in Hb. destruct Hb as [Hr ->].
    pose proof (l_cp _ _ _ _ _ _ _ L) as Hc. rewrite Ew in Hc.
    pose proof (l_cells _ _ _ _ _ _ _ L u (nC (core s)) ltac:(lia) ltac:(lia)) as Hx.
    assert (Hv : exists v, nth_error (accepted (wret_p (core s))) (Z.to_nat (nC (core s))) = Some v).
    { destruct (nth_error (accepted _) _) eqn:E; [eauto|]. apply nth_error_None in E.
      exfalso. clear Hx. pose proof (i_p _ _ _ _ _ I) as Hq. pose proof (i_c _ _ _ _ _ I) as Hq2.
      unfold nP, zlen in Hq. clear - E Hq Hq2 Hr. lia. }
    destruct Hv as [v Hv]. rewrite Hv in Hx.
    assert (Hz : c_cell (with_mem (core s) (with_buffer (mem (core s)) (buffer (back s u)))) (nC (core s) mod n) = Done v).
    { unfold c_cell, with_mem. cbn [cq mem with_buffer buffer]. rewrite (i_cq _ _ _ _ _ I), tails_cell.
      unfold zget. pose proof (i_n _ _ _ _ _ I).
      destruct (Z.ltb_spec (nC (core s) mod n) 0) as [Hneg|_];
        [pose proof (Z.mod_pos_bound (nC (core s)) n ltac:(lia)); lia|]. now rewrite Hx. }
    unfold cons_move. replace (wc (with_mem _ _)) with (wc (core s)) by reflexivity. rewrite Ew, Hz.
    pose proof L as []. pose proof I as [].
    constructor; cbn [core past tail_at head_at cell_at]; auto; try lia.
    + constructor; fin.
    + intros j. destruct (j =? _); [lia|auto].
Qed.

(** A new moment. *)
Lemma drain_frame : forall ord (s : weak A) m, (exists i, m = DrainP i \/ m = DrainC i) ->
  wp (step ord s m) = wp s /\ wc (step ord s m) = wc s /\
  wret_p (step ord s m) = wret_p s /\ wret_c (step ord s m) = wret_c s.
Proof.
  intros ord s m [i [-> | ->]]; cbn [step]; destruct (drain _ _ _ _); repeat split; reflexivity.
Qed.

Lemma settled : forall n (s : weak A) Pm Cm pl k, inv n s Pm Cm pl -> nC s <= k < Pm ->
  nth_error (buffer (mem s)) (Z.to_nat (k mod n)) = nth_error (accepted (wret_p s)) (Z.to_nat k).
Proof.
  intros n s Pm Cm pl k I Hk. pose proof (zlen_nonneg A (delivered (wret_c s))) as HC. destruct I.
  destruct (nth_error (accepted (wret_p s)) (Z.to_nat k)) as [v|] eqn:E.
  - destruct (i_cells k v ltac:(lia)) as [Hi|Hi]; auto.
    + unfold xs. rewrite nth_error_app1; auto. apply nth_error_Some. congruence.
    + exfalso. rewrite Forall_forall in i_rng. specialize (i_rng _ Hi). cbn [fst] in i_rng. zl.
  - exfalso. apply nth_error_None in E. unfold nP, nC, zlen in *. zl.
Qed.

Lemma new_moment : forall n s Pm Cm pl P C ord m, linv n s Pm Cm pl P C ->
  (exists i, m = DrainP i \/ m = DrainC i) ->
  forall Pm' Cm' pl', inv n (step ord (core s) m) Pm' Cm' pl' -> Pm <= Pm' -> Cm <= Cm' ->
  exists P' C', linv n (l_drain ord s m) Pm' Cm' pl' P' C'.
Proof.
  intros n s Pm Cm pl P C ord m L Hm Pm' Cm' pl' I' HP HC.
  destruct (drain_frame ord (core s) m Hm) as (Ewp & Ewc & Erp & Erc).
  exists (fun t => if (t <? length (past s))%nat then P t else Pm'), (fun t => if (t <? length (past s))%nat then C t else Cm').
  pose proof (nonempty _ _ _ _ _ _ _ L) as Hne. pose proof (i_c _ _ _ _ _ (l_inv _ _ _ _ _ _ _ L)) as Hc0.
  pose proof L as [].
  assert (Hlast : (length (past s ++ [mem (step ord (core s) m)]) - 1 = length (past s))%nat)
    by (rewrite app_length; cbn; lia).
  assert (Hold : forall t, (t < length (past s))%nat -> back (l_drain ord s m) t = back s t).
  { intros t Ht. unfold back, l_drain. cbn [past core]. rewrite app_nth1 by auto. apply nth_indep. auto. }
  assert (Hnew : back (l_drain ord s m) (length (past s)) = mem (step ord (core s) m)).
  { unfold back, l_drain. cbn [past core]. rewrite app_nth2, Nat.sub_diag by auto. reflexivity. }
  assert (Hmax : forall t, (t < length (past s))%nat -> P t <= Pm /\ 0 <= C t <= Cm).
  { intros t Ht. destruct (l_mono0 t (length (past s) - 1)%nat ltac:(lia)). rewrite <- l_P0, <- l_C0. auto. }
  constructor; change (core (l_drain ord s m)) with (step ord (core s) m) in *;
    change (past (l_drain ord s m)) with (past s ++ [mem (step ord (core s) m)]) in *;
    change (tail_at (l_drain ord s m)) with (tail_at s); change (head_at (l_drain ord s m)) with (head_at s);
    change (cell_at (l_drain ord s m)) with (cell_at s); rewrite ?Hlast.
  - exact I'.
  - rewrite nth_error_app2, Nat.sub_diag by lia. reflexivity.
  - destruct (Nat.ltb_spec (length (past s)) (length (past s))); lia.
  - destruct (Nat.ltb_spec (length (past s)) (length (past s))); lia.
  - intros t u Hu. rewrite app_length in Hu; cbn in Hu.
    destruct (Nat.ltb_spec t (length (past s))) as [Ht|Ht], (Nat.ltb_spec u (length (past s))) as [Hv|Hv];
      [apply l_mono0; lia|pose proof (Hmax t Ht); lia|lia|lia].
  - intros t Ht. rewrite app_length in Ht; cbn in Ht. destruct (Nat.ltb_spec t (length (past s))) as [Hl|Hl].
    + rewrite Hold by auto. apply l_past0. auto.
    + replace t with (length (past s)) by lia. rewrite Hnew.
      repeat split; [apply (i_head _ _ _ _ _ I')|apply (i_tail _ _ _ _ _ I')|apply (i_len _ _ _ _ _ I')].
  - intros t k Ht Hk. rewrite app_length in Ht; cbn in Ht. rewrite Erp. unfold nC in Hk. rewrite Erc in Hk.
    destruct (Nat.ltb_spec t (length (past s))) as [Hl|Hl].
    + rewrite Hold by auto. apply l_cells0; auto.
    + replace t with (length (past s)) by lia. rewrite Hnew, <- Erp.
      apply (settled n _ Pm' Cm' pl' k I'). unfold nC. rewrite Erc. exact Hk.
  - rewrite app_length. cbn. lia.
  - rewrite app_length. cbn. lia.
  - intros i. specialize (l_cat0 i). rewrite app_length. cbn. lia.
  - unfold nW, xs in *. rewrite Ewp, Erp. destruct (Nat.ltb_spec (tail_at s) (length (past s))); [auto|lia].
  - unfold nP in *. rewrite Ewp, Erp. destruct (Nat.ltb_spec (tail_at s) (length (past s))); [auto|lia].
  - unfold nC in *. rewrite Ewc, Erc. destruct (Nat.ltb_spec (head_at s) (length (past s))); [auto|lia].
Qed.

Lemma lstep_inv : forall n s Pm Cm pl P C ord m, ord <> AnyOrder -> linv n s Pm Cm pl P C ->
  exists Pm' Cm' pl' P' C', linv n (lstep true ord s m) Pm' Cm' pl' P' C'.
Proof.
  intros n s Pm Cm pl P C ord m Ho L. pose proof (l_inv _ _ _ _ _ _ _ L) as I. destruct m as [a t|t|i|i]; cbn [lstep].
  - destruct (produce_inv _ _ _ _ _ _ _ a t L) as [pl' L']. exists Pm, Cm, pl', P, C. exact L'.
  - exists Pm, Cm, pl, P, C. now apply consume_inv.
  - destruct (drainp_inv ord n _ Pm Cm pl i Ho I) as (Pm' & pl' & I' & Hp).
    destruct (new_moment _ _ _ _ _ _ _ ord (DrainP i) L ltac:(eauto) Pm' Cm pl' I' ltac:(lia) ltac:(lia)) as (P' & C' & L').
    exists Pm', Cm, pl', P', C'. exact L'.
  - destruct (drainc_inv ord n _ Pm Cm pl i Ho I) as (Cm' & I' & Hp).
    destruct (new_moment _ _ _ _ _ _ _ ord (DrainC i) L ltac:(eauto) Pm Cm' pl I' ltac:(lia) ltac:(lia)) as (P' & C' & L').
    exists Pm, Cm', pl, P', C'. exact L'.
Qed.

Lemma load_run_inv : forall (region : list A) c0 ord sch, 1 <= zlen region < 2 ^ 64 ->
  circular_buf_init region (zlen region) = Some c0 -> ord <> AnyOrder ->
  exists Pm Cm pl P C, linv (zlen region) (load_run true ord c0 sch) Pm Cm pl P C.
Proof.
  intros region c0 ord sch Hn E Ho. unfold load_run.
  assert (G : forall sch s, (exists Pm Cm pl P C, linv (zlen region) s Pm Cm pl P C) ->
    exists Pm Cm pl P C, linv (zlen region) (fold_left (lstep true ord) sch s) Pm Cm pl P C).
  { clear - Ho. intros sch; induction sch as [|m sch IH]; intros s (Pm & Cm & pl & P & C & L); cbn.
    - do 5 eexists. exact L.
    - apply IH. eapply lstep_inv; eauto. }
  apply G. clear G. pose proof (init_inv region c0 Hn E) as I0.
  exists 0, 0, [], (fun _ => 0), (fun _ => 0).
  constructor; cbn [core past load_init length tail_at head_at cell_at]; auto; try lia.
  - intros t Ht. assert (t = 0%nat) by lia. subst t. cbn.
    repeat split; [apply (i_head _ _ _ _ _ I0)|apply (i_tail _ _ _ _ _ I0)|apply (i_len _ _ _ _ _ I0)].
  - intros t k _ Hk. exfalso. unfold nC in Hk. cbn in Hk. lia.
  - cbn. lia.
  - exact Logic.I.
  - cbn. lia.
Qed.

Lemma load_fifo_l : forall (region : list A) c0 ord sch, 1 <= zlen region < 2 ^ 64 ->
  circular_buf_init region (zlen region) = Some c0 -> ord <> AnyOrder ->
  let s := core (load_run true ord c0 sch) in
  fifo_so_far (zlen region - 1) (wret_p s) (wret_c s) /\ wbad s = false.
Proof.
  intros region c0 ord sch Hn E Ho. destruct (load_run_inv region c0 ord sch Hn E Ho) as (Pm & Cm & pl & P & C & L).
  cbv zeta. pose proof (l_inv _ _ _ _ _ _ _ L) as I. pose proof (nW_range (core (load_run true ord c0 sch))).
  destruct I. split; auto.
  destruct i_fifo as [fl Hfl]. exists fl. split; auto.
  unfold nC, nP in *. rewrite Hfl in *. unfold stored, zlen in *. rewrite app_length in *. lia.
Qed.

(** From the load of the head on, the cell of a getc does not change. *)
Lemma load_stable_l : forall (region : list A) c0 ord sch j t, 1 <= zlen region < 2 ^ 64 ->
  circular_buf_init region (zlen region) = Some c0 -> ord <> AnyOrder ->
  let s := load_run true ord c0 sch in
  wc (core s) = CCell1 j -> (head_at s <= t < length (past s))%nat ->
  zget (buffer (back s t)) j = zget (buffer (mem (core s))) j.
Proof.
  intros region c0 ord sch j t Hn E Ho s Hc Ht.
  destruct (load_run_inv region c0 ord sch Hn E Ho) as (Pm & Cm & pl & P & C & L). fold s in L.
  pose proof (l_inv _ _ _ _ _ _ _ L) as I. pose proof (i_cp _ _ _ _ _ I) as Hb. rewrite Hc in Hb.
  destruct Hb as [Hr ->]. pose proof (l_cp _ _ _ _ _ _ _ L) as Hp. rewrite Hc in Hp.
  pose proof (l_mono _ _ _ _ _ _ _ L (head_at s) t Ht) as [M _].
  unfold zget. rewrite (l_cells _ _ _ _ _ _ _ L t (nC (core s))) by lia.
  rewrite (settled _ _ _ _ _ (nC (core s)) I) by lia. reflexivity.
Qed.

(** Without early loads the model is [WeakModel]. *)
Lemma in_place_l : forall barrier ord (c : cbuf A) sch,
  core (load_run barrier ord c (map in_place sch)) = weak_run ord c sch.
Proof.
  intros barrier ord c sch. unfold load_run, weak_run.
  assert (G : forall sch (s : lsys A), (0 < length (past s))%nat -> back s (length (past s) - 1) = mem (core s) ->
    core (fold_left (lstep barrier ord) (map in_place sch) s) = fold_left (step ord) sch (core s)).
  { clear. intros sch; induction sch as [|m sch IH]; intros s Hl Hb; [reflexivity|]. cbn [map fold_left].
    assert (K : core (lstep barrier ord s (in_place m)) = step ord (core s) m /\
                (0 < length (past (lstep barrier ord s (in_place m))))%nat /\
                back (lstep barrier ord s (in_place m)) (length (past (lstep barrier ord s (in_place m))) - 1) =
                mem (core (lstep barrier ord s (in_place m)))).
    { assert (Hd : forall m, core (l_drain ord s m) = step ord (core s) m /\ (0 < length (past (l_drain ord s m)))%nat /\
                back (l_drain ord s m) (length (past (l_drain ord s m)) - 1) = mem (core (l_drain ord s m))).
      { intros m'. unfold l_drain. cbn [core past]. split; [reflexivity|]. rewrite app_length. cbn [length].
        split; [lia|]. unfold back. cbn [past core]. rewrite Nat.add_sub, app_nth2, Nat.sub_diag by lia. reflexivity. }
      assert (Hk : forall w ta ha ca, mem w = mem (core s) -> forall w', w = w' ->
        core (mkLsys w (past s) ta ha ca) = w' /\ (0 < length (past (mkLsys w (past s) ta ha ca)))%nat /\
        back (mkLsys w (past s) ta ha ca) (length (past (mkLsys w (past s) ta ha ca)) - 1) =
          mem (core (mkLsys w (past s) ta ha ca))).
      { intros w ta ha ca Hm w' Hw. cbn [core past]. split; [exact Hw|]. split; [exact Hl|].
        unfold back in *. cbn [core past]. rewrite Hm. exact Hb. }
      destruct m as [a| |i|i]; cbn [in_place lstep step]; [| |apply Hd|apply Hd].
      - destruct (prod_frame (core s) a) as (Em & _). unfold l_produce, moment.
        assert (Hw : with_mem (core s) (with_tail (mem (core s)) (tail (back s (length (past s) - 1)))) = core s).
        { rewrite Hb. destruct s as [[[] ] ]; reflexivity. }
        assert (He : with_mem (prod_move (core s) a) (mem (core s)) = prod_move (core s) a).
        { rewrite <- Em at 1. destruct (prod_move (core s) a); reflexivity. }
        destruct (wp (core s)); rewrite ?Hw, ?He; apply Hk; auto.
      - assert (Em : mem (cons_move (core s)) = mem (core s)).
        { unfold cons_move. destruct (wc (core s)); try reflexivity; [destruct (_ =? _); reflexivity|].
          destruct (c_cell _ _); reflexivity. }
        unfold l_consume, moment.
        assert (Hw : with_mem (core s) (with_head (mem (core s)) (head (back s (length (past s) - 1)))) = core s).
        { rewrite Hb. destruct s as [[[] ] ]; reflexivity. }
        assert (Hw' : with_mem (core s) (with_buffer (mem (core s)) (buffer (back s (length (past s) - 1)))) = core s).
        { rewrite Hb. destruct s as [[[] ] ]; reflexivity. }
        assert (He : with_mem (cons_move (core s)) (mem (core s)) = cons_move (core s)).
        { rewrite <- Em at 1. destruct (cons_move (core s)); reflexivity. }
        destruct (wc (core s)); rewrite ?Hw, ?Hw', ?He; apply Hk; auto. }
    destruct K as (K1 & K2 & K3). rewrite IH by auto. now rewrite K1. }
  apply G; cbn; [lia|reflexivity].
Qed.

Lemma no_barrier : forall ord n (s : lsys A) Pm Cm pl P C m, linv n s Pm Cm pl P C ->
  (forall i t, wc (core s) = CCell1 i -> m = LConsume (Some t) -> (head_at s <= t)%nat) ->
  lstep false ord s m = lstep true ord s m.
Proof.
  intros ord n s Pm Cm pl P C m L H. destruct m as [a t|t|i|i]; try reflexivity.
  cbn [lstep]. unfold l_consume. destruct (wc (core s)) eqn:E; try reflexivity.
  replace (moment s (Nat.max (cell_at s t0) 0) t) with (moment s (Nat.max (cell_at s t0) (head_at s)) t); [reflexivity|].
  pose proof (l_hat _ _ _ _ _ _ _ L). destruct t as [t|]; [|reflexivity].
  specialize (H t0 t eq_refl eq_refl). unfold moment. lia.
Qed.

Lemma cells_in_place_l : forall (region : list A) c0 ord sch, 1 <= zlen region < 2 ^ 64 ->
  circular_buf_init region (zlen region) = Some c0 -> ord <> AnyOrder ->
  cells_in_place ord (load_init c0) sch ->
  let s := core (load_run false ord c0 sch) in
  fifo_so_far (zlen region - 1) (wret_p s) (wret_c s) /\ wbad s = false.
Proof.
  intros region c0 ord sch Hn E Ho Hs. cbv zeta.
  replace (load_run false ord c0 sch) with (load_run true ord c0 sch); [now apply load_fifo_l|].
  unfold load_run. destruct (load_run_inv region c0 ord [] Hn E Ho) as (Pm & Cm & pl & P & C & L).
  change (load_run true ord c0 []) with (load_init c0) in L.
  revert Hs Pm Cm pl P C L. generalize (load_init c0) as s.
  induction sch as [|m sch IH]; intros s Hs Pm Cm pl P C L; [reflexivity|].
  destruct Hs as [H1 H2]. cbn [fold_left].
  pose proof (no_barrier ord _ s Pm Cm pl P C m L H1) as Eq. rewrite Eq in H2 |- *.
  destruct (lstep_inv _ _ _ _ _ _ _ ord m Ho L) as (Pm' & Cm' & pl' & P' & C' & L').
  exact (IH _ H2 _ _ _ _ _ L').
Qed.

End LoadProofs.
