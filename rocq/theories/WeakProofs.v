From Coq Require Import ZifyBool ZifyNat Sorting.Sorted Sorting.Permutation.
From Verif Require Import Base BaseLemmas CbufModel CbufSpec CbufSystem CbufProofs SpscModel SpscSpec
  WeakModel WeakSpec.

Section WeakProofs.
Context {A : Type}.

Lemma mod_inj : forall n x y, 0 < n -> Z.abs (x - y) < n -> x mod n = y mod n -> x = y.
Proof.
  intros n x y Hn Ha E.
  pose proof (Z.div_mod x n ltac:(lia)). pose proof (Z.div_mod y n ltac:(lia)).
  assert (x - y = n * (x / n - y / n)) by (rewrite Z.mul_sub_distr_l; lia).
  assert (x / n - y / n = 0) by nia. nia.
Qed.

Definition written (p : ppc A) : list A :=
  match p with PAdv0 a | PAdv1 a _ | PHead0 a | PHead1 a _ => [a] | _ => [] end.

Definition xs (s : weak A) : list A := accepted (wret_p s) ++ written (wp s).
Definition nP (s : weak A) : Z := zlen (accepted (wret_p s)).
Definition nC (s : weak A) : Z := zlen (delivered (wret_c s)).
Definition nW (s : weak A) : Z := zlen (xs s).

Definition tagged (n : Z) (l : list A) (e : Z * store A) : Prop :=
  match snd e with
  | SCell i a => exists k, fst e = 2 * k /\ i = k mod n /\ nth_error l (Z.to_nat k) = Some a
  | SHead h => exists k, fst e = 2 * k + 1 /\ h = (k + 1) mod n
  | STail _ => False
  end.

Definition tails (n Cm : Z) (k : nat) : list (store A) :=
  map (fun i => STail ((Cm + 1 + Z.of_nat i) mod n)) (seq 0 k).

Record inv (n : Z) (s : weak A) (Pm Cm : Z) (pl : list (Z * store A)) : Prop := mkInv {
  i_size : bufsize (mem s) = n;
  i_len : zlen (buffer (mem s)) = n;
  i_n : 1 <= n < 2 ^ 64;
  i_c : 0 <= Cm <= nC s;
  i_p : nC s <= Pm <= nP s;
  i_w : nW s <= Cm + n - 1;
  i_head : head (mem s) = Pm mod n;
  i_tail : tail (mem s) = Cm mod n;
  i_pq : map snd pl = pq s;
  i_sort : StronglySorted (fun x y => fst x < fst y) pl;
  i_rng : Forall (fun e => 2 * Pm <= fst e < nP s + nW s) pl;
  i_tag : Forall (tagged n (xs s)) pl;
  i_heads : forall k, Pm <= k < nP s -> In (2 * k + 1, SHead ((k + 1) mod n)) pl;
  i_cells : forall k a, nC s <= k -> nth_error (xs s) (Z.to_nat k) = Some a ->
    In (2 * k, SCell (k mod n) a) pl \/ nth_error (buffer (mem s)) (Z.to_nat (k mod n)) = Some a;
  i_cq : cq s = tails n Cm (Z.to_nat (nC s - Cm));
  i_fifo : exists fl, accepted (wret_p s) = delivered (wret_c s) ++ fl;
  i_bad : wbad s = false;
  i_pp : match wp s with
         | PIdle | PFull0 _ => True
         | PCell0 _ => nP s <= Cm + n - 2
         | PFull1 _ h => h = nP s mod n
         | PCell1 _ h => nP s <= Cm + n - 2 /\ h = nP s mod n
         | PAdv0 _ | PHead0 _ => True
         | PAdv1 _ h | PHead1 _ h => h = nP s mod n
         end;
  i_cp : match wc s with
         | CIdle | CEmpty0 => True
         | CEmpty1 h => exists q, h = q mod n /\ nC s <= q <= Pm
         | CCell0 => nC s < Pm
         | CCell1 t => nC s < Pm /\ t = nC s mod n
         | CTail0 v => nC s < Pm /\ nth_error (accepted (wret_p s)) (Z.to_nat (nC s)) = Some v
         | CTail1 v t => nC s < Pm /\ nth_error (accepted (wret_p s)) (Z.to_nat (nC s)) = Some v /\
                         t = nC s mod n
         end }.

(** *** Loads *)

Lemma load_head_none : forall (q : list (store A)) d,
  (forall h, ~ In (SHead h) q) -> load_head q d = d.
Proof.
  intros q; induction q as [|x q IH]; intros d H; [reflexivity|].
  destruct x; cbn; try (apply IH; intros h' Hi; apply (H h'); now right).
  exfalso. apply (H h). now left.
Qed.

Lemma load_tail_none : forall (q : list (store A)) d,
  (forall t, ~ In (STail t) q) -> load_tail q d = d.
Proof.
  intros q; induction q as [|x q IH]; intros d H; [reflexivity|].
  destruct x; cbn; try (apply IH; intros h' Hi; apply (H h'); now right).
  exfalso. apply (H t). now left.
Qed.

Lemma load_head_last : forall (pl : list (Z * store A)) M h d,
  StronglySorted (fun x y => fst x < fst y) pl -> In (M, SHead h) pl ->
  (forall t h', In (t, SHead h') pl -> t <= M) -> load_head (map snd pl) d = h.
Proof.
  intros pl; induction pl as [|[t x] pl IH]; intros M h d Hs Hi Hm; [easy|].
  inversion_clear Hs as [|? ? Hs' Hf]. cbn [map snd].
  destruct Hi as [Hi|Hi].
  - inversion Hi; subst t x. cbn. apply load_head_none. intros h' Hin.
    apply in_map_iff in Hin as ((t' & x') & E & Hin). cbn in E. subst x'.
    rewrite Forall_forall in Hf. pose proof (Hf _ Hin). cbn in H.
    pose proof (Hm t' h' (or_intror Hin)). lia.
  - destruct x; cbn; apply (IH M); auto; intros; apply (Hm _ h'); now right.
Qed.

Lemma tails_head : forall n Cm k d, load_head (tails n Cm k) d = d.
Proof. intros. apply load_head_none. intros h Hi. apply in_map_iff in Hi as (? & ? & _). discriminate. Qed.

Lemma tails_cell : forall n Cm k i (d : outcome A), load_cell (tails n Cm k) i d = d.
Proof.
  intros n Cm k i d. unfold tails. generalize (seq 0 k). intros l; induction l; cbn; auto.
Qed.

Lemma load_tail_app : forall (a b : list (store A)) d, load_tail (a ++ b) d = load_tail b (load_tail a d).
Proof. intros a; induction a as [|x a IH]; intros b d; [reflexivity|]. destruct x; cbn; apply IH. Qed.

Lemma tails_tail : forall n Cm k, load_tail (tails n Cm k) (Cm mod n) = (Cm + Z.of_nat k) mod n.
Proof.
  intros n Cm k. destruct k as [|k]; [cbn; f_equal; lia|].
  unfold tails. rewrite seq_S, map_app, load_tail_app. cbn [map load_tail Nat.add]. f_equal. lia.
Qed.

Section Views.
Variables (n : Z) (s : weak A) (Pm Cm : Z) (pl : list (Z * store A)).
Hypothesis I : inv n s Pm Cm pl.

Lemma nW_range : nP s <= nW s <= nP s + 1.
Proof using.
  unfold nP, nW, xs, zlen. rewrite app_length. destruct (wp s); cbn [written length]; lia.
Qed.

Lemma nP_xs : nW s = nP s + zlen (written (wp s)).
Proof using. unfold nP, nW, xs, zlen. rewrite app_length. lia. Qed.

Lemma view_p_head : p_head s = nP s mod n.
Proof using I.
  pose proof nW_range as HW. unfold p_head. rewrite <- (i_pq _ _ _ _ _ I), (i_head _ _ _ _ _ I).
  assert (Hodd : forall t h, In (t, SHead h) pl -> Pm <= nP s - 1 /\ t <= 2 * (nP s - 1) + 1).
  { intros t h Hi. pose proof (i_rng _ _ _ _ _ I) as R. rewrite Forall_forall in R.
    pose proof (i_tag _ _ _ _ _ I) as T. rewrite Forall_forall in T.
    specialize (R _ Hi). destruct (T _ Hi) as (k & Ek & _). cbn [fst] in R, Ek. lia. }
  destruct (Z.eq_dec Pm (nP s)) as [E|E].
  - rewrite load_head_none; [now rewrite E|]. intros h Hi.
    apply in_map_iff in Hi as ((t & x) & Ex & Hi). cbn in Ex; subst x. apply Hodd in Hi. lia.
  - pose proof (i_p _ _ _ _ _ I). erewrite (load_head_last pl (2 * (nP s - 1) + 1)).
    + reflexivity.
    + apply (i_sort _ _ _ _ _ I).
    + replace (nP s) with (nP s - 1 + 1) at 2 by lia. apply (i_heads _ _ _ _ _ I). lia.
    + intros t h' Hi. now apply Hodd in Hi.
Qed.

Lemma view_p_tail : p_tail s = Cm mod n.
Proof using I.
  unfold p_tail. rewrite load_tail_none; [apply (i_tail _ _ _ _ _ I)|].
  intros t Hi. rewrite <- (i_pq _ _ _ _ _ I) in Hi. apply in_map_iff in Hi as ((t' & x) & Ex & Hi).
  cbn in Ex; subst x. pose proof (i_tag _ _ _ _ _ I) as T. rewrite Forall_forall in T.
  apply (T _ Hi).
Qed.

Lemma view_c_head : c_head s = Pm mod n.
Proof using I. unfold c_head. rewrite (i_cq _ _ _ _ _ I), tails_head. apply (i_head _ _ _ _ _ I). Qed.

Lemma view_c_tail : c_tail s = nC s mod n.
Proof using I.
  unfold c_tail. rewrite (i_cq _ _ _ _ _ I), (i_tail _ _ _ _ _ I), tails_tail.
  f_equal. pose proof (i_c _ _ _ _ _ I). lia.
Qed.

Lemma view_c_cell : forall i, c_cell s i = zget (buffer (mem s)) i.
Proof using I. intros. unfold c_cell. rewrite (i_cq _ _ _ _ _ I). apply tails_cell. Qed.

Lemma next_ok : forall k, nxt (mem s) (k mod n) = (k + 1) mod n.
Proof using I.
  intros k. pose proof (i_n _ _ _ _ _ I). unfold nxt. rewrite (i_size _ _ _ _ _ I).
  pose proof (Z.mod_pos_bound k n ltac:(lia)). rewrite wrap_small by lia. apply Zplus_mod_idemp_l.
Qed.

Lemma full_ok : (nxt (mem s) (nP s mod n) =? p_tail s) = (nP s =? Cm + n - 1).
Proof using I.
  rewrite next_ok, view_p_tail. pose proof (i_n _ _ _ _ _ I). pose proof (i_w _ _ _ _ _ I).
  pose proof (i_c _ _ _ _ _ I). pose proof (i_p _ _ _ _ _ I). pose proof nW_range.
  apply Bool.eq_iff_eq_true. rewrite !Z.eqb_eq. split; intros E.
  - replace (Cm mod n) with ((Cm + n) mod n) in E
      by (replace (Cm + n) with (Cm + 1 * n) by lia; apply Z_mod_plus_full).
    apply mod_inj in E; lia.
  - rewrite E. replace (Cm + n - 1 + 1) with (Cm + 1 * n) by lia. apply Z_mod_plus_full.
Qed.

End Views.

Lemma accepted_app : forall l1 l2 : list (op A * out A), accepted (l1 ++ l2) = accepted l1 ++ accepted l2.
Proof. intros. apply flat_map_app. Qed.
Lemma delivered_app : forall l1 l2 : list (op A * out A), delivered (l1 ++ l2) = delivered l1 ++ delivered l2.
Proof. intros. apply flat_map_app. Qed.

(** lia without the hypotheses about positions modulo the size. *)
Ltac zl := repeat match goal with H : context [_ mod _] |- _ => clear H end; lia.
Ltac fin := unfold nP, nC, nW, xs in *;
  try match goal with E : wp _ = _ |- _ => rewrite ?E in * end;
  try match goal with E : wc _ = _ |- _ => rewrite ?E in * end;
  cbn [mem pq cq wp wc wret_p wret_c wbad p_at p_store p_ret c_at c_store c_ret w_bad written
       buffer bufsize head tail with_head with_tail with_buffer] in *;
  rewrite ?accepted_app, ?delivered_app in *;
  cbn [accepted delivered flat_map] in *; rewrite ?app_nil_r in *;
  first [assumption
        | match goal with
          | |- True => exact Logic.I
          | |- _ = _ => reflexivity
          | |- _ /\ _ => repeat split; first [assumption | zl]
          | |- _ <= _ => zl
          | |- _ < _ => zl
          end
        | idtac].

Lemma SS_snoc : forall (pl : list (Z * store A)) e,
  StronglySorted (fun x y => fst x < fst y) pl -> Forall (fun x => fst x < fst e) pl ->
  StronglySorted (fun x y => fst x < fst y) (pl ++ [e]).
Proof.
  intros pl; induction pl as [|x pl IH]; intros e Hs Hf; cbn.
  - constructor; constructor.
  - inversion_clear Hs. inversion_clear Hf. constructor; auto.
    apply Forall_app. split; auto.
Qed.

Lemma tagged_app : forall n l l' e, tagged n l e -> tagged n (l ++ l') e.
Proof.
  intros n l l' [t [h|t'|i a]]; cbn; auto. intros (k & E1 & E2 & E3). exists k. repeat split; auto.
  rewrite nth_error_app1; auto. apply nth_error_Some. congruence.
Qed.

Lemma snoc_nth : forall (l : list A) a k b, 0 <= k -> nth_error (l ++ [a]) (Z.to_nat k) = Some b ->
  nth_error l (Z.to_nat k) = Some b \/ (k = zlen l /\ a = b).
Proof.
  intros l a k b Hk H. destruct (Nat.lt_ge_cases (Z.to_nat k) (length l)) as [L|L].
  - rewrite nth_error_app1 in H by auto. now left.
  - rewrite nth_error_app2 in H by auto. right.
    destruct (Z.to_nat k - length l)%nat as [|m] eqn:E; cbn in H; [|destruct m; discriminate].
    unfold zlen. split; [lia|congruence].
Qed.

Lemma snoc_here : forall (l : list A) a k, k = zlen l -> nth_error (l ++ [a]) (Z.to_nat k) = Some a.
Proof.
  intros l a k ->. unfold zlen. rewrite Nat2Z.id, nth_error_app2, Nat.sub_diag by lia. reflexivity.
Qed.

Lemma prod_inv : forall n s Pm Cm pl a0, inv n s Pm Cm pl ->
  exists pl', inv n (prod_move s a0) Pm Cm pl'.
Proof.
  intros n s Pm Cm pl a0 I. pose proof (view_p_head n s Pm Cm pl I) as Vh.
  pose proof (full_ok n s Pm Cm pl I) as Vf. pose proof (nP_xs s) as HW.
  pose proof (next_ok n s Pm Cm pl I) as Vn. pose proof (zlen_nonneg A (delivered (wret_c s))) as HC.
  pose proof (zlen_nonneg A (accepted (wret_p s))) as HP.
  pose proof I as []. unfold prod_move. destruct (wp s) eqn:Ew; cbn [written] in HW.
  - exists pl; constructor; fin.
  - exists pl; constructor; fin.
  - rewrite i_pp0, Vf. destruct (Z.eqb_spec (nP s) (Cm + n - 1)) as [E|E].
    + exists pl; constructor; fin.
    + exists pl; constructor; fin.
  - exists pl; constructor; fin.
  - destruct i_pp0 as [Hr Hh]. pose proof (Z.mod_pos_bound (nP s) n ltac:(lia)) as Hb.
    rewrite zset_ok by (rewrite Hh, i_len0; lia).
    exists (pl ++ [(2 * nP s, SCell h a)]).
    assert (HW' : nW s = nP s) by (rewrite HW; cbn; lia).
    constructor; fin.
    + unfold zlen in *. rewrite app_length. cbn [length]. lia.
    + rewrite map_app. cbn. congruence.
    + apply SS_snoc; auto. eapply Forall_impl; [|exact i_rng0]. cbn [fst]. intros; lia.
    + apply Forall_app. split.
      * eapply Forall_impl; [|exact i_rng0]. cbn [fst]. intros e He.
        unfold zlen in *. rewrite app_length. cbn [length]. lia.
      * constructor; [|constructor]. cbn [fst]. unfold zlen in *. rewrite app_length. cbn [length]. lia.
    + apply Forall_app. split.
      * eapply Forall_impl; [|exact i_tag0]. intros e He. now apply tagged_app.
      * constructor; [|constructor]. cbn. exists (zlen (accepted (wret_p s))). repeat split; auto.
        now apply snoc_here.
    + intros k Hk. apply in_or_app. left. auto.
    + intros k b Hk Hn. apply snoc_nth in Hn; [|lia]. destruct Hn as [Hn|[-> ->]].
      * destruct (i_cells0 k b Hk Hn) as [?|?]; [left|now right]. apply in_or_app. now left.
      * left. apply in_or_app. right. left. congruence.
  - exists pl; constructor; fin.
  - rewrite i_pp0, Vf. destruct (Z.eqb_spec (nP s) (Cm + n - 1)) as [E|E].
    + exfalso. unfold zlen in HW; cbn [length] in HW. lia.
    + exists pl; constructor; fin.
  - exists pl; constructor; fin.
  - exists (pl ++ [(2 * nP s + 1, SHead ((nP s + 1) mod n))]). rewrite i_pp0, Vn.
    assert (HW' : nW s = nP s + 1) by (rewrite HW; cbn; lia).
    assert (HP' : zlen (accepted (wret_p s) ++ [a]) = nP s + 1)
      by (unfold nP, zlen; rewrite app_length; cbn [length]; lia).
    assert (i_heads' : forall k, Pm <= k < nP s + 1 ->
      In (2 * k + 1, SHead ((k + 1) mod n)) (pl ++ [(2 * nP s + 1, SHead ((nP s + 1) mod n))])).
    { intros k Hk. apply in_or_app. destruct (Z.eq_dec k (nP s)) as [->|].
      - right. left. reflexivity.
      - left. apply i_heads0. lia. }
    clear Vf Vh Vn I.
    constructor; [fin..| |fin|fin|fin|fin|fin|fin].
    + rewrite map_app. cbn. congruence.
    + apply SS_snoc; auto. eapply Forall_impl; [|exact i_rng0]. cbn [fst]. intros; zl.
    + apply Forall_app. split.
      * eapply Forall_impl; [|exact i_rng0]. cbn [fst]. intros; zl.
      * constructor; [|constructor]. cbn [fst]. zl.
    + apply Forall_app. split; auto. constructor; [|constructor].
      cbn. exists (zlen (accepted (wret_p s))). split; reflexivity.
    + intros k Hk. apply i_heads'. revert Hk. unfold nP at 1. cbn [wret_p p_ret p_store].
      rewrite accepted_app. cbn [accepted flat_map app]. rewrite HP'. auto.
    + intros k b Hk Hn. destruct (i_cells0 k b Hk Hn) as [?|?]; [left|now right].
      apply in_or_app. now left.
    + destruct i_fifo0 as [fl Hfl]. exists (fl ++ [a]). rewrite Hfl, app_assoc. reflexivity.
    + assert (Hv : forall v, nth_error (accepted (wret_p s)) (Z.to_nat (zlen (delivered (wret_c s)))) = Some v ->
                nth_error (accepted (wret_p s) ++ [a]) (Z.to_nat (zlen (delivered (wret_c s)))) = Some v)
        by (intros v Hv; rewrite nth_error_app1; auto; apply nth_error_Some; congruence).
      destruct (wc s); auto.
      * destruct i_cp0. split; auto.
      * destruct i_cp0 as (? & ? & ?). repeat split; auto.
Qed.

Lemma tails_S : forall n Cm k, tails n Cm (S k) = STail ((Cm + 1) mod n) :: tails n (Cm + 1) k.
Proof.
  intros. unfold tails. cbn [seq map]. f_equal; [do 2 f_equal; lia|].
  rewrite <- seq_shift, map_map. apply map_ext. intros i. do 2 f_equal. lia.
Qed.

Lemma cons_inv : forall n s Pm Cm pl, inv n s Pm Cm pl -> inv n (cons_move s) Pm Cm pl.
Proof.
  intros n s Pm Cm pl I. pose proof (view_c_head n s Pm Cm pl I) as Vh.
  pose proof (view_c_tail n s Pm Cm pl I) as Vt. pose proof (view_c_cell n s Pm Cm pl I) as Vc.
  pose proof (next_ok n s Pm Cm pl I) as Vn. pose proof (zlen_nonneg A (delivered (wret_c s))) as HC.
  pose proof (nW_range s) as HW.
  pose proof I as []. unfold cons_move. destruct (wc s) eqn:Ew.
  - constructor; fin.
  - constructor; fin. exists Pm. split; [auto|zl].
  - rewrite Vt. destruct i_cp0 as (q & Eq & Hq).
    destruct (Z.eqb_spec h (nC s mod n)) as [E|E].
    + constructor; fin.
    + constructor; fin. destruct (Z.eq_dec q (zlen (delivered (wret_c s)))) as [->|]; [congruence|zl].
  - constructor; fin.
  - destruct i_cp0 as [Hr ->]. rewrite Vc. pose proof (Z.mod_pos_bound (nC s) n ltac:(lia)) as Hb.
    assert (Hx : exists v, nth_error (accepted (wret_p s)) (Z.to_nat (nC s)) = Some v).
    { destruct (nth_error (accepted (wret_p s)) (Z.to_nat (nC s))) eqn:E; [eauto|].
      apply nth_error_None in E. unfold nP, zlen in *. zl. }
    destruct Hx as [v Hv].
    assert (Hx : nth_error (xs s) (Z.to_nat (nC s)) = Some v)
      by (unfold xs; rewrite nth_error_app1; auto; apply nth_error_Some; congruence).
    destruct (i_cells0 (nC s) v ltac:(lia) Hx) as [Hi|Hi].
    { exfalso. rewrite Forall_forall in i_rng0. specialize (i_rng0 _ Hi). cbn [fst] in i_rng0. zl. }
    unfold zget. destruct (Z.ltb_spec (nC s mod n) 0); [lia|]. rewrite Hi.
    constructor; fin.
  - destruct i_cp0 as [Hr Hv]. constructor; fin.
  - destruct i_cp0 as (Hr & Hv & ->). rewrite Vn.
    assert (HC' : zlen (delivered (wret_c s) ++ [v]) = nC s + 1)
      by (unfold nC, zlen; rewrite app_length; cbn [length]; zl).
    constructor; fin.
    + intros k b Hk Hn. apply i_cells0; auto. zl.
    + rewrite i_cq0, HC'. replace (Z.to_nat (zlen (delivered (wret_c s)) + 1 - Cm)) with
        (S (Z.to_nat (zlen (delivered (wret_c s)) - Cm))) by zl.
      unfold tails. rewrite seq_S, map_app. cbn [map Nat.add]. do 4 f_equal. zl.
    + destruct i_fifo0 as [fl Hfl]. rewrite Hfl in Hv. unfold zlen in Hv.
      rewrite Nat2Z.id, nth_error_app2, Nat.sub_diag in Hv by zl.
      destruct fl as [|v' fl]; [discriminate|]. cbn in Hv. inversion Hv; subst v'.
      exists fl. rewrite Hfl, <- app_assoc. reflexivity.
Qed.

Lemma may_index : forall ord (older : list (store A)) x, ord <> AnyOrder ->
  is_index x = true -> may_go ord older x = true -> older = [].
Proof.
  intros ord older x Ho Hx H. destruct ord; cbn in H; [destruct older; easy| |easy].
  rewrite Hx in H. destruct older; auto. rewrite andb_comm in H. discriminate.
Qed.

Lemma nth_split_i : forall {B} (l : list B) i x, nth_error l i = Some x ->
  l = firstn i l ++ x :: skipn (S i) l.
Proof.
  intros B l; induction l as [|y l IH]; intros [|i] x H; try discriminate; cbn in *.
  - now inversion H.
  - f_equal. now apply IH.
Qed.

Lemma SS_drop : forall (l1 l2 : list (Z * store A)) e,
  StronglySorted (fun x y => fst x < fst y) (l1 ++ e :: l2) ->
  StronglySorted (fun x y => fst x < fst y) (l1 ++ l2) /\
  Forall (fun x => fst e < fst x) l2.
Proof.
  intros l1; induction l1 as [|x l1 IH]; intros l2 e H; cbn in *.
  - inversion_clear H. auto.
  - inversion_clear H as [|? ? Hs Hf]. destruct (IH _ _ Hs) as [? ?]. split; auto.
    constructor; auto. apply Forall_app in Hf as [Hf1 Hf2]. inversion_clear Hf2. apply Forall_app. auto.
Qed.

Lemma drainp_inv : forall ord n s Pm Cm pl i, ord <> AnyOrder -> inv n s Pm Cm pl ->
  exists Pm' pl', inv n (step ord s (DrainP i)) Pm' Cm pl' /\ Pm <= Pm' <= Pm + 1.
Proof.
  intros ord n s Pm Cm pl i Ho I. cbn [step]. unfold drain.
  assert (Hsame : exists Pm' pl',
    inv n (mkWeak (mem s) (pq s) (cq s) (wp s) (wc s) (wret_p s) (wret_c s) (wbad s)) Pm' Cm pl' /\ Pm <= Pm' <= Pm + 1).
  { exists Pm, pl. split; [|zl]. destruct s; exact I. }
  destruct (nth_error (pq s) i) as [x|] eqn:En; [|exact Hsame].
  destruct (may_go ord (firstn i (pq s)) x) eqn:Em; [|exact Hsame]. clear Hsame.
  pose proof (nW_range s) as HW. pose proof (zlen_nonneg A (delivered (wret_c s))) as HC.
  pose proof I as [].
  assert (Hpl : exists t, nth_error pl i = Some (t, x)).
  { rewrite <- i_pq0, nth_error_map in En. destruct (nth_error pl i) as [[t y]|]; [|discriminate].
    cbn in En. inversion En. eauto. }
  destruct Hpl as [t Et]. pose proof (nth_split_i _ _ _ Et) as Sp.
  assert (Hin : In (t, x) pl) by (eapply nth_error_In; eauto).
  assert (Htag : tagged n (xs s) (t, x)) by (rewrite Forall_forall in i_tag0; auto).
  assert (Hrng : 2 * Pm <= t < nP s + nW s) by (rewrite Forall_forall in i_rng0; apply (i_rng0 _ Hin)).
  remember (firstn i pl) as l1 eqn:E1. remember (skipn (S i) pl) as l2 eqn:E2.
  assert (Hq' : map snd (l1 ++ l2) = firstn i (pq s) ++ skipn (S i) (pq s))
    by (rewrite map_app, E1, E2, <- i_pq0, firstn_map, skipn_map; reflexivity).
  assert (Hs' : StronglySorted (fun x y => fst x < fst y) (l1 ++ l2) /\ Forall (fun x => t < fst x) l2)
    by (apply (SS_drop l1 l2 (t, x)); rewrite <- Sp; auto).
  destruct Hs' as [Hs' Hgt].
  assert (Hsub : forall e, In e (l1 ++ l2) -> In e pl).
  { intros e He. rewrite Sp. apply in_app_or in He. apply in_or_app. destruct He; [now left|right; now right]. }
  assert (Hsup : forall e, In e pl -> e = (t, x) \/ In e (l1 ++ l2)).
  { intros e He. rewrite Sp in He. apply in_app_or in He. destruct He as [?|[?|?]]; auto;
    right; apply in_or_app; auto. }
  clear E2 Sp.
  assert (Htag' : Forall (tagged n (xs s)) (l1 ++ l2))
    by (rewrite Forall_forall in *; auto).
  assert (Hrng' : Forall (fun e => 2 * Pm <= fst e < nP s + nW s) (l1 ++ l2))
    by (rewrite Forall_forall in *; auto).
  destruct x as [h|t'|j a]; [| destruct Htag |].
  - (* the head reaches the memory *)
    apply may_index in Em; auto. assert (l1 = []).
    { rewrite <- i_pq0, firstn_map in Em. rewrite E1. destruct (firstn i pl); [auto|discriminate]. }
    rewrite H in *. rewrite Em in Hq'. cbn [app] in *. clear E1 H. rewrite Em. cbn [app].
    destruct Htag as (k & Ek & Eh). cbn [fst] in Ek.
    assert (Hk : Pm = k).
    { destruct (Z.eq_dec Pm k) as [|Hne]; auto. exfalso.
      assert (Hi : In (2 * Pm + 1, SHead ((Pm + 1) mod n)) pl) by (apply i_heads0; zl).
      apply Hsup in Hi. destruct Hi as [Hi|Hi]; [apply (f_equal fst) in Hi; cbn [fst] in Hi; zl|].
      rewrite Forall_forall in Hgt. specialize (Hgt _ Hi). cbn [fst] in Hgt. zl. }
    subst k. exists (Pm + 1), l2. split; [|zl].
    constructor; fin.
    + rewrite Forall_forall in *. intros e He. specialize (Hgt _ He). specialize (Hrng' _ He). cbn [fst] in *. zl.
    + intros k Hk. destruct (Hsup _ (i_heads0 k ltac:(zl))) as [E|]; auto. apply (f_equal fst) in E; cbn [fst] in E; zl.
    + intros k b Hk Hb. destruct (i_cells0 k b Hk Hb) as [Hi|]; auto.
      apply Hsup in Hi. destruct Hi as [Hi|]; auto. discriminate.
    + destruct (wc s); auto.
      * destruct i_cp0 as (q & ? & ?). exists q. split; auto. zl.
      * zl.
      * destruct i_cp0. split; auto. zl.
      * destruct i_cp0. split; auto. zl.
      * destruct i_cp0 as (? & ? & ?). repeat split; auto. zl.
  - (* a cell reaches the memory *)
    destruct Htag as (k & Ek & Ej & Ea). cbn [fst] in Ek.
    pose proof (Z.mod_pos_bound k n ltac:(lia)) as Hb.
    exists Pm, (l1 ++ l2). split; [|zl]. cbn [perform]. rewrite zset_ok by (rewrite Ej, i_len0; exact Hb). subst j t.
    constructor; fin.
    + rewrite zlen_upd. auto.
    + intros k' Hk'. destruct (Hsup _ (i_heads0 k' Hk')) as [E|]; auto. inversion E.
    + intros k' b Hk' Hn'.
      assert (Hlt : k' < zlen (accepted (wret_p s) ++ written (wp s))).
      { assert (Z.to_nat k' < length (accepted (wret_p s) ++ written (wp s)))%nat
          by (apply nth_error_Some; congruence). unfold zlen. zl. }
      destruct (Z.eq_dec k k') as [->|Hne].
      * right. rewrite nth_error_upd_eq by (clear - Hb i_len0; unfold zlen in *; lia). congruence.
      * rewrite nth_error_upd_neq.
        -- destruct (i_cells0 k' b Hk' Hn') as [Hi|]; auto.
           apply Hsup in Hi. destruct Hi as [Hi|]; auto. apply (f_equal fst) in Hi; cbn [fst] in Hi; zl.
        -- intros E. assert (k mod n = k' mod n).
           { pose proof (Z.mod_pos_bound k' n ltac:(lia)) as Hb'. clear - E Hb Hb'. lia. }
           apply mod_inj in H; zl.
Qed.

Lemma drainc_inv : forall ord n s Pm Cm pl i, ord <> AnyOrder -> inv n s Pm Cm pl ->
  exists Cm', inv n (step ord s (DrainC i)) Pm Cm' pl /\ Cm <= Cm' <= Cm + 1.
Proof.
  intros ord n s Pm Cm pl i Ho I. cbn [step]. unfold drain.
  assert (Hsame : exists Cm',
    inv n (mkWeak (mem s) (pq s) (cq s) (wp s) (wc s) (wret_p s) (wret_c s) (wbad s)) Pm Cm' pl /\ Cm <= Cm' <= Cm + 1).
  { exists Cm. split; [|zl]. destruct s; exact I. }
  destruct (nth_error (cq s) i) as [x|] eqn:En; [|exact Hsame].
  destruct (may_go ord (firstn i (cq s)) x) eqn:Em; [|exact Hsame]. clear Hsame.
  pose proof I as []. rewrite i_cq0 in *.
  assert (Hx : is_index x = true).
  { apply nth_error_In in En. unfold tails in En. apply in_map_iff in En as (? & <- & _). reflexivity. }
  apply may_index in Em; auto.
  destruct (Z.to_nat (nC s - Cm)) as [|k] eqn:Ek; [destruct i; discriminate|].
  rewrite tails_S in *. destruct i as [|i]; [|discriminate]. cbn in En. inversion En; subst x.
  exists (Cm + 1). split; [|zl]. cbn [firstn skipn app perform]. constructor; fin.
  - f_equal. zl.
  - destruct (wp s); auto; try zl. destruct i_pp0 as [Hr Hh]. split; [zl|exact Hh].
Qed.

Lemma step_inv : forall ord n s m Pm Cm pl, ord <> AnyOrder -> inv n s Pm Cm pl ->
  exists Pm' Cm' pl', inv n (step ord s m) Pm' Cm' pl'.
Proof.
  intros ord n s m Pm Cm pl Ho I. destruct m.
  - destruct (prod_inv n s Pm Cm pl a I). eauto.
  - do 3 eexists. apply cons_inv. exact I.
  - destruct (drainp_inv ord n s Pm Cm pl i Ho I) as (? & ? & ? & _). eauto.
  - destruct (drainc_inv ord n s Pm Cm pl i Ho I) as (? & ? & _). eauto.
Qed.

Lemma init_inv : forall (region : list A) c0, 1 <= zlen region < 2 ^ 64 ->
  circular_buf_init region (zlen region) = Some c0 -> inv (zlen region) (weak_init c0) 0 0 [].
Proof.
  intros region c0 Hn E. unfold circular_buf_init in E.
  destruct (Z.leb_spec (zlen region) 0); [lia|]. inversion E; subst c0; clear E.
  constructor; cbn [weak_init circular_buf_reset mem pq cq wp wc wret_p wret_c wbad buffer bufsize head tail];
  unfold nP, nC, nW, xs; cbn; auto; try lia.
  - constructor.
  - intros k a _ H'. destruct (Z.to_nat k); discriminate.
  - exists []. reflexivity.
Qed.

Lemma run_inv : forall ord (region : list A) c0 sch, 1 <= zlen region < 2 ^ 64 ->
  circular_buf_init region (zlen region) = Some c0 -> ord <> AnyOrder ->
  exists Pm Cm pl, inv (zlen region) (weak_run ord c0 sch) Pm Cm pl.
Proof.
  intros ord region c0 sch Hn E Ho. unfold weak_run.
  pose proof (init_inv region c0 Hn E) as I0.
  assert (G : forall sch s, (exists Pm Cm pl, inv (zlen region) s Pm Cm pl) ->
    exists Pm Cm pl, inv (zlen region) (fold_left (step ord) sch s) Pm Cm pl).
  { clear - Ho. intros sch; induction sch as [|m sch IH]; intros s (Pm & Cm & pl & I); cbn; [eauto|].
    apply IH. eapply step_inv; eauto. }
  apply G. eauto.
Qed.

Lemma weak_fifo_l : forall (region : list A) c0 ord sch, 1 <= zlen region < 2 ^ 64 ->
  circular_buf_init region (zlen region) = Some c0 -> ord <> AnyOrder ->
  let s := weak_run ord c0 sch in
  fifo_so_far (zlen region - 1) (wret_p s) (wret_c s) /\ wbad s = false.
Proof.
  intros region c0 ord sch Hn E Ho. destruct (run_inv ord region c0 sch Hn E Ho) as (Pm & Cm & pl & I).
  cbv zeta. pose proof (nW_range (weak_run ord c0 sch)). destruct I. split; auto.
  destruct i_fifo0 as [fl Hfl]. exists fl. split; auto.
  unfold nC, nP in *. rewrite Hfl in *. unfold stored, zlen in *. rewrite app_length in *. lia.
Qed.

(** *** When calls fail *)

Lemma pending_heads : forall n s Pm Cm pl, inv n s Pm Cm pl ->
  zlen (filter is_index (pq s)) = nP s - Pm.
Proof.
  intros n s Pm Cm pl I. pose proof (nW_range s) as HW. destruct I.
  set (odd := map fst (filter (fun e => is_index (snd e)) pl)).
  assert (El : length (filter is_index (pq s)) = length odd).
  { unfold odd. rewrite map_length, <- i_pq0. clear. induction pl as [|e pl IH]; [reflexivity|].
    cbn. destruct (is_index (snd e)); cbn; congruence. }
  assert (Nd : NoDup odd).
  { unfold odd. clear - i_sort0. induction pl as [|e pl IH]; cbn; [constructor|].
    inversion_clear i_sort0 as [|? ? Hs Hf]. destruct (is_index (snd e)); cbn; auto.
    constructor; auto. intros Hi. apply in_map_iff in Hi as (e' & E & Hi). apply filter_In in Hi as [Hi _].
    rewrite Forall_forall in Hf. specialize (Hf _ Hi). lia. }
  assert (Eo : forall x, In x odd <-> In x (map (fun i => 2 * (Pm + Z.of_nat i) + 1) (seq 0 (Z.to_nat (nP s - Pm))))).
  { intros x. unfold odd. rewrite !in_map_iff. split.
    - intros ((t & y) & <- & Hi). apply filter_In in Hi as [Hi Hy]. cbn [fst snd] in *.
      rewrite Forall_forall in i_rng0, i_tag0. specialize (i_rng0 _ Hi). specialize (i_tag0 _ Hi).
      cbn [fst] in i_rng0. destruct y; cbn in Hy; [|destruct i_tag0|discriminate].
      destruct i_tag0 as (k & Ek & _). cbn [fst] in Ek. exists (Z.to_nat (k - Pm)).
      rewrite in_seq. split; zl.
    - intros (i & <- & Hi). apply in_seq in Hi.
      exists (2 * (Pm + Z.of_nat i) + 1, SHead ((Pm + Z.of_nat i + 1) mod n)). split; [reflexivity|].
      apply filter_In. split; [|reflexivity]. apply i_heads0. zl. }
  assert (Nd' : NoDup (map (fun i => 2 * (Pm + Z.of_nat i) + 1) (seq 0 (Z.to_nat (nP s - Pm))))).
  { apply FinFun.Injective_map_NoDup; [|apply seq_NoDup]. intros a b. lia. }
  pose proof (Permutation_length (NoDup_Permutation Nd Nd' Eo)) as L.
  rewrite map_length, seq_length in L. unfold zlen. rewrite El, L. zl.
Qed.

Lemma pending_tails : forall n s Pm Cm pl, inv n s Pm Cm pl ->
  zlen (filter is_index (cq s)) = nC s - Cm.
Proof.
  intros n s Pm Cm pl []. rewrite i_cq0. unfold tails, zlen.
  replace (length _) with (Z.to_nat (nC s - Cm)); [zl|].
  rewrite <- (seq_length (Z.to_nat (nC s - Cm)) 0) at 1. generalize (seq 0 (Z.to_nat (nC s - Cm))). clear.
  intros l; induction l; cbn; congruence.
Qed.

Lemma putc_answer_l : forall (region : list A) c0 ord sch a0 a h, 1 <= zlen region < 2 ^ 64 ->
  circular_buf_init region (zlen region) = Some c0 -> ord <> AnyOrder ->
  let s := weak_run ord c0 sch in
  wp s = PFull1 a h ->
  wret_p (step ord s (Produce a0)) =
    if zlen (accepted (wret_p s)) - known_delivered s =? zlen region - 1
    then wret_p s ++ [(Putc a, (-1, []))] else wret_p s.
Proof.
  intros region c0 ord sch a0 a h Hn E Ho s Hp.
  destruct (run_inv ord region c0 sch Hn E Ho) as (Pm & Cm & pl & I). fold s in I.
  cbn [step]. unfold prod_move. rewrite Hp. pose proof (i_pp _ _ _ _ _ I) as Ep. rewrite Hp in Ep.
  rewrite Ep, (full_ok _ s Pm Cm pl I). unfold known_delivered. rewrite (pending_tails _ s Pm Cm pl I).
  fold (nC s) (nP s).
  destruct (Z.eqb_spec (nP s) (Cm + zlen region - 1)), (Z.eqb_spec (nP s - (nC s - (nC s - Cm))) (zlen region - 1));
  try lia; reflexivity.
Qed.

Lemma idle_consumer : forall ord (s : weak A) m, not_consumer m ->
  wc (step ord s m) = wc s /\ wret_c (step ord s m) = wret_c s.
Proof.
  intros ord s m H. destruct m as [a| |i|i]; [|now contradiction H| |]; cbn [step].
  - unfold prod_move. destruct (wp s); try (split; reflexivity);
    try (destruct (nxt _ _ =? _); split; reflexivity).
    destruct (zset _ _ _); split; reflexivity.
  - destruct (drain _ _ _ _). split; reflexivity.
  - destruct (drain _ _ _ _). split; reflexivity.
Qed.

Lemma getc_answer_l : forall (region : list A) c0 ord sch others, 1 <= zlen region < 2 ^ 64 ->
  circular_buf_init region (zlen region) = Some c0 -> ord <> AnyOrder ->
  let s := weak_run ord c0 sch in
  wc s = CEmpty0 -> Forall not_consumer others ->
  wret_c (weak_run ord c0 (sch ++ [Consume] ++ others ++ [Consume])) =
    if known_accepted s =? zlen (delivered (wret_c s))
    then wret_c s ++ [(Getc, (-1, []))] else wret_c s.
Proof.
  intros region c0 ord sch others Hn E Ho s Hc Hoth.
  destruct (run_inv ord region c0 sch Hn E Ho) as (Pm & Cm & pl & I). fold s in I.
  unfold known_accepted. rewrite (pending_heads _ s Pm Cm pl I).
  rewrite !app_assoc. unfold weak_run. rewrite fold_left_app. cbn [fold_left step].
  fold (weak_run ord c0 ((sch ++ [Consume]) ++ others)).
  destruct (run_inv ord region c0 ((sch ++ [Consume]) ++ others) Hn E Ho) as (Pm2 & Cm2 & pl2 & I2).
  assert (G : wc (weak_run ord c0 ((sch ++ [Consume]) ++ others)) = CEmpty1 (Pm mod zlen region) /\
              wret_c (weak_run ord c0 ((sch ++ [Consume]) ++ others)) = wret_c s).
  { unfold weak_run. rewrite !fold_left_app. fold (weak_run ord c0 sch). fold s. cbn [fold_left step].
    assert (H1 : wc (cons_move s) = CEmpty1 (Pm mod zlen region) /\ wret_c (cons_move s) = wret_c s).
    { unfold cons_move. rewrite Hc, (view_c_head _ s Pm Cm pl I). split; reflexivity. }
    revert H1. generalize (cons_move s). clear - Hoth.
    induction Hoth as [|m l Hm Hl IH]; intros t H1; cbn [fold_left]; auto.
    apply IH. destruct (idle_consumer ord t m Hm) as [-> ->]. exact H1. }
  destruct G as [G1 G2]. unfold cons_move. rewrite G1, (view_c_tail _ _ _ _ _ I2).
  unfold nC. rewrite G2. fold (nC s). fold (nP s).
  assert (Hd : (Pm mod zlen region =? nC s mod zlen region) = (nP s - (nP s - Pm) =? nC s)).
  { pose proof (nW_range s) as HW. destruct I. apply Bool.eq_iff_eq_true. rewrite !Z.eqb_eq. split; intros E'.
    - apply mod_inj in E'; [zl|zl|]. zl.
    - f_equal. zl. }
  rewrite Hd. destruct (nP s - (nP s - Pm) =? nC s); cbn [wret_c c_ret c_at]; rewrite ?G2; reflexivity.
Qed.

(** *** Nobody touches a cell the other is using *)

Lemma weak_race_free_l : forall (region : list A) c0 ord sch j, 1 <= zlen region < 2 ^ 64 ->
  circular_buf_init region (zlen region) = Some c0 -> ord <> AnyOrder ->
  let s := weak_run ord c0 sch in
  wc s = CCell1 j ->
  (forall a, ~ In (SCell j a) (pq s)) /\ (forall a, wp s <> PCell1 a j).
Proof.
  intros region c0 ord sch j Hn E Ho s Hc.
  destruct (run_inv ord region c0 sch Hn E Ho) as (Pm & Cm & pl & I). fold s in I.
  pose proof (nW_range s) as HW. destruct I. rewrite Hc in i_cp0. destruct i_cp0 as [Hr ->]. split.
  - intros a Hi. rewrite <- i_pq0 in Hi. apply in_map_iff in Hi as ((t & x) & Ex & Hi). cbn in Ex. subst x.
    rewrite Forall_forall in i_rng0, i_tag0. specialize (i_rng0 _ Hi). specialize (i_tag0 _ Hi).
    destruct i_tag0 as (k & Ek & Em & _). cbn [fst] in *. apply mod_inj in Em; [zl|zl|zl].
  - intros a Ep. rewrite Ep in i_pp0. destruct i_pp0 as [Hl Em]. apply mod_inj in Em; [zl|zl|zl].
Qed.

(** *** A quiet system is an ordinary buffer *)

Lemma weak_quiet_l : forall (region : list A) c0 ord sch, 1 <= zlen region <= INT_MAX ->
  circular_buf_init region (zlen region) = Some c0 -> ord <> AnyOrder ->
  let s := weak_run ord c0 sch in
  pq s = [] -> cq s = [] -> wp s = PIdle ->
  exists fl, accepted (wret_p s) = delivered (wret_c s) ++ fl /\
    forall ops, all_sane (zlen region - 1) fl ops ->
      exists c, cbuf_run (mem s) ops = Done (c, fifo_run (zlen region - 1) fl ops).
Proof.
  intros region c0 ord sch Hn E Ho s Hp Hc Hw.
  destruct (run_inv ord region c0 sch ltac:(unfold INT_MAX in Hn; lia) E Ho) as (Pm & Cm & pl & I). fold s in I.
  pose proof (nP_xs s) as HW. rewrite Hw in HW. cbn [written] in HW. change (zlen (@nil A)) with 0 in HW.
  pose proof (pending_heads _ s Pm Cm pl I) as Eh. pose proof (pending_tails _ s Pm Cm pl I) as Et.
  rewrite Hp in Eh. rewrite Hc in Et. change (zlen (filter is_index (@nil (store A)))) with 0 in Eh, Et.
  destruct I. rewrite Hp in i_pq0. destruct pl; [|discriminate].
  destruct i_fifo0 as [fl Hfl]. exists fl. split; auto. intros ops Hs.
  assert (Hz : nP s = nC s + zlen fl) by (unfold nP, nC, zlen; rewrite Hfl, app_length; lia).
  assert (R : rep (mem s) fl).
  { split; [|rewrite i_size0; zl]. constructor.
    - constructor; rewrite ?i_size0; auto; rewrite ?i_head0, ?i_tail0; apply Z.mod_pos_bound; zl.
    - rewrite i_size0. zl.
    - rewrite i_size0, i_head0, i_tail0, Zplus_mod_idemp_l. f_equal. zl.
    - rewrite i_size0, i_tail0. intros i Hi.
      destruct (nth_error fl i) as [a|] eqn:Ei; [|apply nth_error_None in Ei; zl].
      destruct (i_cells0 (nC s + Z.of_nat i) a) as [[]|Hm]; [zl| |].
      + unfold xs. rewrite Hw, app_nil_r, Hfl. rewrite nth_error_app2 by (unfold nC, zlen; zl).
        rewrite <- Ei. f_equal. unfold nC, zlen. zl.
      + rewrite <- Hm, Zplus_mod_idemp_l. do 3 f_equal. zl. }
  rewrite <- i_size0 in Hs. destruct (run_sim ops (mem s) fl R Hs) as (c & Ec & _).
  exists c. rewrite Ec, i_size0. reflexivity.
Qed.

End WeakProofs.
