From Coq Require Import ZifyBool ZifyNat.
From Verif Require Import Base BaseLemmas CbufModel CbufSpec CbufSystem CbufProofs WeakModel BulkModel BulkSpec BulkSystem BulkProofs BulkWeakModel.

(** * What a core sees *)
Section Views.
Context {A : Type}.

Definition put (l : list A) (i : Z) (a : A) : list A := match zset l i a with Done b => b | _ => l end.

Lemma perform_cell : forall i a (m : cbuf A), perform (SCell i a) m = with_buffer m (put (buffer m) i a).
Proof. intros i a [b n h t]. unfold perform, put. cbn [buffer]. destruct (zset b i a); reflexivity. Qed.

Lemma upd_comm : forall (l : list A) i j a b, i <> j -> upd (upd l i a) j b = upd (upd l j b) i a.
Proof. induction l as [|x l IH]; intros [|i] [|j] a b H; cbn; auto; [congruence|]. f_equal. apply IH. congruence. Qed.

Lemma put_len : forall (l : list A) i a, zlen (put l i a) = zlen l.
Proof. intros. unfold put, zset. destruct ((i <? 0) || (zlen l <=? i)); [reflexivity|apply zlen_upd]. Qed.

Lemma put_comm : forall (l : list A) i j a b, i <> j -> put (put l i a) j b = put (put l j b) i a.
Proof.
  intros l i j a b H. unfold put at 1 3. unfold zset. rewrite !put_len. unfold put, zset.
  destruct (Z.ltb_spec i 0), (Z.leb_spec (zlen l) i), (Z.ltb_spec j 0), (Z.leb_spec (zlen l) j); cbn [orb]; auto.
  apply upd_comm. lia.
Qed.

Lemma put_other : forall (l : list A) i a j, 0 <= j -> i <> j -> nth_error (put l i a) (Z.to_nat j) = nth_error l (Z.to_nat j).
Proof.
  intros l i a j Hj H. unfold put, zset. destruct (Z.ltb_spec i 0); [reflexivity|]. destruct (Z.leb_spec (zlen l) i); [reflexivity|].
  cbn [orb]. apply nth_error_upd_neq. lia.
Qed.

Lemma perform_comm : forall x y (m : cbuf A), same_place x y = false -> perform x (perform y m) = perform y (perform x m).
Proof.
  intros [h|t|i a] [h'|t'|j b] m H; cbn [same_place] in H; try discriminate H; rewrite ?perform_cell; try reflexivity.
  unfold with_buffer. cbn [buffer bufsize head tail]. f_equal. apply put_comm. lia.
Qed.

Lemma seen_app : forall q r (m : cbuf A), seen (q ++ r) m = seen r (seen q m).
Proof. intros. apply fold_left_app. Qed.

Lemma seen_older : forall q x (m : cbuf A), existsb (same_place x) q = false -> seen q (perform x m) = perform x (seen q m).
Proof.
  induction q as [|y q IH]; intros x m H; [reflexivity|]. cbn [existsb] in H. apply orb_false_iff in H as [H1 H2].
  cbn [seen fold_left]. fold (seen q (perform y (perform x m))). fold (seen q (perform y m)). rewrite <- perform_comm by exact H1. now apply IH.
Qed.

(** A store reaching the memory. *)
Lemma drain_cases : forall ord q i (m : cbuf A) q' m', drain ord q i m = (q', m') ->
  q' = q /\ m' = m \/
  exists older x newer, q = older ++ x :: newer /\ q' = older ++ newer /\ m' = perform x m /\ existsb (same_place x) older = false /\
    (ord <> AnyOrder -> is_index x = true -> older = []).
Proof.
  intros ord q i m q' m' H. unfold drain in H. destruct (nth_error q i) as [x|] eqn:E; [|injection H as <- <-; now left].
  destruct (may_go ord (firstn i q) x) eqn:G; [|injection H as <- <-; now left]. injection H as <- <-. right.
  exists (firstn i q), x, (skipn (S i) q). split.
  { clear G. revert q E. induction i as [|i IH]; intros [|y q] E; try discriminate E; cbn in *; [now injection E as ->|]. f_equal. now apply IH. }
  split; [reflexivity|]. split; [reflexivity|]. unfold may_go in G. destruct ord.
  - destruct (firstn i q); [|discriminate G]. split; reflexivity.
  - apply andb_true_iff in G as [G1 G2]. split; [now apply negb_true_iff|]. intros _ Hx. rewrite Hx in G2. cbn [negb orb] in G2. now destruct (firstn i q).
  - split; [now apply negb_true_iff|]. intros []. reflexivity.
Qed.

Lemma drain_view : forall ord q i (m : cbuf A) q' m', drain ord q i m = (q', m') -> seen q' m' = seen q m.
Proof.
  intros ord q i m q' m' H. apply drain_cases in H as [[-> ->]|(older & x & newer & -> & -> & -> & H & _)]; [reflexivity|].
  rewrite !seen_app. cbn [seen fold_left]. fold (seen newer (perform x (seen older m))). fold (seen older (perform x m)).
  now rewrite <- seen_older.
Qed.

(** The stores of the steps are what the steps of [BulkModel] do. *)
Lemma pstore_ok : forall (c : cbuf A) pc, match pnext c pc with Go c' _ | Ret c' _ _ => c' = seen (pstore c pc) c | Bad => True end.
Proof.
  intros c pc. destruct pc; cbn [pnext pstore seen fold_left]; try reflexivity.
  - destruct (after c h 1 =? tail c); reflexivity.
  - cbn [perform]. destruct (zset (buffer c) h a); auto.
  - destruct (after c h 1 =? tail c); reflexivity.
  - destruct (negb (after c h 1 =? tail c) && (0 <? u_len l)); reflexivity.
  - destruct (i <? chunk); [|reflexivity]. destruct (zget (u_data l) i) as [a| | |]; auto. cbn [fold_left perform]. destruct (zset (buffer c) (u_head l + i) a); auto.
  - destruct ((after c h 1 =? tail c) || (chunk =? 0)); reflexivity.
Qed.

Lemma cstore_ok : forall (c : cbuf A) pc, match cnext c pc with Go c' _ | Ret c' _ _ => c' = seen (cstore c pc) c | Bad => True end.
Proof.
  intros c pc. destruct pc; cbn [cnext cstore seen fold_left]; try reflexivity.
  - destruct (h =? tail c); reflexivity.
  - destruct (zget (buffer c) t); auto.
  - destruct (0 <? g_len l); reflexivity.
  - destruct (i <? chunk); [|reflexivity]. destruct (zget (buffer c) (g_tail l + i)); auto.
  - destruct consume; reflexivity.
Qed.

Lemma pstore_shape : forall (c : cbuf A) pc,
  pstore c pc = [] \/ (exists i a, pstore c pc = [SCell i a] /\ writes pc = Some i) \/ (exists h, pstore c pc = [SHead h]).
Proof.
  intros c pc. destruct pc; cbn [pstore writes]; auto; try (right; right; now eexists); [right; left; now repeat eexists|].
  destruct (i <? chunk); [|auto]. destruct (zget (u_data l) i); auto. right. left. now repeat eexists.
Qed.

Lemma cstore_shape : forall (c : cbuf A) pc, cstore c pc = [] \/ exists t, cstore c pc = [STail t].
Proof. intros c pc. destruct pc; cbn [cstore]; auto; right; now eexists. Qed.

End Views.

(** * The invariant *)
Section BulkWeakProofs.
Context {A : Type}.
Variable n : Z.
Hypothesis Hn : 1 <= n <= INT_MAX.

(** The pending stores of the producer: heads from [H] on up to [Hend], cells not yet published and free. *)
Fixpoint heads (Tm H : Z) (q : list (store A)) (Hend : Z) : Prop :=
  match q with
  | [] => H = Hend
  | SHead h :: r => exists H', H <= H' /\ h = H' mod n /\ heads Tm H' r Hend
  | SCell i _ :: r => (exists P, i = P mod n /\ H <= P <= Tm + n - 2) /\ heads Tm H r Hend
  | STail _ :: _ => False
  end.

Fixpoint tails (T : Z) (q : list (store A)) (Tend : Z) : Prop :=
  match q with
  | [] => T = Tend
  | STail t :: r => exists T', T <= T' /\ t = T' mod n /\ tails T' r Tend
  | _ :: _ => False
  end.

Lemma heads_le : forall q Tm H Hend, heads Tm H q Hend -> H <= Hend.
Proof using Hn. induction q as [|[h|t|i a] q IH]; cbn [heads]; intros Tm H Hend K; [lia| | |]; [destruct K as (H' & L & _ & K); apply IH in K; lia|contradiction|destruct K as [_ K]; now apply IH in K]. Qed.

Lemma tails_le : forall q T Tend, tails T q Tend -> T <= Tend.
Proof using Hn. induction q as [|[h|t|i a] q IH]; cbn [tails]; intros T Tend K; [lia| | |]; try contradiction. destruct K as (T' & L & _ & K); apply IH in K; lia. Qed.

Lemma heads_mono : forall q Tm Tm' H Hend, Tm <= Tm' -> heads Tm H q Hend -> heads Tm' H q Hend.
Proof using Hn.
  induction q as [|[h|t|i a] q IH]; cbn [heads]; intros Tm Tm' H Hend L K; auto.
  - destruct K as (H' & K1 & K2 & K3). exists H'. eauto.
  - destruct K as [(P & K1 & K2) K3]. split; [|eauto]. exists P. split; [exact K1|lia].
Qed.

Lemma heads_snoc_head : forall q Tm H Hend h Hend', heads Tm H q Hend -> Hend <= Hend' -> h = Hend' mod n -> heads Tm H (q ++ [SHead h]) Hend'.
Proof using Hn.
  induction q as [|[h0|t|i a] q IH]; cbn [heads app]; intros Tm H Hend h Hend' K L E.
  - subst H. exists Hend'. auto.
  - destruct K as (H' & K1 & K2 & K3). exists H'. eauto.
  - contradiction.
  - destruct K as [K1 K2]. eauto.
Qed.

Lemma heads_snoc_cell : forall q Tm H Hend i a P, heads Tm H q Hend -> i = P mod n -> Hend <= P <= Tm + n - 2 -> heads Tm H (q ++ [SCell i a]) Hend.
Proof using Hn.
  induction q as [|[h0|t|j b] q IH]; cbn [heads app]; intros Tm H Hend i a P K E L.
  - subst H. split; [|reflexivity]. exists P. auto.
  - destruct K as (H' & K1 & K2 & K3). exists H'. eauto.
  - contradiction.
  - destruct K as [K1 K2]. eauto.
Qed.

Lemma tails_snoc : forall q T Tend t Tend', tails T q Tend -> Tend <= Tend' -> t = Tend' mod n -> tails T (q ++ [STail t]) Tend'.
Proof using Hn.
  induction q as [|[h0|t0|j b] q IH]; cbn [tails app]; intros T Tend t Tend' K L E; try contradiction.
  - subst T. exists Tend'. auto.
  - destruct K as (T' & K1 & K2 & K3). exists T'. eauto.
Qed.

Lemma heads_cell : forall older Tm H i a newer Hend, heads Tm H (older ++ SCell i a :: newer) Hend ->
  heads Tm H (older ++ newer) Hend /\ exists P, i = P mod n /\ H <= P <= Tm + n - 2.
Proof using Hn.
  induction older as [|[h0|t|j b] q IH]; cbn [heads app]; intros Tm H i a newer Hend K.
  - destruct K. auto.
  - destruct K as (H' & K1 & K2 & K3). apply IH in K3 as (K3 & P & K4 & K5). split; [eauto|]. exists P. split; [exact K4|lia].
  - contradiction.
  - destruct K as [K1 K2]. apply IH in K2 as (K2 & K3). auto.
Qed.

Lemma heads_no_tail : forall q Tm H Hend t, heads Tm H q Hend -> existsb (same_place (STail t)) q = false.
Proof using Hn.
  induction q as [|[h0|t0|j b] q IH]; cbn [heads existsb same_place]; intros Tm H Hend t K; auto; [|contradiction|].
  - destruct K as (H' & K1 & K2 & K3). now rewrite (IH _ _ _ t K3).
  - destruct K as [K1 K2]. now rewrite (IH _ _ _ t K2).
Qed.

Lemma heads_seen : forall q Tm H Hend (m : cbuf A), heads Tm H q Hend ->
  let v := seen q m in
  bufsize v = bufsize m /\ zlen (buffer v) = zlen (buffer m) /\ tail v = tail m /\ (head m = H mod n -> head v = Hend mod n) /\
  forall j, Tm <= j < H -> nth_error (buffer v) (Z.to_nat (j mod n)) = nth_error (buffer m) (Z.to_nat (j mod n)).
Proof using Hn.
  induction q as [|[h0|t0|i b] q IH]; cbn [heads]; intros Tm H Hend m K.
  - subst H. cbn. repeat split; auto.
  - destruct K as (H' & K1 & K2 & K3). cbn [seen fold_left]. fold (seen q (perform (SHead h0) m)). specialize (IH _ _ _ (perform (SHead h0) m) K3). cbv zeta in *.
    cbn [perform with_head bufsize buffer tail head] in IH. destruct IH as (I1 & I2 & I3 & I4 & I5). repeat split; auto. intros j Hj. apply I5. lia.
  - contradiction.
  - destruct K as [(P & K1 & K2) K3]. cbn [seen fold_left]. fold (seen q (perform (SCell i b) m)). specialize (IH _ _ _ (perform (SCell i b) m) K3). cbv zeta in *.
    rewrite perform_cell in *. cbn [with_buffer bufsize buffer tail head] in IH. rewrite put_len in IH. destruct IH as (I1 & I2 & I3 & I4 & I5). repeat split; auto.
    intros j Hj. rewrite I5 by exact Hj. pose proof (ring_range n j ltac:(lia)). apply put_other; [lia|]. subst i. intros E. apply ring_eq in E; lia.
Qed.

Lemma tails_seen : forall q T Tend (m : cbuf A), tails T q Tend ->
  let v := seen q m in
  bufsize v = bufsize m /\ buffer v = buffer m /\ head v = head m /\ (tail m = T mod n -> tail v = Tend mod n).
Proof using Hn.
  induction q as [|[h0|t0|i b] q IH]; cbn [tails]; intros T Tend m K; try contradiction.
  - subst T. cbn. auto.
  - destruct K as (T' & K1 & K2 & K3). cbn [seen fold_left]. fold (seen q (perform (STail t0) m)). specialize (IH _ _ (perform (STail t0) m) K3). cbv zeta in *.
    cbn [perform with_tail bufsize buffer tail head] in IH. destruct IH as (I1 & I2 & I3 & I4). auto.
Qed.

(** What the consumer can see of the stream. *)
Definition shown (s : wsys A) (pub : list A) : list A := firstn (Z.to_nat (arrived s)) pub.

Definition producing (b pub : list A) (T : Z) (t : thread A (ppc A)) : Prop :=
  produced (n - 1) 0 (returned t) /\
  match running t with
  | None => pub = sent (returned t)
  | Some (o, pc) => pinv n b pub (sent (returned t)) T o pc /\ began t <= T /\ steps t + pcost pc <= 9 * asked o + 4 /\ 0 < pcost pc
  end.

Definition consuming (pub : list A) (T : Z) (t : thread A (cpc A)) : Prop :=
  consumed pub 0 (returned t) /\ 0 <= taken (returned t) /\
  match running t with
  | None => T = taken (returned t)
  | Some (o, pc) => cinv n pub T (taken (returned t)) (began t) o pc /\ began t <= zlen pub /\ steps t + ccost pc <= 6 * asked o + 7 /\ 0 < ccost pc
  end.

Record winv (s : wsys A) (pub : list A) (T : Z) : Prop := mkWinv {
  i_core : core n (p_view s) pub (freed s);
  i_heads : heads (freed s) (arrived s) (p_queue s) (zlen pub);
  i_tails : tails (freed s) (c_queue s) T;
  i_order : T <= arrived s;
  i_head : head (memory s) = arrived s mod n;
  i_wrong : wrong s = false;
  i_prod : producing (buffer (p_view s)) pub (freed s) (w_producer s);
  i_cons : consuming (shown s pub) T (w_consumer s) }.

Lemma shown_len : forall s pub T, winv s pub T -> zlen (shown s pub) = arrived s.
Proof using Hn.
  intros s pub T I. unfold shown. pose proof (heads_le _ _ _ _ (i_heads _ _ _ I)). pose proof (tails_le _ _ _ (i_tails _ _ _ I)).
  pose proof (i_order _ _ _ I). pose proof (c_taken _ _ _ _ (i_core _ _ _ I)). apply zlen_firstn. lia.
Qed.

(** The consumer sees an ordinary buffer, too. *)
Lemma consumer_core : forall s pub T, winv s pub T -> core n (c_view s) (shown s pub) T.
Proof using Hn.
  intros s pub T I. pose proof (shown_len _ _ _ I) as El. pose proof (i_core _ _ _ I) as C.
  pose proof (heads_le _ _ _ _ (i_heads _ _ _ I)) as L1. pose proof (tails_le _ _ _ (i_tails _ _ _ I)) as L2. pose proof (i_order _ _ _ I) as L3.
  destruct (heads_seen _ _ _ _ (memory s) (i_heads _ _ _ I)) as (V1 & V2 & V3 & V4 & V5). fold (p_view s) in *.
  destruct (tails_seen _ _ _ (memory s) (i_tails _ _ _ I)) as (W1 & W2 & W3 & W4). fold (c_view s) in *.
  pose proof (c_taken _ _ _ _ C). pose proof (c_room _ _ _ _ C). split.
  - rewrite W1, <- V1. apply C.
  - rewrite W2, <- V2. apply C.
  - rewrite W3, El. apply I.
  - apply W4. rewrite <- V3. apply C.
  - lia.
  - lia.
  - intros j Hj. rewrite El in Hj. rewrite W2, <- V5 by lia. rewrite (c_cells _ _ _ _ C) by lia. unfold shown.
    rewrite nth_error_firstn. destruct (Nat.ltb_spec (Z.to_nat j) (Z.to_nat (arrived s))); [reflexivity|lia].
Qed.

Lemma wstart_inv : forall (region : list A) c, zlen region = n -> circular_buf_init region n = Some c -> winv (wstart c) [] 0.
Proof using Hn.
  intros region c Hl H. destruct (start_inv n Hn region c Hl H) as (pub & T & C & _ & (P1 & P2) & _). cbn in P2. subst pub.
  assert (T = 0) by (pose proof (c_taken _ _ _ _ C) as K; cbn in K; lia). subst T.
  unfold wstart. split; cbn [p_view p_queue memory freed arrived c_queue seen fold_left wrong w_producer w_consumer heads tails]; auto; try lia.
  - apply C.
  - split; [exact Logic.I|reflexivity].
  - split; [exact Logic.I|]. split; [apply Z.le_refl|reflexivity].
Qed.

Lemma prefix_le : forall (pub x : list A) k, 0 <= k <= zlen pub -> firstn (Z.to_nat k) (pub ++ x) = firstn (Z.to_nat k) pub.
Proof using Hn.
  intros pub x k H. rewrite firstn_app. replace (Z.to_nat k - length pub)%nat with 0%nat by (unfold zlen in H; lia). cbn [firstn]. apply app_nil_r.
Qed.

(** A step of the producer that leaves its view and the stream [pub ++ x]. *)
Lemma producer_queue : forall s pub T pc o x c', winv s pub T -> running (w_producer s) = Some (o, pc) ->
  c' = seen (pstore (p_view s) pc) (p_view s) -> core n c' (pub ++ x) (freed s) ->
  heads (freed s) (arrived s) (p_queue s ++ pstore (p_view s) pc) (zlen (pub ++ x)).
Proof using Hn.
  intros s pub T pc o x c' I Hr Ec C'. pose proof (i_core _ _ _ I) as C. pose proof (i_heads _ _ _ I) as K.
  pose proof (c_taken _ _ _ _ C). pose proof (c_room _ _ _ _ C). pose proof (c_taken _ _ _ _ C') as Q1. pose proof (c_room _ _ _ _ C') as Q2.
  pose proof (zlen_app _ pub x) as Ex. pose proof (zlen_nonneg _ x) as Hx.
  pose proof (c_head _ _ _ _ C) as E1. pose proof (c_head _ _ _ _ C') as E2.
  assert (Same : head c' = head (p_view s) -> zlen (pub ++ x) = zlen pub) by (intros E; rewrite E1, E2 in E; apply ring_eq in E; lia).
  destruct (pstore_shape (p_view s) pc) as [E|[(i & a & E & W)|(h & E)]]; rewrite E in *.
  - rewrite app_nil_r. rewrite Same; [exact K|]. now rewrite Ec.
  - rewrite Same by (rewrite Ec; cbn [seen fold_left]; now rewrite perform_cell).
    destruct (i_prod _ _ _ I) as (_ & P). rewrite Hr in P. destruct (writes_l n Hn _ _ _ _ _ _ _ (proj1 P) W) as (q & -> & Hq).
    apply (heads_snoc_cell _ _ _ _ _ _ q K); [reflexivity|lia].
  - apply (heads_snoc_head _ _ _ _ _ _ K); [lia|]. rewrite <- E2, Ec. reflexivity.
Qed.

Lemma consumer_queue : forall s pub T pc k c', winv s pub T ->
  c' = seen (cstore (c_view s) pc) (c_view s) -> 0 <= k -> core n c' (shown s pub) (T + k) ->
  tails (freed s) (c_queue s ++ cstore (c_view s) pc) (T + k).
Proof using Hn.
  intros s pub T pc k c' I Ec Hk C'. pose proof (consumer_core _ _ _ I) as C. pose proof (i_tails _ _ _ I) as K.
  pose proof (c_taken _ _ _ _ C). pose proof (c_room _ _ _ _ C). pose proof (c_taken _ _ _ _ C') as Q1. pose proof (c_room _ _ _ _ C') as Q2.
  pose proof (c_tail _ _ _ _ C) as E1. pose proof (c_tail _ _ _ _ C') as E2.
  destruct (cstore_shape (c_view s) pc) as [E|(t & E)]; rewrite E in *.
  - rewrite app_nil_r. assert (E3 : T + k = T) by (rewrite Ec in E2; cbn [seen fold_left] in E2; rewrite E1 in E2; symmetry in E2; apply ring_eq in E2; lia).
    rewrite E3. exact K.
  - apply (tails_snoc _ _ _ _ _ K); [lia|]. rewrite <- E2, Ec. reflexivity.
Qed.

Lemma wstep_inv : forall ord s s', ord <> AnyOrder -> (exists pub T, winv s pub T) -> wstep ord s s' -> exists pub T, winv s' pub T.
Proof using Hn.
  intros ord s s' Ho (pub & T & I) St. pose proof (consumer_core _ _ _ I) as Cc. pose proof (shown_len _ _ _ I) as El.
  pose proof (heads_le _ _ _ _ (i_heads _ _ _ I)) as L1. pose proof (tails_le _ _ _ (i_tails _ _ _ I)) as L2. pose proof (i_order _ _ _ I) as L3.
  pose proof (c_taken _ _ _ _ (i_core _ _ _ I)) as L4. pose proof (c_room _ _ _ _ (i_core _ _ _ I)) as L5.
  destruct I as [C Kh Kt _ Hh Hw Pp Pc].
  destruct St as [o pc Hr Hc|o pc Hr m|o pc Hr Hc|o pc Hr m|i q m Hd|i q m Hd].
  - (* call of the producer *)
    exists pub, T. split; auto. destruct Pp as [P1 P2]. rewrite Hr in P2. cbn [p_view p_queue memory w_producer freed]. split; cbn [returned running began steps]; [exact P1|].
    destruct o; try contradiction; cbn [pcall] in Hc.
    + subst pc. cbn [pinv pcost asked]. repeat split; auto; lia.
    + destruct Hc as (-> & H1 & H2). cbn [pinv pcost asked]. unfold room in H1.
      rewrite (c_head _ _ _ _ C), (c_tail _ _ _ _ C), (c_size _ _ _ _ C), ring_room in H1 by lia. repeat split; auto; lia.
  - (* step of the producer *)
    pose proof (mkWinv s pub T C Kh Kt L3 Hh Hw Pp Pc) as I.
    destruct Pp as [P1 P2]. rewrite Hr in P2. destruct P2 as (P2 & P3 & P4 & P5).
    pose proof (pnext_ok n Hn _ _ _ _ _ _ C P2) as N. pose proof (pstore_ok (p_view s) pc) as E. fold m in N, E.
    destruct m as [c' pc'|c' r d|]; [| |contradiction].
    + destruct N as (x & C' & N & Hcost). exists (pub ++ x), T. pose proof (producer_queue s pub T pc o x c' I Hr E C') as Q.
      split; cbn [freed arrived p_queue c_queue memory wrong w_producer w_consumer]; auto.
      * unfold p_view at 1. cbn [p_queue memory]. rewrite seen_app. fold (p_view s). rewrite <- E. exact C'.
      * now rewrite Hw.
      * unfold p_view at 1. cbn [p_queue memory]. rewrite seen_app. fold (p_view s). rewrite <- E. cbn [moved]. split; cbn [returned running began steps]; [exact P1|]. repeat split; auto; lia.
      * unfold shown. cbn [arrived]. rewrite prefix_le by lia. exact Pc.
    + destruct N as (x & C' & N & R & Hcost). exists (pub ++ x), T. pose proof (producer_queue s pub T pc o x c' I Hr E C') as Q.
      split; cbn [freed arrived p_queue c_queue memory wrong w_producer w_consumer]; auto.
      * unfold p_view at 1. cbn [p_queue memory]. rewrite seen_app. fold (p_view s). rewrite <- E. exact C'.
      * now rewrite Hw.
      * cbn [moved]. split; cbn [returned running began steps].
        -- apply (produced_snoc n Hn); [exact P1|]. unfold presult in R. destruct o; try contradiction; auto. rewrite Z.add_0_l. intuition lia.
        -- rewrite (sent_app n Hn). cbn [sent flat_map]. rewrite app_nil_r. apply N.
      * unfold shown. cbn [arrived]. rewrite prefix_le by lia. exact Pc.
  - (* call of the consumer *)
    exists pub, T. split; auto. destruct Pc as (K1 & K2 & K3). rewrite Hr in K3. cbn [w_consumer]. unfold shown. cbn [arrived]. fold (shown s pub). split; cbn [returned running began steps]; [exact K1|]. split; [exact K2|].
    pose proof (c_size _ _ _ _ Cc) as Cs. rewrite El. unfold INT_MAX in Hn.
    destruct o; try contradiction; cbn [ccall] in Hc; try (subst pc; cbn [cinv ccost asked]; repeat split; auto; lia);
      destruct Hc as (-> & H1); rewrite Cs in H1; rewrite wrap64_small by lia; cbn [cinv ccost asked]; repeat split; auto; lia.
  - (* step of the consumer *)
    pose proof (mkWinv s pub T C Kh Kt L3 Hh Hw Pp Pc) as I.
    destruct Pc as (K1 & K2 & K3). rewrite Hr in K3. destruct K3 as (K3 & K4 & K5 & K6).
    pose proof (cnext_ok n Hn (c_view s) _ T _ _ o pc Cc K4 K3) as N. pose proof (cstore_ok (c_view s) pc) as E. fold m in N, E.
    destruct m as [c' pc'|c' r d|]; [| |contradiction].
    + destruct N as (k & Hk & C' & Eb & N & Hcost). exists pub, (T + k). pose proof (consumer_queue s pub T pc k c' I E Hk C') as Q.
      pose proof (c_taken _ _ _ _ C') as L6. rewrite El in L6.
      split; cbn [freed arrived p_queue c_queue memory wrong w_producer w_consumer]; auto.
      * lia.
      * now rewrite Hw.
      * unfold shown. cbn [arrived]. fold (shown s pub). cbn [moved]. split; cbn [returned running began steps]; [exact K1|]. repeat split; auto; lia.
    + destruct N as (k & Hk & C' & Eb & N & R & Hcost). exists pub, (T + k). pose proof (consumer_queue s pub T pc k c' I E Hk C') as Q.
      pose proof (c_taken _ _ _ _ C') as L6. rewrite El in L6.
      split; cbn [freed arrived p_queue c_queue memory wrong w_producer w_consumer]; auto.
      * lia.
      * now rewrite Hw.
      * unfold shown. cbn [arrived]. fold (shown s pub). cbn [moved]. unfold consuming. cbn [returned running began steps]. rewrite (taken_app n Hn). cbn [taken fold_right]. rewrite Z.add_0_r.
        specialize (N (began (w_consumer s))). apply (cinv_taken n Hn) in K3. split; [apply (consumed_snoc n Hn); [exact K1|now rewrite Z.add_0_l]|]. split; lia.
  - (* a store of the producer reaches the memory *)
    exists pub, T. pose proof (drain_view _ _ _ _ _ _ Hd) as Ev. destruct (heads_seen _ _ _ _ (memory s) Kh) as (V1 & _).
    pose proof (c_size _ _ _ _ C) as Cs. fold (p_view s) in V1.
    assert (D0 : forall x : Z, x + distance m (head (memory s)) (head (memory s)) = x) by (intros x; unfold distance; rewrite Z.sub_diag, Zmod_0_l; lia).
    apply drain_cases in Hd as [[-> ->]|(older & x & newer & Eq & -> & -> & _ & Hi)].
    { rewrite D0. destruct s. split; auto. }
    rewrite Eq in Kh. destruct x as [h|t|j a].
    + rewrite (Hi Ho eq_refl) in *. cbn [app heads] in *. destruct Kh as (H' & Q1 & Q2 & Q3). pose proof (heads_le _ _ _ _ Q3) as Q4.
      assert (Ea : arrived s + distance (perform (SHead h) (memory s)) (head (memory s)) (head (perform (SHead h) (memory s))) = H').
      { unfold distance. cbn [perform with_head bufsize head]. rewrite <- V1, Cs, Hh, Q2, <- Zminus_mod, Z.mod_small by lia. lia. }
      rewrite Ea. split; unfold p_view; cbn [freed arrived p_queue c_queue memory wrong w_producer w_consumer]; auto.
      * rewrite Ev. exact C.
      * lia.
      * rewrite Ev. exact Pp.
      * unfold shown. cbn [arrived]. replace H' with (arrived s + (H' - arrived s)) by lia. rewrite Z2Nat.inj_add by lia.
        rewrite firstn_plus. fold (shown s pub). apply consumer_mono; [exact Hn|exact Pc].
    + rewrite (Hi Ho eq_refl) in *. destruct Kh.
    + apply heads_cell in Kh as [Kh _].
      rewrite perform_cell in *. cbn [with_buffer head]. unfold distance. rewrite Z.sub_diag, Zmod_0_l, Z.add_0_r.
      split; unfold p_view; cbn [freed arrived p_queue c_queue memory wrong w_producer w_consumer]; auto; rewrite Ev; [exact C|exact Pp].
  - (* a store of the consumer reaches the memory *)
    exists pub, T. destruct (heads_seen _ _ _ _ (memory s) Kh) as (V1 & _ & V3 & _). fold (p_view s) in V1, V3. pose proof (c_size _ _ _ _ C) as Cs. pose proof (c_tail _ _ _ _ C) as Ct.
    apply drain_cases in Hd as [[-> ->]|(older & x & newer & Eq & -> & -> & _ & Hi)].
    { unfold distance. rewrite Z.sub_diag, Zmod_0_l, Z.add_0_r. destruct s. split; auto. }
    rewrite Eq in Kt. destruct x as [h|t|j a].
    + rewrite (Hi Ho eq_refl) in *. destruct Kt.
    + rewrite (Hi Ho eq_refl) in *. cbn [app tails] in *. destruct Kt as (T' & Q1 & Q2 & Q3). pose proof (tails_le _ _ _ Q3) as Q4.
      assert (Ea : freed s + distance (perform (STail t) (memory s)) (tail (memory s)) (tail (perform (STail t) (memory s))) = T').
      { unfold distance. cbn [perform with_tail bufsize tail]. rewrite <- V1, Cs, <- V3, Ct, Q2, <- Zminus_mod, Z.mod_small by lia. lia. }
      rewrite Ea. assert (Ev : seen (p_queue s) (perform (STail t) (memory s)) = with_tail (p_view s) t).
      { rewrite seen_older by (apply (heads_no_tail _ _ _ _ t Kh)). reflexivity. }
      split; unfold p_view; cbn [freed arrived p_queue c_queue memory wrong w_producer w_consumer]; auto.
      * rewrite Ev. destruct C as [C1 C2 C3 C4 C5 C6 C7]. split; cbn [with_tail bufsize buffer head tail]; auto; try lia. intros j Hj. apply C7. lia.
      * apply (heads_mono _ (freed s)); [exact Q1|exact Kh].
      * rewrite Ev. cbn [with_tail buffer]. replace T' with (freed s + (T' - freed s)) by lia. apply producer_mono; [exact Hn|lia|exact Pp].
    + exfalso. revert Kt. clear. intros K. revert K. generalize (freed s). induction older as [|[h|t|i b] q IH]; cbn [app tails]; intros f K; try contradiction.
      destruct K as (T' & _ & _ & K). exact (IH _ K).
Qed.

Lemma wreachable_inv : forall ord (region : list A) c s, ord <> AnyOrder -> zlen region = n -> circular_buf_init region n = Some c -> wreachable ord c s ->
  exists pub T, winv s pub T.
Proof using Hn.
  intros ord region c s Ho Hl Hi R. induction R; [exists [], 0; now apply (wstart_inv region)|]. now apply (wstep_inv ord s).
Qed.

(** * Conclusions *)

Lemma wfifo_l : forall s pub T, winv s pub T ->
  wrong s = false /\
  exists w, let stream := sent (returned (w_producer s)) ++ firstn w (pending (w_producer s)) in
    produced (n - 1) 0 (returned (w_producer s)) /\ consumed (firstn (Z.to_nat (arrived s)) stream) 0 (returned (w_consumer s)) /\
    0 <= freed s /\ freed s <= taken (returned (w_consumer s)) + leaving (w_consumer s) /\
    taken (returned (w_consumer s)) <= arrived s <= zlen stream /\ zlen stream <= freed s + (n - 1) /\
    (p_queue s = [] -> arrived s = zlen stream) /\ (c_queue s = [] -> taken (returned (w_consumer s)) <= freed s).
Proof using Hn.
  intros s pub T I. split; [apply I|]. pose proof (consumer_core _ _ _ I) as Cc.
  pose proof (heads_le _ _ _ _ (i_heads _ _ _ I)) as L1. pose proof (tails_le _ _ _ (i_tails _ _ _ I)) as L2. pose proof (i_order _ _ _ I) as L3.
  pose proof (c_taken _ _ _ _ (i_core _ _ _ I)) as L4. pose proof (c_room _ _ _ _ (i_core _ _ _ I)) as L5.
  assert (E : exists w, pub = sent (returned (w_producer s)) ++ firstn w (pending (w_producer s))).
  { unfold pending. destruct (i_prod _ _ _ I) as [_ P]. destruct (running (w_producer s)) as [[o pc]|]; [apply (pinv_pub n Hn _ _ _ _ _ _ (proj1 P))|]. exists 0%nat. now rewrite app_nil_r. }
  destruct E as [w E]. exists w. rewrite <- E. cbv zeta. destruct (i_prod _ _ _ I) as [P1 _]. destruct (i_cons _ _ _ I) as (K1 & K2 & K3).
  assert (TT : taken (returned (w_consumer s)) <= T <= taken (returned (w_consumer s)) + leaving (w_consumer s)).
  { unfold leaving. destruct (running (w_consumer s)) as [[o pc]|]; [|lia]. destruct K3 as (K3 & _). apply (cinv_taken n Hn) in K3. lia. }
  split; [exact P1|]. split; [exact K1|]. repeat split; try lia.
  - intros Eq. pose proof (i_heads _ _ _ I) as K. rewrite Eq in K. exact K.
  - intros Eq. pose proof (i_tails _ _ _ I) as K. rewrite Eq in K. cbn [tails] in K. lia.
Qed.

Lemma heads_in : forall q Tm H Hend j a, heads Tm H q Hend -> In (SCell j a) q -> exists P, j = P mod n /\ H <= P <= Tm + n - 2.
Proof using Hn.
  intros q Tm H Hend j a K Hin. apply in_split in Hin as (older & newer & ->). now apply heads_cell in K as [_ K].
Qed.

Lemma wrace_l : forall s pub T oc cc j, winv s pub T -> running (w_consumer s) = Some (oc, cc) -> reads cc = Some j ->
  (forall a, ~ In (SCell j a) (p_queue s)) /\ (forall o pc, running (w_producer s) = Some (o, pc) -> writes pc <> Some j).
Proof using Hn.
  intros s pub T oc cc j I Rc R. pose proof (i_cons _ _ _ I) as (_ & _ & K). rewrite Rc in K.
  destruct (reads_l n Hn _ _ _ _ _ _ _ (proj1 K) R) as (y & -> & Hy). rewrite (shown_len _ _ _ I) in Hy.
  pose proof (tails_le _ _ _ (i_tails _ _ _ I)) as L2. pose proof (heads_le _ _ _ _ (i_heads _ _ _ I)) as L1. split.
  - intros a Hin. apply (heads_in _ _ _ _ _ _ (i_heads _ _ _ I)) in Hin as (q & E & Hq). apply ring_eq in E; lia.
  - intros o pc Rp W. pose proof (i_prod _ _ _ I) as (_ & P). rewrite Rp in P.
    destruct (writes_l n Hn _ _ _ _ _ _ _ (proj1 P) W) as (x & E & Hx). apply ring_eq in E; lia.
Qed.

Lemma wsteps_l : forall s pub T, winv s pub T ->
  (forall o pc, running (w_producer s) = Some (o, pc) -> steps (w_producer s) < 9 * asked o + 4) /\
  (forall o pc, running (w_consumer s) = Some (o, pc) -> steps (w_consumer s) < 6 * asked o + 7).
Proof using Hn.
  intros s pub T I. pose proof (i_prod _ _ _ I) as (_ & P). pose proof (i_cons _ _ _ I) as (_ & _ & K). split; intros o pc R.
  - rewrite R in P. lia.
  - rewrite R in K. lia.
Qed.

(** Once everything has reached the memory it is an ordinary buffer. *)
Lemma wquiet_l : forall s pub T, winv s pub T ->
  p_queue s = [] -> c_queue s = [] -> running (w_producer s) = None -> running (w_consumer s) = None ->
  let content := skipn (Z.to_nat (taken (returned (w_consumer s)))) (sent (returned (w_producer s))) in
  forall ops, all_sane (n - 1) content ops -> exists c, cbuf_run (memory s) ops = Done (c, fifo_run (n - 1) content ops).
Proof using Hn.
  intros s pub T I Eq1 Eq2 Rp Rc content ops Hs. pose proof (i_core _ _ _ I) as C. unfold p_view in C. rewrite Eq1 in C. cbn [seen fold_left] in C.
  pose proof (i_prod _ _ _ I) as (_ & P). pose proof (i_cons _ _ _ I) as (_ & K2 & K). rewrite Rp in P. rewrite Rc in K.
  pose proof (i_tails _ _ _ I) as Kt. rewrite Eq2 in Kt. cbn [tails] in Kt.
  assert (Ec : content = skipn (Z.to_nat (freed s)) pub) by (unfold content; now rewrite P, Kt, K). rewrite Ec in *. clear content Ec.
  destruct C as [C1 C2 C3 C4 C5 C6 C7]. assert (Ez : zlen (skipn (Z.to_nat (freed s)) pub) = zlen pub - freed s) by (unfold zlen in *; rewrite skipn_length; lia).
  assert (R : rep (memory s) (skipn (Z.to_nat (freed s)) pub)).
  { split; [|rewrite C1; lia]. split.
    - split; rewrite ?C1; auto; rewrite ?C3, ?C4; apply ring_range; lia.
    - rewrite C1. lia.
    - rewrite C1, C3, C4, Zplus_mod_idemp_l, Ez. f_equal. lia.
    - rewrite C1, C4. intros i Hi. rewrite nth_error_skipn.
      replace (Z.to_nat (freed s) + i)%nat with (Z.to_nat (freed s + Z.of_nat i)) by lia. rewrite <- C7 by (unfold zlen in *; rewrite skipn_length in *; lia).
      rewrite Zplus_mod_idemp_l. reflexivity. }
  rewrite <- C1 in Hs. destruct (run_sim ops (memory s) _ R Hs) as (c & E & _). exists c. now rewrite E, C1.
Qed.

End BulkWeakProofs.

(** * Immediate stores *)
Section Coverage.
Context {A : Type}.

Lemma alike_moved : forall PC (t u : thread A PC) o m, alike t u -> alike (moved t o m) (moved u o m).
Proof.
  intros PC t u o m (H1 & H2 & H3). destruct m; cbn [moved]; repeat split; cbn [returned running steps]; auto; try lia. rewrite !map_app. cbn. now rewrite H1.
Qed.

Lemma pstore_all : forall (c : cbuf A) pc, shared c (pnext c pc) = seen (pstore c pc) c.
Proof.
  intros c pc. pose proof (pstore_ok c pc) as H. destruct (pnext c pc) eqn:E; cbn [shared]; auto.
  destruct pc; cbn [pnext pstore seen fold_left] in *; try discriminate E; try reflexivity.
  - cbn [perform]. destruct (zset (buffer c) h a); [discriminate E|reflexivity..].
  - destruct (i <? chunk); [|discriminate E]. destruct (zget (u_data l) i) as [a| | |]; try reflexivity. cbn [fold_left perform].
    destruct (zset (buffer c) (u_head l + i) a); [discriminate E|reflexivity..].
Qed.

Lemma cstore_all : forall (c : cbuf A) pc, shared c (cnext c pc) = seen (cstore c pc) c.
Proof.
  intros c pc. pose proof (cstore_ok c pc) as H. destruct (cnext c pc) eqn:E; cbn [shared]; auto.
  destruct pc; cbn [cnext cstore seen fold_left] in *; try discriminate E; reflexivity.
Qed.

Lemma pstore_short : forall (c : cbuf A) pc, pstore c pc = [] \/ exists x, pstore c pc = [x].
Proof. intros c pc. destruct (pstore_shape c pc) as [E|[(i & a & E & _)|(h & E)]]; rewrite E; eauto. Qed.

Lemma covers_l : forall ord c (s : sys A), reachable c s ->
  exists u, wreachable ord c u /\ memory u = sh s /\ p_queue u = [] /\ c_queue u = [] /\ alike (producer s) (w_producer u) /\ alike (consumer s) (w_consumer u) /\ wrong u = bad s.
Proof.
  intros ord c s R. induction R as [|s s' _ (u & W & M & Qp & Qc & Ap & Ac & B) St].
  - exists (wstart c). repeat split. apply wr_start.
  - assert (Vp : p_view u = sh s) by (unfold p_view; rewrite Qp; exact M). assert (Vc : c_view u = sh s) by (unfold c_view; rewrite Qc; exact M).
    assert (May : forall x : store A, may_go ord [] x = true) by (intros x; destruct ord; cbn; rewrite ?orb_true_r; reflexivity).
    destruct St as [o pc Hr Hc|o pc Hr m|o pc Hr Hc|o pc Hr m].
    + eexists. split; [eapply wr_step; [exact W|]; apply (wp_call ord u o pc); [rewrite <- (proj1 (proj2 Ap)); exact Hr|now rewrite Vp]|].
      cbn. repeat split; auto; apply Ap || apply Ac.
    + assert (Hr' : running (w_producer u) = Some (o, pc)) by (rewrite <- (proj1 (proj2 Ap)); exact Hr).
      pose proof (wp_step ord u o pc Hr') as S1. cbv zeta in S1. rewrite Vp in S1. fold m in S1. rewrite Qp in S1. cbn [app] in S1.
      pose proof (pstore_all (sh s) pc) as Es. fold m in Es.
      destruct (pstore_short (sh s) pc) as [E|[x E]]; rewrite E in *.
      * eexists. split; [eapply wr_step; [exact W|exact S1]|]. cbn [memory p_queue c_queue w_producer w_consumer wrong sh producer consumer bad]. rewrite Es, B.
        repeat split; auto; try apply Ac; now apply alike_moved.
      * pose proof (wr_step ord c _ _ W S1) as W1. eexists. split; [eapply wr_step; [exact W1|]; eapply (wp_land ord _ 0%nat); cbn [p_queue memory]; unfold drain; cbn [nth_error firstn]; rewrite May; reflexivity|].
        cbn [memory p_queue c_queue w_producer w_consumer wrong sh producer consumer bad firstn skipn app]. rewrite Es, B, M.
        repeat split; auto; try apply Ac; now apply alike_moved.
    + eexists. split; [eapply wr_step; [exact W|]; apply (wc_call ord u o pc); [rewrite <- (proj1 (proj2 Ac)); exact Hr|now rewrite Vc]|].
      cbn. repeat split; auto; apply Ap || apply Ac.
    + assert (Hr' : running (w_consumer u) = Some (o, pc)) by (rewrite <- (proj1 (proj2 Ac)); exact Hr).
      pose proof (wc_step ord u o pc Hr') as S1. cbv zeta in S1. rewrite Vc in S1. fold m in S1. rewrite Qc in S1. cbn [app] in S1.
      pose proof (cstore_all (sh s) pc) as Es. fold m in Es.
      destruct (cstore_shape (sh s) pc) as [E|[x E]]; rewrite E in *.
      * eexists. split; [eapply wr_step; [exact W|exact S1]|]. cbn [memory p_queue c_queue w_producer w_consumer wrong sh producer consumer bad]. rewrite Es, B.
        repeat split; auto; try apply Ap; now apply alike_moved.
      * pose proof (wr_step ord c _ _ W S1) as W1. eexists. split; [eapply wr_step; [exact W1|]; eapply (wc_land ord _ 0%nat); cbn [c_queue memory]; unfold drain; cbn [nth_error firstn]; rewrite May; reflexivity|].
        cbn [memory p_queue c_queue w_producer w_consumer wrong sh producer consumer bad firstn skipn app]. rewrite Es, B, M.
        repeat split; auto; try apply Ap; now apply alike_moved.
Qed.

(** * Executing a schedule, for examples *)
Inductive turn := PBegin (o : op A) | PMove | CBegin (o : op A) | CMove | PLand (i : nat) | CLand (i : nat).

Definition wexec1 (ord : order) (s : wsys A) (a : turn) : option (wsys A) :=
  match a with
  | PBegin o =>
      match running (w_producer s) with
      | Some _ => None
      | None =>
          let go pc := Some (mkWsys (memory s) (p_queue s) (c_queue s)
            (mkThread (returned (w_producer s)) (Some (o, pc)) (freed s) 0) (w_consumer s) (arrived s) (freed s) (wrong s)) in
          match o with
          | Putc a => go (PFull0 a)
          | Puts d len => if (0 <=? len) && (len <=? room (p_view s)) && (len <=? zlen d) then go (UHead0 d len) else None
          | _ => None
          end
      end
  | PMove =>
      match running (w_producer s) with
      | Some (o, pc) =>
          let m := pnext (p_view s) pc in
          Some (mkWsys (memory s) (p_queue s ++ pstore (p_view s) pc) (c_queue s)
            (moved (w_producer s) o m) (w_consumer s) (arrived s) (freed s) (wrong s || is_bad m))
      | None => None
      end
  | CBegin o =>
      match running (w_consumer s) with
      | Some _ => None
      | None =>
          let go pc := Some (mkWsys (memory s) (p_queue s) (c_queue s) (w_producer s)
            (mkThread (returned (w_consumer s)) (Some (o, pc)) (arrived s) 0) (arrived s) (freed s) (wrong s)) in
          match o with
          | Getc => go CEmpty0
          | Gets len => if (0 <=? len) && (len <=? bufsize (c_view s) - 1) then go (GSize0 (wrap 64 len) true true) else None
          | _ => None
          end
      end
  | CMove =>
      match running (w_consumer s) with
      | Some (o, pc) =>
          let m := cnext (c_view s) pc in
          Some (mkWsys (memory s) (p_queue s) (c_queue s ++ cstore (c_view s) pc)
            (w_producer s) (moved (w_consumer s) o m) (arrived s) (freed s) (wrong s || is_bad m))
      | None => None
      end
  | PLand i =>
      let (q, m) := drain ord (p_queue s) i (memory s) in
      Some (mkWsys m q (c_queue s) (w_producer s) (w_consumer s) (arrived s + distance m (head (memory s)) (head m)) (freed s) (wrong s))
  | CLand i =>
      let (q, m) := drain ord (c_queue s) i (memory s) in
      Some (mkWsys m (p_queue s) q (w_producer s) (w_consumer s) (arrived s) (freed s + distance m (tail (memory s)) (tail m)) (wrong s))
  end.

Fixpoint wexec (ord : order) (s : wsys A) (l : list turn) : option (wsys A) :=
  match l with [] => Some s | a :: l => match wexec1 ord s a with Some s => wexec ord s l | None => None end end.

Lemma wexec1_step : forall ord s a s', wexec1 ord s a = Some s' -> wstep ord s s'.
Proof.
  intros ord s a s' H. destruct a as [o| |o| |i|i]; cbn [wexec1] in H.
  - destruct (running (w_producer s)) eqn:R; [discriminate H|]. destruct o; try discriminate H.
    + injection H as <-. now apply wp_call.
    + destruct ((0 <=? len) && (len <=? room (p_view s)) && (len <=? zlen data)) eqn:E; [|discriminate H]. injection H as <-. apply wp_call; [exact R|]. cbn. split; [reflexivity|]. lia.
  - destruct (running (w_producer s)) as [[o pc]|] eqn:R; [|discriminate H]. injection H as <-. now apply wp_step.
  - destruct (running (w_consumer s)) eqn:R; [discriminate H|]. destruct o; try discriminate H.
    + injection H as <-. now apply wc_call.
    + destruct ((0 <=? len) && (len <=? bufsize (c_view s) - 1)) eqn:E; [|discriminate H]. injection H as <-. apply wc_call; [exact R|]. cbn. split; [reflexivity|]. lia.
  - destruct (running (w_consumer s)) as [[o pc]|] eqn:R; [|discriminate H]. injection H as <-. now apply wc_step.
  - destruct (drain ord (p_queue s) i (memory s)) as [q m] eqn:E. injection H as <-. now apply (wp_land ord s i).
  - destruct (drain ord (c_queue s) i (memory s)) as [q m] eqn:E. injection H as <-. now apply (wc_land ord s i).
Qed.

Lemma wexec_reachable : forall ord c l s s', wreachable ord c s -> wexec ord s l = Some s' -> wreachable ord c s'.
Proof.
  intros ord c l. induction l as [|a l IH]; intros s s' R H; cbn [wexec] in H; [now injection H as <-|].
  destruct (wexec1 ord s a) as [s1|] eqn:E; [|discriminate H]. apply (IH s1); [|exact H]. apply (wr_step ord c s); [exact R|]. now apply (wexec1_step ord s a).
Qed.

End Coverage.
