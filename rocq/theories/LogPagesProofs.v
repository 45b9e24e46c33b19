From Verif Require Import Base BaseLemmas EventLogModel EventLogSpec EventLogSystem EventLogProps LogPagesSystem.

Section Lists.
Context {A : Type}.
Implicit Types l : list A.

Lemma last_n_all : forall n l, zlen l <= n -> last_n n l = l.
Proof. intros n l H. unfold last_n. replace (Z.to_nat (zlen l - n)) with O by lia. reflexivity. Qed.

Lemma last_n_0 : forall l, last_n 0 l = [].
Proof. intros l. unfold last_n, zlen. apply skipn_all2. lia. Qed.

Lemma last_n_len : forall n l, 0 <= n -> zlen (last_n n l) = Z.min n (zlen l).
Proof. intros n l H. unfold last_n, zlen. rewrite skipn_length. lia. Qed.

Lemma last_n_app : forall n l x, 0 <= n -> last_n (n + zlen x) (l ++ x) = last_n n l ++ x.
Proof.
  intros n l x H. unfold last_n, zlen. rewrite app_length, skipn_app.
  replace (Z.to_nat (Z.of_nat (length l + length x) - (n + Z.of_nat (length x)))) with (Z.to_nat (Z.of_nat (length l) - n)) by lia.
  f_equal. replace (Z.to_nat (Z.of_nat (length l) - n) - length l)%nat with O by lia. reflexivity.
Qed.

Lemma drop_last_app : forall n l x, 0 <= n -> drop_last (n + zlen x) (l ++ x) = drop_last n l.
Proof.
  intros n l x H. unfold drop_last, zlen. rewrite app_length, firstn_app.
  replace (Z.to_nat (Z.of_nat (length l + length x) - (n + Z.of_nat (length x)))) with (Z.to_nat (Z.of_nat (length l) - n)) by lia.
  replace (Z.to_nat (Z.of_nat (length l) - n) - length l)%nat with O by lia. cbn. apply app_nil_r.
Qed.

(** A list in two parts from the end. *)
Lemma split_end : forall q l, 0 <= q -> drop_last q l ++ last_n q l = l.
Proof. intros q l H. unfold drop_last, last_n. apply firstn_skipn. Qed.

Lemma pages_join : forall p q l, 0 <= p -> 0 <= q -> last_n p (drop_last q l) ++ last_n q l = last_n (p + q) l.
Proof.
  intros p q l Hp Hq. destruct (Z.le_gt_cases (zlen l) q) as [H|H].
  - rewrite !(last_n_all _ l) by lia. replace (drop_last q l) with (@nil A); [unfold last_n; now rewrite skipn_nil|].
    unfold drop_last. replace (Z.to_nat (zlen l - q)) with O by lia. reflexivity.
  - rewrite <- (split_end q l Hq) at 3. rewrite <- (last_n_app p) by exact Hp. f_equal. rewrite last_n_len by exact Hq. lia.
Qed.

Lemma skip_skip : forall a b l, skipn a (skipn b l) = skipn (a + b) l.
Proof.
  intros a b l. revert a l. induction b as [|b IH]; intros a l; [now rewrite Nat.add_0_r|]. destruct l as [|x l]; [now rewrite !skipn_nil|].
  rewrite Nat.add_succ_r. cbn [skipn]. apply IH.
Qed.

Lemma last_n_last_n : forall p q l, 0 <= p <= q -> last_n p (last_n q l) = last_n p l.
Proof.
  intros p q l H. unfold last_n at 1. rewrite last_n_len by lia. unfold last_n. rewrite skip_skip. f_equal. lia.
Qed.

(** What has been overwritten was not wanted. *)
Lemma same_page : forall m k p q l, 0 <= p -> 0 <= q -> 0 <= k -> k = 0 \/ Z.min (zlen l) (p + q) <= m - k -> 0 <= m - k ->
  last_n p (drop_last q (last_n (m - k) l)) = last_n p (drop_last q (last_n m l)).
Proof.
  intros m k p q l Hp Hq Hk H Hm. destruct H as [->|H]; [now rewrite Z.sub_0_r|].
  destruct (Z.le_gt_cases (zlen l) (m - k)) as [L|L]; [rewrite !(fun n => last_n_all n l) by lia; reflexivity|].
  assert (H' : p + q <= m - k) by lia. apply (app_inv_tail (last_n q l)).
  transitivity (last_n (p + q) l).
  - rewrite <- (last_n_last_n q (m - k) l) by lia. rewrite pages_join, last_n_last_n by lia. reflexivity.
  - rewrite <- (last_n_last_n q m l) by lia. rewrite pages_join, last_n_last_n by lia. reflexivity.
Qed.
End Lists.

Lemma saved_app : forall a b, saved (a ++ b) = saved a ++ saved b.
Proof. intros. unfold saved. apply flat_map_app. Qed.

Lemma saved_len : forall es h, Forall (lop_ok es) h -> Forall (fun e => zlen e = es) (saved h).
Proof.
  intros es h H. unfold saved. induction H as [|o h Ho _ IH]; [constructor|]. cbn [flat_map]. apply Forall_app. split; [|exact IH].
  destruct o; cbn in *; [constructor; [exact Ho|constructor]|constructor|constructor].
Qed.

Lemma concat_len : forall es (w : list (list Z)), 0 <= es -> Forall (fun e => zlen e = es) w -> zlen (concat w) = zlen w * es.
Proof.
  intros es w H F. induction F as [|e w He _ IH]; [reflexivity|]. cbn [concat]. unfold zlen in *. rewrite app_length. cbn [length]. lia.
Qed.

Lemma Forall_last_n : forall {B} (P : B -> Prop) n l, Forall P l -> Forall P (last_n n l).
Proof. intros B P n l H. unfold last_n. rewrite <- (firstn_skipn (Z.to_nat (zlen l - n)) l) in H. apply Forall_app in H. apply H. Qed.
Lemma Forall_drop_last : forall {B} (P : B -> Prop) n l, Forall P l -> Forall P (drop_last n l).
Proof. intros B P n l H. unfold drop_last. rewrite <- (firstn_skipn (Z.to_nat (zlen l - n)) l) in H. apply Forall_app in H. apply H. Qed.

Lemma browse_l : forall m es, 0 < m <= INT_MAX -> 0 <= es -> forall slots buf page ev, slots_ok m es slots -> sz (zlen buf) ->
  0 < page -> page * es <= zlen buf ->
  forall ms h j new, Forall (lop_ok es) (h ++ concat ms) -> Forall untorn (h ++ concat ms) -> saved h = ev ++ new -> 0 <= j ->
  let K := zlen new + zlen (saved (concat ms)) in
  (j + zlen ms) * page + K < 2 ^ 64 -> K = 0 \/ Z.min (zlen ev) ((j + zlen ms) * page) + K <= m ->
  exists pages, browse m es slots buf page h j (zlen new) ms = Done pages /\
    concat pages ++ concat (last_n (j * page) (last_n m ev)) = concat (last_n ((j + zlen ms) * page) (last_n m ev)).
Proof.
  intros m es Hm Hes slots buf page ev Hsl Hbuf Hp Hroom. induction ms as [|more ms IH]; intros h j new Hok Hu Hs Hj K Hlim Hcase.
  - exists []. split; [reflexivity|]. cbn. replace (j + 0) with j by lia. reflexivity.
  - cbn [concat] in *. rewrite app_assoc in Hok, Hu. cbn [browse].
    assert (HK : K = zlen new + zlen (saved more) + zlen (saved (concat ms))) by (unfold K; rewrite saved_app; unfold zlen; rewrite app_length; lia).
    assert (HL : zlen (more :: ms) = zlen ms + 1) by (unfold zlen; cbn [length]; lia). rewrite HL in Hlim, Hcase.
    pose proof (zlen_nonneg _ new) as N1. pose proof (zlen_nonneg _ (saved more)) as N2. pose proof (zlen_nonneg _ (saved (concat ms))) as N3. pose proof (zlen_nonneg _ ms) as N4.
    assert (Hs' : saved (h ++ more) = ev ++ (new ++ saved more)) by (rewrite saved_app, Hs, app_assoc; reflexivity).
    assert (Hk' : zlen (new ++ saved more) = zlen new + zlen (saved more)) by (unfold zlen; rewrite app_length; lia).
    set (k' := zlen new + zlen (saved more)) in *.
    assert (Hjp : 0 <= j * page) by nia. assert (Hjp1 : (j + 1) * page <= (j + (zlen ms + 1)) * page) by nia. assert (Hjp2 : (j + 1) * page = j * page + page) by lia.
    assert (Hmk : 0 <= m - k') by (destruct Hcase as [X|X]; [lia|]; pose proof (zlen_nonneg _ ev); lia).
    assert (W : window m (saved (h ++ more)) page (j * page + k') = last_n page (drop_last (j * page) (last_n m ev))).
    { unfold window. rewrite Hs'. replace m with ((m - k') + zlen (new ++ saved more)) at 1 by lia.
      rewrite last_n_app by lia. rewrite <- Hk', drop_last_app by lia. rewrite Hk'. apply same_page; try lia. }
    destruct (eventlog_load_partial m es Hm Hes slots (h ++ more) buf page (j * page + k') Hsl) as (reqs & E).
    + now apply Forall_app in Hok as [Hok _].
    + now apply Forall_app in Hu as [Hu _].
    + unfold sz. lia.
    + unfold sz. lia.
    + lia.
    + exact Hbuf.
    + rewrite W. enough (zlen (last_n page (drop_last (j * page) (last_n m ev))) <= page) by nia. rewrite last_n_len by lia. lia.
    + rewrite E. cbn [obind]. rewrite W. set (w := last_n page (drop_last (j * page) (last_n m ev))) in *.
      destruct (IH (h ++ more) (j + 1) (new ++ saved more) Hok Hu Hs' ltac:(lia)) as (pages & E2 & C2).
      * rewrite Hk'. replace (j + 1 + zlen ms) with (j + (zlen ms + 1)) by lia. fold k'. lia.
      * rewrite Hk'. replace (j + 1 + zlen ms) with (j + (zlen ms + 1)) by lia. fold k'. lia.
      * rewrite Hk' in E2. fold k' in E2. rewrite E2. cbn [obind]. eexists. split; [reflexivity|].
        assert (Hw : Forall (fun e => zlen e = es) w).
        { apply Forall_last_n, Forall_drop_last, Forall_last_n. apply Forall_app in Hok as [Hok _]. apply saved_len in Hok. rewrite Hs' in Hok. now apply Forall_app in Hok as [Hok _]. }
        rewrite <- (concat_len es w Hes Hw). unfold zlen at 1. rewrite Nat2Z.id, firstn_app, Nat.sub_diag, firstn_all. cbn [firstn]. rewrite app_nil_r.
        rewrite concat_app. cbn [concat]. rewrite app_nil_r, <- app_assoc, <- concat_app. rewrite HL.
        replace (j + (zlen ms + 1)) with (j + 1 + zlen ms) by lia. rewrite <- C2. f_equal. f_equal. unfold w. rewrite pages_join by lia. f_equal. lia.
Qed.
