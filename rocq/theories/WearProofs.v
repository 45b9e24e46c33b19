(** Proofs about the wear leveled memory. *)
From Coq Require Import ZifyBool ZifyNat.
From Verif Require Import Base BaseLemmas WearModel WearSpec WearSystem.

Section W.
Variables (N B : Z).
Hypothesis HN : 0 < N < 256.
Hypothesis HB : 0 < B < 2 ^ 64.
Set Default Proof Using "HN HB".

Definition cur (d : device) (w : wlm) : list Z := nth (Z.to_nat (last_active_block w)) (blocks d) [].

Definition wl_ok (w : wlm) : Prop :=
  blocks_in_page w = N /\ 0 <= last_active_block w < N /\ 0 <= last_marker w < 256.

Lemma next_ok : forall x m, 0 < m -> 0 <= x < 256 -> NEXT_BLOCK x m = Done ((x + 1) mod m).
Proof.
  intros x m Hm Hx. unfold NEXT_BLOCK. destruct (Z.eqb_spec m 0); [lia|].
  now rewrite wrap64_small by lia.
Qed.

Lemma Forall_nth_Z : forall A (P : A -> Prop) l i d, Forall P l -> 0 <= i < zlen l -> P (nth (Z.to_nat i) l d).
Proof. intros A P l i d H Hi. rewrite Forall_forall in H. apply H. apply nth_In. unfold zlen in Hi. lia. Qed.

Lemma Forall_upd : forall A (P : A -> Prop) l i a, Forall P l -> P a -> Forall P (upd l i a).
Proof. induction l; intros i b H Hb; [destruct i; constructor|]. apply Forall_cons_iff in H as [H1 H2]. destruct i; constructor; auto. Qed.

Lemma firstn_zlen : forall (l : list Z) n, zlen l = n -> firstn (Z.to_nat n) l = l.
Proof. intros l n H. apply firstn_all2. unfold zlen in H. lia. Qed.

Lemma rd_spec : forall d b, dev_ok N B d -> 0 <= b < N ->
  dev_rd d b B = Done (0, nth (Z.to_nat b) (blocks d) []).
Proof.
  intros d b (D1 & D2 & D3 & D4) Hb. unfold dev_rd. rewrite (zget_ok _ _ _ []) by lia. cbn [obind].
  pose proof (Forall_nth_Z _ _ _ b [] D4 ltac:(lia)) as Hl. cbn in Hl.
  rewrite zread_ok by lia. cbn [obind]. change (Z.to_nat 0) with 0%nat. cbn [skipn].
  now rewrite firstn_zlen.
Qed.

Lemma wr_spec : forall d b m x, dev_ok N B d -> 0 <= b < N -> zlen x = B ->
  dev_wr d b m x = Done (mkDev (upd (markers d) (Z.to_nat b) m) (upd (blocks d) (Z.to_nat b) x) (b :: written d), 0).
Proof.
  intros d b m x (D1 & D2 & D3 & D4) Hb Hx. unfold dev_wr. rewrite zset_ok by lia. cbn [obind].
  rewrite (zget_ok _ _ _ []) by lia. cbn [obind].
  pose proof (Forall_nth_Z _ _ _ b [] D4 ltac:(lia)) as Hl. cbn in Hl.
  rewrite zwrite_ok by lia. cbn [obind]. rewrite zset_ok by lia. cbn [obind]. do 4 f_equal.
  change (Z.to_nat 0) with 0%nat. cbn [firstn app Nat.add].
  rewrite skipn_all2 by (unfold zlen in *; lia). now rewrite app_nil_r.
Qed.

(** The effect of a write for any of the devices. *)
Lemma write_gen : forall cb d w x, rd cb = dev_rd -> dev_ok N B d -> wl_ok w -> zlen x = B ->
  wl_write cb d w x =
    if same x (cur d w) then Done (d, w, 0)
    else let b := (last_active_block w + 1) mod N in let m := (last_marker w + 1) mod 256 in
         do (d', r) <- wr cb d b m x; Done (d', mkWl N b m, r).
Proof.
  intros cb d w x Hrd Hd (W1 & W2 & W3) Hx. unfold wl_write. rewrite Hx.
  destruct (Z.eqb_spec B 0); [lia|]. rewrite Hrd, rd_spec by assumption. cbn [obind].
  cbn [Z.eqb negb]. fold (cur d w). unfold same, MAX_BLOCKS_IN_PAGE.
  destruct (list_eq_dec Z.eq_dec (cur d w) x) as [E|E], (list_eq_dec Z.eq_dec x (cur d w)) as [E'|E']; try congruence; try reflexivity.
  rewrite next_ok by lia. cbn [obind]. rewrite W1, next_ok by lia. reflexivity.
Qed.

Lemma write_good : forall d w x, dev_ok N B d -> wl_ok w -> zlen x = B ->
  let b := (last_active_block w + 1) mod N in let m := (last_marker w + 1) mod 256 in
  wl_write good d w x =
    if same x (cur d w) then Done (d, w, 0)
    else Done (mkDev (upd (markers d) (Z.to_nat b) m) (upd (blocks d) (Z.to_nat b) x) (b :: written d), mkWl N b m, 0).
Proof.
  intros d w x Hd Hw Hx b m. rewrite write_gen by (try assumption; reflexivity).
  destruct (same x (cur d w)); [reflexivity|]. cbv zeta. fold b. fold m. cbn [wr good].
  rewrite wr_spec; [reflexivity|assumption| |assumption]. apply Z.mod_pos_bound. lia.
Qed.

Lemma write_torn : forall d w x g, dev_ok N B d -> wl_ok w -> zlen x = B ->
  let b := (last_active_block w + 1) mod N in let m := (last_marker w + 1) mod 256 in
  wl_write (torn g) d w x =
    if same x (cur d w) then Done (d, w, 0)
    else Done (mkDev (markers d) (upd (blocks d) (Z.to_nat b) g) (b :: written d), mkWl N b m, 0).
Proof.
  intros d w x g Hd Hw Hx b m. rewrite write_gen by (try assumption; reflexivity).
  destruct (same x (cur d w)); [reflexivity|]. cbv zeta. fold b. fold m. cbn [wr torn].
  destruct Hd as (D1 & D2 & D3 & D4). rewrite zset_ok; [reflexivity|]. rewrite D3. apply Z.mod_pos_bound. lia.
Qed.

Lemma wl_next : forall w, wl_ok w -> wl_ok (mkWl N ((last_active_block w + 1) mod N) ((last_marker w + 1) mod 256)).
Proof.
  intros w (W1 & W2 & W3). split; [reflexivity|]. cbn [last_active_block last_marker].
  split; apply Z.mod_pos_bound; lia.
Qed.

Lemma dev_next : forall d b m x l, dev_ok N B d -> 0 <= m < 256 -> zlen x = B ->
  dev_ok N B (mkDev (upd (markers d) (Z.to_nat b) m) (upd (blocks d) (Z.to_nat b) x) l).
Proof.
  intros d b m x l (D1 & D2 & D3 & D4) Hm Hx. unfold dev_ok. cbn [markers blocks].
  rewrite !zlen_upd. repeat split; try assumption; now apply Forall_upd.
Qed.

Lemma dev_torn : forall d b x l, dev_ok N B d -> zlen x = B ->
  dev_ok N B (mkDev (markers d) (upd (blocks d) (Z.to_nat b) x) l).
Proof.
  intros d b x l (D1 & D2 & D3 & D4) Hx. unfold dev_ok. cbn [markers blocks].
  rewrite !zlen_upd. repeat split; try assumption; now apply Forall_upd.
Qed.

(** *** Searching the active block. *)

Lemma rm_spec : forall d b, dev_ok N B d -> 0 <= b < N ->
  dev_rm d b = Done (0, nth (Z.to_nat b) (markers d) 0).
Proof. intros d b (D1 & D2 & D3 & D4) Hb. unfold dev_rm. rewrite (zget_ok _ _ _ 0) by lia. reflexivity. Qed.

Notation mk d j := (nth (Z.to_nat j) (markers d) 0).

Lemma mk_range : forall d j, dev_ok N B d -> 0 <= j < N -> 0 <= mk d j < 256.
Proof.
  intros d j (D1 & D2 & D3 & D4) Hj. exact (Forall_nth_Z _ _ _ j 0 D2 ltac:(lia)).
Qed.

Lemma search_chain : forall d, dev_ok N B d -> forall n a i, 0 < i <= a + 1 -> a < N -> (Z.to_nat (N - i) < n)%nat ->
  (forall j, i <= j <= a -> mk d j = (mk d (j - 1) + 1) mod 256) ->
  (a + 1 < N -> mk d (a + 1) <> (mk d a + 1) mod 256) ->
  search_loop good d N n i (mk d (i - 1)) = Done (if a + 1 <? N then a else 0, mk d a).
Proof.
  intros d Hd. induction n as [|n IH]; intros a i Hi Ha Hn Hch Hbr; [lia|]. cbn [search_loop].
  pose proof (mk_range d (i - 1) Hd ltac:(lia)) as Hr.
  destruct (Z.ltb_spec i N) as [HiN|HiN].
  - cbn [rm good]. rewrite rm_spec by (assumption || lia). cbn [obind Z.eqb negb].
    unfold MAX_BLOCKS_IN_PAGE. rewrite next_ok by lia. cbn [obind].
    destruct (Z.eq_dec i (a + 1)) as [Ei|Ei].
    + rewrite Ei in *. destruct (Z.ltb_spec (a + 1) N); [|lia]. replace (a + 1 - 1) with a by lia.
      replace (a + 1 - 1) with a in Hr by lia. destruct (Z.eqb_spec (mk d (a + 1)) ((mk d a + 1) mod 256)); [now apply Hbr in e|].
      reflexivity.
    + rewrite <- Hch by lia. rewrite Z.eqb_refl. cbn [negb].
      replace (mk d i) with (mk d (i + 1 - 1)) by (do 2 f_equal; lia). apply IH; try lia; try assumption.
      intros j Hj. apply Hch. lia.
  - replace (i - 1) with a by lia. destruct (Z.ltb_spec (a + 1) N); [lia|]. reflexivity.
Qed.

Lemma init_chain : forall d a, dev_ok N B d -> 0 <= a < N ->
  (forall j, 1 <= j <= a -> mk d j = (mk d (j - 1) + 1) mod 256) ->
  (a + 1 < N -> mk d (a + 1) <> (mk d a + 1) mod 256) ->
  wl_init good d N = Done (mkWl N (if a + 1 <? N then a else 0) (mk d a)).
Proof.
  intros d a Hd Ha Hch Hbr. unfold wl_init, MAX_BLOCKS_IN_PAGE. destruct (Z.leb_spec 256 N); [lia|].
  unfold search_last. cbn [rm good]. rewrite rm_spec by (assumption || lia). cbn [obind Z.eqb negb].
  change 0 with (1 - 1) at 4. rewrite (search_chain d Hd _ a) by (try assumption; lia). cbn [obind].
  do 2 f_equal. apply wrap64_small. destruct (a + 1 <? N); lia.
Qed.

(** Every device has a well defined active block. *)
Lemma chain_exists : forall d, dev_ok N B d -> exists a, 0 <= a < N /\
  (forall j, 1 <= j <= a -> mk d j = (mk d (j - 1) + 1) mod 256) /\
  (a + 1 < N -> mk d (a + 1) <> (mk d a + 1) mod 256).
Proof.
  intros d Hd.
  assert (H : forall n a, 0 <= a < N -> (Z.to_nat (N - a) <= n)%nat ->
    (forall j, 1 <= j <= a -> mk d j = (mk d (j - 1) + 1) mod 256) ->
    exists a, 0 <= a < N /\ (forall j, 1 <= j <= a -> mk d j = (mk d (j - 1) + 1) mod 256) /\
    (a + 1 < N -> mk d (a + 1) <> (mk d a + 1) mod 256)).
  { induction n as [|n IH]; intros a Ha Hn Hch; [lia|].
    destruct (Z.eq_dec (a + 1) N); [exists a; split; [lia|]; split; [assumption|lia]|].
    destruct (Z.eq_dec (mk d (a + 1)) ((mk d a + 1) mod 256)) as [E|E].
    - apply (IH (a + 1)); try lia. intros j Hj. destruct (Z.eq_dec j (a + 1)) as [->|]; [|apply Hch; lia].
      replace (a + 1 - 1) with a by lia. exact E.
    - exists a. split; [lia|]. split; [assumption|]. intros _. exact E. }
  apply (H (Z.to_nat N) 0); try lia.
Qed.

Lemma init_defined : forall d, dev_ok N B d -> exists w, wl_init good d N = Done w /\ wl_ok w.
Proof.
  intros d Hd. destruct (chain_exists d Hd) as (a & Ha & Hc & Hb).
  eexists. split; [exact (init_chain d a Hd Ha Hc Hb)|]. split; [reflexivity|].
  cbn [last_active_block last_marker]. split; [destruct (a + 1 <? N); lia|]. now apply mk_range.
Qed.

(** *** Writes only. *)

Definition write_data (o : wop) : list Z := match o with WWrite x => x | _ => [] end.

Lemma writes_spec : forall h d w n, dev_ok N B d -> wl_ok w -> Forall (wop_ok B) h -> Forall is_write h ->
  exists d' w', wrun N (d, w) h = Done (d', w') /\ dev_ok N B d' /\ wl_ok w' /\
    cur d' w' = fst (fold_left wstep h (cur d w, n)) /\
    let k := snd (fold_left wstep h (cur d w, n)) - n in
    0 <= k /\
    written d' = rev (map (fun i => (last_active_block w + 1 + Z.of_nat i) mod N) (seq 0 (Z.to_nat k))) ++ written d.
Proof.
  induction h as [|o h IH]; intros d w n Hd Hw Hok Hwr.
  - exists d, w. cbn [wrun fold_left fst snd]. split; [reflexivity|]. split; [assumption|]. split; [assumption|].
    split; [reflexivity|]. cbv zeta. rewrite Z.sub_diag. split; [lia|reflexivity].
  - apply Forall_cons_iff in Hok as [Ho Hok]. apply Forall_cons_iff in Hwr as [Hwo Hwr].
    destruct o as [x| |]; try destruct Hwo. cbn [wop_ok] in Ho. cbn [wrun wexec fold_left wstep fst snd].
    rewrite write_good by assumption. destruct (same x (cur d w)) eqn:Es; cbn [obind].
    + apply IH; assumption.
    + set (b := (last_active_block w + 1) mod N). set (m := (last_marker w + 1) mod 256).
      assert (Hb : 0 <= b < N) by (apply Z.mod_pos_bound; lia).
      assert (Hm : 0 <= m < 256) by (apply Z.mod_pos_bound; lia).
      set (d1 := mkDev _ _ _). set (w1 := mkWl N b m).
      assert (Hd1 : dev_ok N B d1) by (apply dev_next; assumption).
      assert (Hw1 : wl_ok w1) by (apply wl_next; assumption).
      assert (Hc1 : cur d1 w1 = x).
      { unfold cur, d1, w1. cbn [blocks last_active_block]. destruct Hd as (D1 & D2 & D3 & D4).
        apply nth_upd_eq. unfold zlen in D3. lia. }
      destruct (IH d1 w1 (n + 1) Hd1 Hw1 Hok Hwr) as (d' & w' & E & Hd' & Hw' & C & K & L).
      rewrite Hc1 in *. exists d', w'. split; [exact E|]. split; [exact Hd'|]. split; [exact Hw'|]. split; [exact C|].
      cbv zeta in *. set (k := snd (fold_left wstep h (x, n + 1))) in *. split; [lia|].
      rewrite L. unfold d1. cbn [written].
      replace (Z.to_nat (k - n)) with (S (Z.to_nat (k - (n + 1)))) by lia.
      cbn [seq map rev]. rewrite <- app_assoc. cbn [app]. f_equal.
      * f_equal. rewrite <- seq_shift, map_map. apply map_ext. intros i. unfold w1, b. cbn [last_active_block].
        rewrite <- Z.add_assoc, Z.add_mod_idemp_l by lia. f_equal. lia.
      * f_equal. unfold b. f_equal. lia.
Qed.

(** *** Histories with restarts, from an erased device with markers [c]. *)

Definition place (L a j : Z) : Z := if j <=? a then N * L + j else if L =? 0 then 0 else N * (L - 1) + j.

Definition rinv (c n : Z) (d : device) (w : wlm) : Prop :=
  dev_ok N B d /\ blocks_in_page w = N /\ 0 <= n /\
  last_active_block w = n mod N /\ last_marker w = (c + n) mod 256 /\
  forall j, 0 <= j < N -> mk d j = (c + place (n / N) (n mod N) j) mod 256.

Lemma mod_neq : forall x y, 0 < y - x < 256 -> x mod 256 <> y mod 256.
Proof. intros x y H E. Z.div_mod_to_equations. lia. Qed.

Lemma succ_mod : forall x, (x mod 256 + 1) mod 256 = (x + 1) mod 256.
Proof. intros. rewrite Z.add_mod_idemp_l by lia. reflexivity. Qed.

Lemma rinv_init : forall c n d w, 0 <= c < 256 -> rinv c n d w -> N = 1 \/ not_last N n ->
  wl_init good d N = Done w.
Proof.
  intros c n d w Hc (Hd & W1 & Hn & W2 & W3 & Hmk) Hpos.
  pose proof (Z.mod_pos_bound n N ltac:(lia)) as Ha. pose proof (Z.div_mod n N ltac:(lia)) as HD.
  assert (HL : 0 <= n / N) by (apply Z.div_pos; lia).
  set (a := n mod N) in *. set (L := n / N) in *.
  assert (Hlast : mk d a = (c + n) mod 256).
  { rewrite Hmk by lia. unfold place. destruct (Z.leb_spec a a); [|lia]. f_equal. lia. }
  rewrite (init_chain d a); try assumption; try lia.
  - destruct w as [wb wa wm]. cbn [blocks_in_page last_active_block last_marker] in *. subst wb wa wm.
    f_equal. rewrite Hlast. f_equal. destruct (Z.ltb_spec (a + 1) N); [reflexivity|].
    destruct Hpos as [->|Hp]; [lia|]. unfold not_last in Hp. fold a in Hp. lia.
  - intros j Hj. rewrite !Hmk by lia. rewrite succ_mod. unfold place.
    destruct (Z.leb_spec j a), (Z.leb_spec (j - 1) a); lia.
  - intros Hlt. rewrite !Hmk by lia. rewrite succ_mod. unfold place.
    destruct (Z.leb_spec (a + 1) a), (Z.leb_spec a a); try lia.
    destruct (Z.eqb_spec L 0) as [E|E]; apply mod_neq.
    + rewrite E. lia.
    + replace (N * (L - 1)) with (N * L - N) by lia. lia.
Qed.

Lemma rinv_write : forall c n d w x, 0 <= c < 256 -> rinv c n d w -> zlen x = B -> same x (cur d w) = false ->
  exists d' w', wl_write good d w x = Done (d', w', 0) /\ rinv c (n + 1) d' w' /\ cur d' w' = x.
Proof.
  intros c n d w x Hc (Hd & W1 & Hn & W2 & W3 & Hmk) Hx Hs.
  pose proof (Z.mod_pos_bound n N ltac:(lia)) as Ha. pose proof (Z.div_mod n N ltac:(lia)) as HD.
  assert (HL : 0 <= n / N) by (apply Z.div_pos; lia).
  assert (Hw : wl_ok w).
  { split; [exact W1|]. split; [lia|]. rewrite W3. apply Z.mod_pos_bound. lia. }
  rewrite write_good by assumption. rewrite Hs. eexists. eexists. split; [reflexivity|].
  assert (Eb : (last_active_block w + 1) mod N = (n + 1) mod N) by (rewrite W2, Z.add_mod_idemp_l by lia; reflexivity).
  assert (Em : (last_marker w + 1) mod 256 = (c + (n + 1)) mod 256) by (rewrite W3, succ_mod; f_equal; lia).
  rewrite Eb, Em. clear Eb Em W2 W3 Hw. set (b := (n + 1) mod N).
  assert (Hb : 0 <= b < N) by (apply Z.mod_pos_bound; lia).
  assert (D3 : zlen (blocks d) = N /\ zlen (markers d) = N) by (destruct Hd as (D1 & D2 & D3 & D4); lia).
  split.
  - split; [apply dev_next; [assumption|apply Z.mod_pos_bound; lia|assumption]|].
    cbn [blocks_in_page last_active_block last_marker markers].
    split; [reflexivity|]. split; [lia|]. split; [reflexivity|]. split; [reflexivity|].
    intros j Hj. fold b. destruct (Z.eq_dec j b) as [->|Hne].
    + rewrite nth_upd_eq by (unfold zlen in D3; lia). f_equal. f_equal. unfold place.
      destruct (Z.leb_spec b b); [|lia]. unfold b. apply Z.div_mod. lia.
    + rewrite nth_upd_neq by lia. rewrite Hmk by assumption. f_equal. f_equal.
      set (a := n mod N) in *. set (L := n / N) in *.
      destruct (Z.eq_dec (a + 1) N) as [EN|EN].
      * assert (E1 : b = 0) by (symmetry; apply Z.mod_unique with (q := L + 1); lia).
        assert (E2 : (n + 1) / N = L + 1) by (symmetry; apply Z.div_unique with (r := 0); lia).
        rewrite E1, E2 in *. unfold place. destruct (Z.leb_spec j a); [|lia]. destruct (Z.leb_spec j 0); [lia|].
        destruct (Z.eqb_spec (L + 1) 0); [lia|]. f_equal. f_equal. lia.
      * assert (E1 : b = a + 1) by (symmetry; apply Z.mod_unique with (q := L); lia).
        assert (E2 : (n + 1) / N = L) by (symmetry; apply Z.div_unique with (r := a + 1); lia).
        rewrite E1, E2 in *. unfold place. destruct (Z.leb_spec j a), (Z.leb_spec j (a + 1)); try lia. 
  - unfold cur. cbn [blocks last_active_block]. apply nth_upd_eq. unfold zlen in D3. lia.
Qed.

Lemma restart_run : forall c h n d w, 0 <= c < 256 -> rinv c n d w -> Forall (wop_ok B) h ->
  restarts_ok N (cur d w, n) h ->
  exists d' w', wrun N (d, w) h = Done (d', w') /\ rinv c (snd (fold_left wstep h (cur d w, n))) d' w' /\
    cur d' w' = fst (fold_left wstep h (cur d w, n)).
Proof.
  intros c. induction h as [|o h IH]; intros n d w Hc HI Hok Hr.
  - exists d, w. split; [reflexivity|]. split; [exact HI|reflexivity].
  - apply Forall_cons_iff in Hok as [Ho Hok]. cbn [restarts_ok] in Hr. destruct Hr as [Hr1 Hr].
    cbn [wrun fold_left]. destruct o as [x| |x g]; cbn [wexec wstep wop_ok fst snd] in *.
    + destruct (same x (cur d w)) eqn:Es.
      * pose proof HI as (Hd & W1 & Hn & W2 & W3 & Hmk).
        assert (Hw : wl_ok w).
        { split; [exact W1|]. split; [rewrite W2; apply Z.mod_pos_bound; lia|]. rewrite W3. apply Z.mod_pos_bound. lia. }
        rewrite write_good by assumption. rewrite Es. cbn [obind]. apply IH; assumption.
      * destruct (rinv_write c n d w x Hc HI Ho Es) as (d1 & w1 & E1 & HI1 & C1). rewrite E1. cbn [obind].
        destruct (IH (n + 1) d1 w1 Hc HI1 Hok) as (d' & w' & E & H1 & H2); [now rewrite C1|].
        rewrite C1 in *. exists d', w'. auto.
    + rewrite (rinv_init c n d w Hc HI Hr1). cbn [obind]. apply IH; assumption.
    + destruct Ho as [Hx Hg]. pose proof HI as (Hd & W1 & Hn & W2 & W3 & Hmk).
      pose proof (Z.mod_pos_bound n N ltac:(lia)) as Ha.
      assert (Hw : wl_ok w).
      { split; [exact W1|]. split; [lia|]. rewrite W3. apply Z.mod_pos_bound. lia. }
      rewrite write_torn by assumption. destruct (same x (cur d w)) eqn:Es; cbn [obind].
      * rewrite (rinv_init c n d w Hc HI (or_intror Hr1)). cbn [obind]. apply IH; assumption.
      * set (b := (last_active_block w + 1) mod N). set (d1 := mkDev _ _ _).
        assert (HI1 : rinv c n d1 w).
        { split; [apply dev_torn; assumption|]. repeat (split; [assumption|]). exact Hmk. }
        rewrite (rinv_init c n d1 w Hc HI1 (or_intror Hr1)). cbn [obind].
        assert (C1 : cur d1 w = cur d w).
        { unfold cur, d1. cbn [blocks]. apply nth_upd_neq. unfold b. rewrite W2.
          unfold not_last in Hr1.
          assert (E : (n mod N + 1) mod N = n mod N + 1) by (apply Z.mod_small; lia). lia. }
        destruct (IH n d1 w Hc HI1 Hok) as (d' & w' & E & H1 & H2); [now rewrite C1|].
        rewrite C1 in *. exists d', w'. auto.
Qed.

Lemma erased_start : forall c d, 0 <= c < 256 -> dev_ok N B d -> erased c d ->
  rinv c 0 d (mkWl N 0 c) /\ wl_init good d N = Done (mkWl N 0 c).
Proof.
  intros c d Hc Hd He.
  assert (Hmk : forall j, 0 <= j < N -> mk d j = c).
  { intros j Hj. exact (Forall_nth_Z _ _ _ j 0 He ltac:(destruct Hd as (D1 & _); lia)). }
  assert (HI : rinv c 0 d (mkWl N 0 c)).
  { split; [exact Hd|]. split; [reflexivity|]. split; [lia|]. cbn [last_active_block last_marker].
    rewrite Z.mod_0_l, Z.div_0_l by lia. split; [reflexivity|]. split; [rewrite Z.mod_small; lia|].
    intros j Hj. rewrite Hmk by assumption. unfold place. cbn [Z.eqb].
    destruct (Z.leb_spec j 0); rewrite Z.mod_small; lia. }
  split; [exact HI|]. apply (rinv_init c 0); try assumption.
  destruct (Z.eq_dec N 1); [now left|]. right. unfold not_last. rewrite Z.mod_0_l by lia. lia.
Qed.

Lemma wear_restart_l : forall c d h, 0 <= c < 256 -> dev_ok N B d -> erased c d -> Forall (wop_ok B) h ->
  let d0 := nth 0 (blocks d) [] in
  restarts_ok N (d0, 0) h ->
  wread B N d h = Done (0, fst (wstate d0 h)).
Proof.
  intros c d h Hc Hd He Hok d0 Hr. unfold wread, wstart.
  destruct (erased_start c d Hc Hd He) as [HI HE]. rewrite HE. cbn [obind].
  destruct (restart_run c h 0 d (mkWl N 0 c) Hc HI Hok) as (d' & w' & E & HI' & C); [exact Hr|].
  rewrite E. cbn [obind]. unfold wl_read. cbn [rd good].
  destruct HI' as (Hd' & W1 & Hn & W2 & W3 & Hmk).
  rewrite rd_spec; [|assumption|rewrite W2; apply Z.mod_pos_bound; lia]. f_equal. f_equal. exact C.
Qed.

Lemma wear_read_l : forall d h, dev_ok N B d -> Forall (wop_ok B) h -> Forall is_write h ->
  exists d0, wread B N d [] = Done (0, d0) /\ wread B N d h = Done (0, fst (wstate d0 h)).
Proof.
  intros d h Hd Hok Hwr. unfold wread, wstart. destruct (init_defined d Hd) as (w & E & Hw). rewrite E. cbn [obind].
  exists (cur d w). cbn [wrun obind]. unfold wl_read. cbn [rd good].
  destruct (writes_spec h d w 0 Hd Hw Hok Hwr) as (d' & w' & E' & Hd' & Hw' & C & _). rewrite E'. cbn [obind].
  destruct Hw as (_ & W2 & _). destruct Hw' as (_ & W2' & _). rewrite !rd_spec by assumption.
  split; [reflexivity|]. f_equal. f_equal. exact C.
Qed.

(** *** Evenness. *)
Lemma times_app : forall b l l', times b (l ++ l') = times b l + times b l'.
Proof. intros. unfold times. rewrite count_occ_app. lia. Qed.

Lemma times_rev : forall b l, times b (rev l) = times b l.
Proof. intros b l. induction l as [|x l IH]; [reflexivity|]. cbn [rev]. rewrite times_app, IH. unfold times. cbn [count_occ]. destruct (Z.eq_dec x b); lia. Qed.

Lemma times_round : forall a b, 0 <= b < N -> forall k,
  times b (map (fun i => (a + Z.of_nat i) mod N) (seq 0 k)) =
    Z.of_nat k / N + (if (b - a) mod N <? Z.of_nat k mod N then 1 else 0).
Proof.
  intros a b Hb. induction k as [|k IH].
  - unfold times. cbn [seq map count_occ]. change (Z.of_nat 0) with 0. rewrite Z.div_0_l, Z.mod_0_l by lia. pose proof (Z.mod_pos_bound (b - a) N ltac:(lia)).
    destruct (Z.ltb_spec ((b - a) mod N) 0); [lia|reflexivity].
  - rewrite seq_S, map_app, times_app, IH. cbn [map Nat.add].
    pose proof (Z.mod_pos_bound (b - a) N ltac:(lia)) as Hr. set (r := (b - a) mod N) in *.
    pose proof (Z.div_mod (Z.of_nat k) N ltac:(lia)) as HD. pose proof (Z.mod_pos_bound (Z.of_nat k) N ltac:(lia)) as HM.
    assert (Hhit : (a + Z.of_nat k) mod N = b <-> r = Z.of_nat k mod N).
    { unfold r. split; intros E.
      - rewrite <- E. rewrite Zminus_mod_idemp_l. f_equal. lia.
      - rewrite <- Z.add_mod_idemp_r by lia. rewrite <- E. rewrite Z.add_mod_idemp_r by lia.
        replace (a + (b - a)) with b by lia. apply Z.mod_small; lia. }
    assert (Ht : times b [(a + Z.of_nat k) mod N] = if Z.eq_dec r (Z.of_nat k mod N) then 1 else 0).
    { unfold times. cbn [count_occ]. destruct (Z.eq_dec ((a + Z.of_nat k) mod N) b), (Z.eq_dec r (Z.of_nat k mod N)); tauto || lia. }
    rewrite Ht. clear Ht Hhit IH. set (q := Z.of_nat k / N) in *. set (p := Z.of_nat k mod N) in *. clearbody r q p.
    destruct (Z.eq_dec (p + 1) N) as [EN|EN].
    + assert (E1 : Z.of_nat (S k) / N = q + 1) by (symmetry; apply Z.div_unique with (r := 0); lia).
      assert (E2 : Z.of_nat (S k) mod N = 0) by (symmetry; apply Z.mod_unique with (q := q + 1); lia).
      rewrite E1, E2. destruct (Z.ltb_spec r p), (Z.ltb_spec r 0), (Z.eq_dec r p); lia.
    + assert (E1 : Z.of_nat (S k) / N = q) by (symmetry; apply Z.div_unique with (r := p + 1); lia).
      assert (E2 : Z.of_nat (S k) mod N = p + 1) by (symmetry; apply Z.mod_unique with (q := q); lia).
      rewrite E1, E2. destruct (Z.ltb_spec r p), (Z.ltb_spec r (p + 1)), (Z.eq_dec r p); lia.
Qed.

Lemma wear_even_l : forall d h, dev_ok N B d -> written d = [] -> Forall (wop_ok B) h -> Forall is_write h ->
  exists d0 d' w', wread B N d [] = Done (0, d0) /\
    (do s <- wstart N d; wrun N s h) = Done (d', w') /\
    zlen (written d') = snd (wstate d0 h) /\
    (exists a, written d' = rev (map (fun i => (a + Z.of_nat i) mod N) (seq 0 (length (written d'))))) /\
    forall b b', 0 <= b < N -> 0 <= b' < N -> Z.abs (times b (written d') - times b' (written d')) <= 1.
Proof.
  intros d h Hd Hz Hok Hwr. unfold wread, wstart. destruct (init_defined d Hd) as (w & E & Hw). rewrite E. cbn [obind].
  exists (cur d w).
  destruct (writes_spec h d w 0 Hd Hw Hok Hwr) as (d' & w' & E' & Hd' & Hw' & C & K & L).
  exists d', w'. cbn [wrun obind]. unfold wl_read. cbn [rd good]. destruct Hw as (_ & W2 & _). rewrite rd_spec by assumption.
  split; [reflexivity|]. split; [exact E'|]. rewrite Hz, app_nil_r in L. rewrite Z.sub_0_r in *.
  rewrite L. split; [|split].
  - unfold zlen. rewrite rev_length, map_length, seq_length. unfold wstate. lia.
  - exists (last_active_block w + 1). rewrite rev_length, map_length, seq_length. reflexivity.
  - intros b b' Hb Hb'. rewrite !times_rev, !times_round by assumption.
    destruct (_ <? _), (_ <? _); lia.
Qed.

(** *** Failures. *)
Lemma wear_failed_write_l : forall code d w x, code <> 0 -> dev_ok N B d -> wl_ok w -> zlen x = B ->
  same x (cur d w) = false ->
  exists w', wl_write (refusing code) d w x = Done (d, w', code).
Proof.
  intros code d w x Hc Hd Hw Hx Hs. rewrite write_gen by (try assumption; reflexivity). rewrite Hs.
  cbn [wr refusing obind]. eexists. reflexivity.
Qed.

Lemma unreadable_loop : forall k code d, code <> 0 -> forall n i last,
  (exists l, search_loop (unreadable k code) d N n i last = Done (code, l)) \/
  search_loop (unreadable k code) d N n i last = search_loop good d N n i last.
Proof.
  intros k code d Hc. induction n as [|n IH]; intros i last; [now right|]. cbn [search_loop].
  destruct (i <? N); [|now right]. cbn [rm unreadable good]. destruct (k <=? i).
  - cbn [obind]. destruct (Z.eqb_spec code 0); [contradiction|]. cbn [negb]. left. eauto.
  - destruct (dev_rm d i) as [[e m]| | |]; try (now right). cbn [obind].
    destruct (negb (e =? 0)); [now right|].
    destruct (NEXT_BLOCK last MAX_BLOCKS_IN_PAGE) as [x| | |]; try (now right). cbn [obind].
    destruct (negb (m =? x)); [now right|]. apply IH.
Qed.

Lemma wear_unreadable_l : forall k code d, code <> 0 -> dev_ok N B d -> 0 <= k ->
  exists w, wl_init (unreadable k code) d N = Done w /\
    (last_active_block w = wrap 64 code \/ wl_init good d N = Done w).
Proof.
  intros k code d Hc Hd Hk. destruct (init_defined d Hd) as (w & E & _). unfold wl_init in *.
  destruct (MAX_BLOCKS_IN_PAGE <=? N); [discriminate|]. unfold search_last in *.
  cbn [rm unreadable good] in *. destruct (k <=? 0).
  - cbn [obind]. destruct (Z.eqb_spec code 0); [contradiction|]. cbn [negb obind]. eexists. split; [reflexivity|]. now left.
  - rewrite rm_spec in * by (assumption || lia). cbn [obind Z.eqb negb] in *.
    destruct (unreadable_loop k code d Hc (S (Z.to_nat N)) 1 (nth (Z.to_nat 0) (markers d) 0)) as [[l H]|H]; rewrite H.
    + cbn [obind]. eexists. split; [reflexivity|]. now left.
    + rewrite E. exists w. auto.
Qed.

(** *** A restart while the last block is active. *)

Lemma div_next : forall n, 0 <= n ->
  ((n + 1) mod N = 0 /\ n + 1 = N * ((n + 1) / N)) \/ ((n + 1) mod N <> 0 /\ (n + 1) / N = n / N).
Proof.
  intros n Hn. pose proof (Z.mod_pos_bound n N ltac:(lia)) as Ha. pose proof (Z.div_mod n N ltac:(lia)) as HD.
  pose proof (Z.div_mod (n + 1) N ltac:(lia)) as HD'.
  destruct (Z.eq_dec ((n + 1) mod N) 0) as [E|E]; [left; lia|right]. split; [exact E|].
  assert (n mod N + 1 <> N).
  { intros H. apply E. symmetry. apply Z.mod_unique with (q := n / N + 1); lia. }
  symmetry. apply Z.div_unique with (r := n mod N + 1); lia.
Qed.

Lemma block0_run : forall c h n d w, 0 <= c < 256 -> rinv c n d w -> Forall (wop_ok B) h ->
  restarts_ok N (cur d w, n) h ->
  exists d' w', wrun N (d, w) h = Done (d', w') /\ let n' := snd (fold_left wstep h (cur d w, n)) in
    rinv c n' d' w' /\ ((n' / N = n / N /\ nth 0 (blocks d') [] = nth 0 (blocks d) []) \/
     exists h1 h2, h = h1 ++ h2 /\ snd (fold_left wstep h1 (cur d w, n)) = N * (n' / N) /\
       nth 0 (blocks d') [] = fst (fold_left wstep h1 (cur d w, n))).
Proof.
  intros c. induction h as [|o h IH]; intros n d w Hc HI Hok Hr.
  - exists d, w. split; [reflexivity|]. split; [exact HI|]. left. split; reflexivity.
  - apply Forall_cons_iff in Hok as [Ho Hok]. cbn [restarts_ok] in Hr. destruct Hr as [Hr1 Hr].
    pose proof HI as (Hd & W1 & Hn & W2 & W3 & Hmk).
    pose proof (Z.mod_pos_bound n N ltac:(lia)) as Ha.
    assert (Hw : wl_ok w).
    { split; [exact W1|]. split; [lia|]. rewrite W3. apply Z.mod_pos_bound. lia. }
    assert (Same : forall d1, rinv c n d1 w -> cur d1 w = cur d w -> wstep (cur d w, n) o = (cur d w, n) ->
        nth 0 (blocks d1) [] = nth 0 (blocks d) [] ->
        exists d' w', wrun N (d1, w) h = Done (d', w') /\
          let n' := snd (fold_left wstep (o :: h) (cur d w, n)) in
          rinv c n' d' w' /\
          ((n' / N = n / N /\ nth 0 (blocks d') [] = nth 0 (blocks d) []) \/
           exists h1 h2, o :: h = h1 ++ h2 /\ snd (fold_left wstep h1 (cur d w, n)) = N * (n' / N) /\
             nth 0 (blocks d') [] = fst (fold_left wstep h1 (cur d w, n)))).
    { intros d1 HI1 C1 Hs Hb. cbn [fold_left] in *. rewrite Hs in *.
      destruct (IH n d1 w Hc HI1 Hok) as (d' & w' & E & H1 & H2); [now rewrite C1|].
      rewrite C1 in *. exists d', w'. split; [exact E|]. split; [exact H1|].
      destruct H2 as [[H2 H3]|(h1 & h2 & -> & H2 & H3)].
      - left. split; [exact H2|]. now rewrite H3.
      - right. exists (o :: h1), h2. split; [reflexivity|]. cbn [fold_left]. now rewrite Hs. }
    cbn [wrun]. destruct o as [x| |x g]; cbn [wexec wop_ok fst snd] in *.
    + destruct (same x (cur d w)) eqn:Es.
      * rewrite write_good by assumption. rewrite Es. cbn [obind]. apply Same; auto.
        cbn [wstep fst snd]. now rewrite Es.
      * destruct (rinv_write c n d w x Hc HI Ho Es) as (d1 & w1 & E1 & HI1 & C1). rewrite E1. cbn [obind].
        cbn [fold_left wstep fst snd] in *. rewrite Es in *.
        destruct (IH (n + 1) d1 w1 Hc HI1 Hok) as (d' & w' & E & H1 & H2); [now rewrite C1|].
        rewrite C1 in *. exists d', w'. split; [exact E|]. split; [exact H1|].
        set (n' := snd (fold_left wstep h (x, n + 1))) in *.
        assert (HBk : nth 0 (blocks d1) [] = if (n + 1) mod N =? 0 then x else nth 0 (blocks d) []).
        { rewrite write_good in E1 by assumption. rewrite Es in E1. injection E1 as <- _. cbn [blocks].
          rewrite W2, Z.add_mod_idemp_l by lia.
          pose proof (Z.mod_pos_bound (n + 1) N ltac:(lia)) as Hb.
          destruct Hd as (D1 & D2 & D3 & D4). unfold zlen in D3.
          destruct (Z.eqb_spec ((n + 1) mod N) 0) as [->|Hne].
          - apply nth_upd_eq. lia.
          - apply nth_upd_neq. lia. }
        destruct H2 as [[H2 H3]|(h1 & h2 & -> & H2 & H3)].
        -- destruct (div_next n Hn) as [[Hz Hq]|[Hz Hq]].
           ++ right. exists [WWrite x], h. split; [reflexivity|]. cbn [fold_left wstep fst snd]. rewrite Es. cbn [fst snd].
              rewrite H2, <- Hq. split; [reflexivity|]. rewrite H3, HBk, Hz. reflexivity.
           ++ left. split; [lia|]. rewrite H3, HBk. destruct (Z.eqb_spec ((n + 1) mod N) 0); [contradiction|reflexivity].
        -- right. exists (WWrite x :: h1), h2. split; [reflexivity|]. cbn [fold_left wstep fst snd]. rewrite Es.
           split; assumption.
    + rewrite (rinv_init c n d w Hc HI Hr1). cbn [obind]. apply Same; auto.
    + destruct Ho as [Hx Hg]. rewrite write_torn by assumption. destruct (same x (cur d w)) eqn:Es; cbn [obind].
      * rewrite (rinv_init c n d w Hc HI (or_intror Hr1)). cbn [obind]. apply Same; auto.
      * set (b := (last_active_block w + 1) mod N). set (d1 := mkDev _ _ _).
        assert (HI1 : rinv c n d1 w).
        { split; [apply dev_torn; assumption|]. repeat (split; [assumption|]). exact Hmk. }
        rewrite (rinv_init c n d1 w Hc HI1 (or_intror Hr1)). cbn [obind].
        assert (Eb : b = n mod N + 1).
        { unfold b. rewrite W2. unfold not_last in Hr1. apply Z.mod_small. lia. }
        apply Same; auto.
        -- unfold cur, d1. cbn [blocks]. apply nth_upd_neq. rewrite W2. lia.
        -- unfold d1. cbn [blocks]. apply nth_upd_neq. lia.
Qed.

Lemma wear_falls_back_l : forall c d h, 0 <= c < 256 -> dev_ok N B d -> erased c d -> Forall (wop_ok B) h ->
  let d0 := nth 0 (blocks d) [] in let n := snd (wstate d0 h) in
  restarts_ok N (d0, 0) h -> 1 < N -> n mod N = N - 1 ->
  exists h1 h2, h = h1 ++ h2 /\ snd (wstate d0 h1) = n - (N - 1) /\
    wread B N d (h ++ [WRestart]) = Done (0, fst (wstate d0 h1)).
Proof.
  intros c d h Hc Hd He Hok d0 n Hr H1N Hlast. unfold wread, wstart.
  destruct (erased_start c d Hc Hd He) as [HI HE]. rewrite HE. cbn [obind].
  destruct (block0_run c h 0 d (mkWl N 0 c) Hc HI Hok) as (d' & w' & E & HI' & HBk); [exact Hr|].
  change (cur d (mkWl N 0 c)) with d0 in *. fold (wstate d0 h) in HI', HBk. fold n in HI', HBk.
  assert (Eapp : forall a b s, wrun N s (a ++ b) = (do s' <- wrun N s a; wrun N s' b)).
  { clear. induction a as [|o a IH]; intros b s; [reflexivity|]. cbn [app wrun].
    destruct (wexec N s o); cbn [obind]; auto. }
  rewrite Eapp, E. cbn [obind wrun wexec].
  destruct HI' as (Hd' & W1 & Hn & W2 & W3 & Hmk).
  pose proof (Z.div_mod n N ltac:(lia)) as HD.
  rewrite (init_chain d' (N - 1)); try assumption; try lia.
  2:{ intros j Hj. rewrite !Hmk by lia. rewrite succ_mod. unfold place.
      destruct (Z.leb_spec j (n mod N)), (Z.leb_spec (j - 1) (n mod N)); lia. }
  destruct (Z.ltb_spec (N - 1 + 1) N); [lia|]. cbn [obind]. unfold wl_read. cbn [rd good last_active_block].
  rewrite rd_spec by (assumption || lia). change (Z.to_nat 0) with O.
  destruct HBk as [[HB1 HB2]|(h1 & h2 & Hh & HB1 & HB2)].
  - exists [], h. rewrite Z.div_0_l in HB1 by lia. split; [reflexivity|]. cbn [wstate fold_left fst snd].
    split; [rewrite HB1 in HD; lia|]. now rewrite HB2.
  - exists h1, h2. split; [exact Hh|]. unfold wstate. rewrite HB1, HB2. split; [lia|reflexivity].
Qed.

End W.
