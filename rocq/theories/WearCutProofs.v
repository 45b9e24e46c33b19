(** Proofs about power failures that damage markers. *)
From Coq Require Import ZifyBool ZifyNat.
From Verif Require Import Base BaseLemmas WearModel WearSpec WearSystem WearProofs WearCutSpec WearCutSystem.

Section K.
Variables (N B : Z).
Hypothesis HN : 0 < N < 256.
Hypothesis HB : 0 < B < 2 ^ 64.
Set Default Proof Using "HN HB".
Notation mk d j := (nth (Z.to_nat j) (markers d) 0).

(** The marker behind the active block is arbitrary, but does not follow. *)
Definition kinv (c n : Z) (d : device) (w : wlm) : Prop :=
  dev_ok N B d /\ blocks_in_page w = N /\ 0 <= n /\
  last_active_block w = n mod N /\ last_marker w = (c + n) mod 256 /\
  (forall j, 0 <= j < N -> j <> n mod N + 1 -> mk d j = (c + place N (n / N) (n mod N) j) mod 256) /\
  (n mod N + 1 < N -> mk d (n mod N + 1) <> (c + (n + 1)) mod 256).

Lemma kinv_wl : forall c n d w, kinv c n d w -> wl_ok N w.
Proof.
  intros c n d w (Hd & W1 & Hn & W2 & W3 & _). split; [exact W1|]. split; [rewrite W2; apply Z.mod_pos_bound; lia|].
  rewrite W3. apply Z.mod_pos_bound. lia.
Qed.

Lemma kinv_init : forall c n d w, 0 <= c < 256 -> kinv c n d w -> not_last N n -> wl_init good d N = Done w.
Proof.
  intros c n d w Hc (Hd & W1 & Hn & W2 & W3 & Hmk & Hnx) Hpos.
  pose proof (Z.mod_pos_bound n N ltac:(lia)) as Ha. pose proof (Z.div_mod n N ltac:(lia)) as HD.
  unfold not_last in Hpos. set (a := n mod N) in *. set (L := n / N) in *.
  assert (Hlast : mk d a = (c + n) mod 256).
  { rewrite Hmk by lia. unfold place. destruct (Z.leb_spec a a); [|lia]. f_equal. lia. }
  rewrite (init_chain N B HN HB d a); try assumption; try lia.
  - destruct w as [wb wa wm]. cbn [blocks_in_page last_active_block last_marker] in *. subst wb wa wm.
    f_equal. rewrite Hlast. f_equal. destruct (Z.ltb_spec (a + 1) N); [reflexivity|]. lia.
  - intros j Hj. rewrite !Hmk by lia. rewrite (succ_mod N B HN HB). unfold place.
    destruct (Z.leb_spec j a), (Z.leb_spec (j - 1) a); lia.
Qed.

(** The next block gets [x] and its marker. *)
Lemma kinv_put : forall c n d w x l, 0 <= c < 256 -> kinv c n d w -> zlen x = B ->
  let b := (n + 1) mod N in let m := (c + (n + 1)) mod 256 in
  let d' := mkDev (upd (markers d) (Z.to_nat b) m) (upd (blocks d) (Z.to_nat b) x) l in
  kinv c (n + 1) d' (mkWl N b m) /\ cur d' (mkWl N b m) = x.
Proof.
  intros c n d w x l Hc (Hd & W1 & Hn & W2 & W3 & Hmk & Hnx) Hx b m d'.
  pose proof (Z.mod_pos_bound n N ltac:(lia)) as Ha. pose proof (Z.div_mod n N ltac:(lia)) as HD.
  assert (HL : 0 <= n / N) by (apply Z.div_pos; lia).
  assert (Hb : 0 <= b < N) by (apply Z.mod_pos_bound; lia).
  assert (D3 : zlen (blocks d) = N /\ zlen (markers d) = N) by (destruct Hd as (D1 & D2 & D3 & D4); lia).
  assert (P : forall j, 0 <= j < N -> j <> b -> mk d' j = (c + place N ((n + 1) / N) b j) mod 256).
  { intros j Hj Hne. unfold d'. cbn [markers]. rewrite nth_upd_neq by lia.
    set (a := n mod N) in *. set (L := n / N) in *.
    destruct (Z.eq_dec (a + 1) N) as [EN|EN].
    - assert (E1 : b = 0) by (symmetry; apply Z.mod_unique with (q := L + 1); lia).
      assert (E2 : (n + 1) / N = L + 1) by (symmetry; apply Z.div_unique with (r := 0); lia).
      rewrite E2. clearbody b. subst b. rewrite Hmk by lia. unfold place. destruct (Z.leb_spec j a); [|lia]. destruct (Z.leb_spec j 0); [lia|].
      destruct (Z.eqb_spec (L + 1) 0); [lia|]. f_equal. f_equal. f_equal. f_equal. lia.
    - assert (E1 : b = a + 1) by (symmetry; apply Z.mod_unique with (q := L); lia).
      assert (E2 : (n + 1) / N = L) by (symmetry; apply Z.div_unique with (r := a + 1); lia).
      rewrite E2. clearbody b. subst b. rewrite Hmk by lia. unfold place. destruct (Z.leb_spec j a), (Z.leb_spec j (a + 1)); try lia. }
  split.
  - split; [apply (dev_next N B HN HB); [assumption|apply Z.mod_pos_bound; lia|assumption]|].
    cbn [blocks_in_page last_active_block last_marker].
    split; [reflexivity|]. split; [lia|]. split; [reflexivity|]. split; [reflexivity|]. fold b. split.
    + intros j Hj _. destruct (Z.eq_dec j b) as [->|Hne]; [|now apply P].
      unfold d'. cbn [markers]. rewrite nth_upd_eq by (unfold zlen in D3; lia). unfold m. f_equal. f_equal. unfold place.
      destruct (Z.leb_spec b b); [|lia]. unfold b. apply Z.div_mod. lia.
    + intros Hlt. rewrite P by lia. pose proof (Z.div_mod (n + 1) N ltac:(lia)) as HD'. fold b in HD'.
      assert (HL' : 0 <= (n + 1) / N) by (apply Z.div_pos; lia).
      unfold place. destruct (Z.leb_spec (b + 1) b); [lia|].
      set (L' := (n + 1) / N) in *. destruct (Z.eqb_spec L' 0) as [E|E]; apply (mod_neq N B HN HB).
      * rewrite E in HD'. lia.
      * replace (N * (L' - 1)) with (N * L' - N) by lia. lia.
  - unfold cur, d'. cbn [blocks last_active_block]. apply nth_upd_eq. unfold zlen in D3. lia.
Qed.

(** The next block gets anything and another marker. *)
Lemma kinv_damage : forall c n d w g m l, 0 <= c < 256 -> kinv c n d w -> zlen g = B -> 0 <= m < 256 -> not_last N n ->
  m <> (c + (n + 1)) mod 256 ->
  let b := (n + 1) mod N in
  let d' := mkDev (upd (markers d) (Z.to_nat b) m) (upd (blocks d) (Z.to_nat b) g) l in
  kinv c n d' w /\ cur d' w = cur d w.
Proof.
  intros c n d w g m l Hc (Hd & W1 & Hn & W2 & W3 & Hmk & Hnx) Hg Hm Hl Hne b d'.
  pose proof (Z.mod_pos_bound n N ltac:(lia)) as Ha. pose proof (Z.div_mod n N ltac:(lia)) as HD. unfold not_last in Hl.
  assert (E1 : b = n mod N + 1) by (symmetry; apply Z.mod_unique with (q := n / N); lia).
  assert (D3 : zlen (blocks d) = N /\ zlen (markers d) = N) by (destruct Hd as (D1 & D2 & D3 & D4); lia).
  split.
  - split; [now apply (dev_next N B HN HB)|]. repeat (split; [assumption|]). unfold d'. cbn [markers]. split.
    + intros j Hj Hj'. rewrite nth_upd_neq by lia. auto.
    + intros _. rewrite <- E1, nth_upd_eq by (unfold zlen in D3; lia). exact Hne.
  - unfold cur, d'. cbn [blocks]. apply nth_upd_neq. lia.
Qed.

Lemma write_cut : forall c n d w x g m, kinv c n d w -> zlen x = B ->
  wl_write (cut g m) d w x =
    if same x (cur d w) then Done (d, w, 0)
    else let b := (n + 1) mod N in
         Done (mkDev (upd (markers d) (Z.to_nat b) m) (upd (blocks d) (Z.to_nat b) g) (b :: written d), mkWl N b ((c + (n + 1)) mod 256), 0).
Proof.
  intros c n d w x g m HI Hx. pose proof (kinv_wl _ _ _ _ HI) as Hw. destruct HI as (Hd & W1 & Hn & W2 & W3 & _).
  rewrite (write_gen N B HN HB) by (try assumption; reflexivity).
  assert (Eb : (last_active_block w + 1) mod N = (n + 1) mod N) by (rewrite W2, Z.add_mod_idemp_l by lia; reflexivity).
  assert (Em : (last_marker w + 1) mod 256 = (c + (n + 1)) mod 256) by (rewrite W3, (succ_mod N B HN HB); f_equal; lia).
  rewrite Eb, Em. destruct (same x (cur d w)); [reflexivity|]. cbv zeta. cbn [wr cut].
  pose proof (Z.mod_pos_bound (n + 1) N ltac:(lia)) as Hb. destruct Hd as (D1 & D2 & D3 & D4).
  rewrite zset_ok by lia. cbn [obind]. rewrite zset_ok by lia. reflexivity.
Qed.

Lemma cut_run : forall c h n d w, 0 <= c < 256 -> kinv c n d w -> Forall (kop_ok B) h ->
  starts_ok N c (cur d w, n) h ->
  exists d' w', krun N (d, w) h = Done (d', w') /\ kinv c (snd (fold_left (kstep c) h (cur d w, n))) d' w' /\
    cur d' w' = fst (fold_left (kstep c) h (cur d w, n)).
Proof.
  intros c. induction h as [|o h IH]; intros n d w Hc HI Hok Hr.
  - exists d, w. split; [reflexivity|]. split; [exact HI|reflexivity].
  - apply Forall_cons_iff in Hok as [Ho Hok]. cbn [starts_ok] in Hr. destruct Hr as [Hr1 Hr].
    cbn [krun fold_left]. destruct o as [x| |x g m]; cbn [kexec kstep kop_ok fst snd] in *.
    + pose proof (kinv_wl _ _ _ _ HI) as Hw. pose proof HI as (Hd & W1 & Hn & W2 & W3 & _).
      rewrite (write_good N B HN HB) by assumption.
      assert (Eb : (last_active_block w + 1) mod N = (n + 1) mod N) by (rewrite W2, Z.add_mod_idemp_l by lia; reflexivity).
      assert (Em : (last_marker w + 1) mod 256 = (c + (n + 1)) mod 256) by (rewrite W3, (succ_mod N B HN HB); f_equal; lia).
      rewrite Eb, Em. destruct (same x (cur d w)) eqn:Es; cbn [obind]; [now apply IH|].
      destruct (kinv_put c n d w x ((n + 1) mod N :: written d) Hc HI Ho) as (HI1 & C1). cbv zeta in HI1, C1.
      destruct (IH (n + 1) _ _ Hc HI1 Hok) as (d' & w' & E & H1 & H2); [now rewrite C1|].
      rewrite C1 in *. exists d', w'. auto.
    + rewrite (kinv_init c n d w Hc HI Hr1). cbn [obind]. now apply IH.
    + destruct Ho as (Hx & Hg & Hm). rewrite (write_cut c n) by assumption.
      destruct (same x (cur d w)) eqn:Es; cbn [obind fst snd] in *.
      * rewrite (kinv_init c n d w Hc HI Hr1). cbn [obind]. now apply IH.
      * cbv zeta. cbn [obind]. destruct (Z.eqb_spec m ((c + (n + 1)) mod 256)) as [->|Hne]; cbn [fst snd] in *.
        -- destruct (kinv_put c n d w g ((n + 1) mod N :: written d) Hc HI Hg) as (HI1 & C1). cbv zeta in HI1, C1.
           rewrite (kinv_init c (n + 1) _ _ Hc HI1 Hr1). cbn [obind].
           destruct (IH (n + 1) _ _ Hc HI1 Hok) as (d' & w' & E & H1 & H2); [now rewrite C1|].
           rewrite C1 in *. exists d', w'. auto.
        -- destruct (kinv_damage c n d w g m ((n + 1) mod N :: written d) Hc HI Hg Hm Hr1 Hne) as (HI1 & C1). cbv zeta in HI1, C1.
           rewrite (kinv_init c n _ w Hc HI1 Hr1). cbn [obind].
           destruct (IH n _ w Hc HI1 Hok) as (d' & w' & E & H1 & H2); [now rewrite C1|].
           rewrite C1 in *. exists d', w'. auto.
Qed.

Lemma rinv_kinv : forall c n d w, 0 <= c < 256 -> rinv N B c n d w -> kinv c n d w.
Proof.
  intros c n d w Hc (Hd & W1 & Hn & W2 & W3 & Hmk). repeat (split; [assumption|]). split; [auto|].
  intros Hlt. pose proof (Z.mod_pos_bound n N ltac:(lia)) as Ha. pose proof (Z.div_mod n N ltac:(lia)) as HD.
  assert (HL : 0 <= n / N) by (apply Z.div_pos; lia).
  rewrite Hmk by lia. unfold place. set (a := n mod N) in *. set (L := n / N) in *.
  destruct (Z.leb_spec (a + 1) a); [lia|]. destruct (Z.eqb_spec L 0) as [E|E]; apply (mod_neq N B HN HB).
  - rewrite E in HD. lia.
  - replace (N * (L - 1)) with (N * L - N) by lia. lia.
Qed.

Lemma wear_cut_l : forall c d h, 0 <= c < 256 -> dev_ok N B d -> erased c d -> Forall (kop_ok B) h ->
  let d0 := nth 0 (blocks d) [] in
  starts_ok N c (d0, 0) h ->
  kread B N d h = Done (0, fst (kstate c d0 h)).
Proof.
  intros c d h Hc Hd He Hok d0 Hr. unfold kread, wstart.
  destruct (erased_start N B HN HB c d Hc Hd He) as [HI HE]. rewrite HE. cbn [obind].
  destruct (cut_run c h 0 d (mkWl N 0 c) Hc (rinv_kinv _ _ _ _ Hc HI) Hok) as (d' & w' & E & HI' & C); [exact Hr|].
  rewrite E. cbn [obind]. unfold wl_read. cbn [rd good].
  rewrite (rd_spec N B HN HB); [|apply HI'|apply (kinv_wl _ _ _ _ HI')]. f_equal. f_equal. exact C.
Qed.

End K.
