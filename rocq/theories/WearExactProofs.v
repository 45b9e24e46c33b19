(** The exact behaviour of the wear leveled memory. *)
From Coq Require Import ZifyBool.
From Verif Require Import Base BaseLemmas WearModel WearSpec WearSystem WearProofs.

Section X.
Variables (N B : Z).
Hypothesis HN : 0 < N < 256.
Hypothesis HB : 0 < B < 2 ^ 64.

Lemma following_l : forall ms m, let a := following m ms in
  0 <= a <= zlen ms /\
  (forall j, 1 <= j <= a -> nth (Z.to_nat j) (m :: ms) 0 = (nth (Z.to_nat (j - 1)) (m :: ms) 0 + 1) mod 256) /\
  (a + 1 < zlen (m :: ms) -> nth (Z.to_nat (a + 1)) (m :: ms) 0 <> (nth (Z.to_nat a) (m :: ms) 0 + 1) mod 256).
Proof.
  induction ms as [|x ms IH]; intros m; cbn [following]; cbv zeta.
  - unfold zlen. cbn [length]. split; [lia|]. split; [intros; lia|]. intros; lia.
  - destruct (Z.eqb_spec x ((m + 1) mod 256)) as [E|E].
    + specialize (IH x). cbv zeta in IH. set (a := following x ms) in *. destruct IH as (I1 & I2 & I3).
      assert (zlen (x :: ms) = 1 + zlen ms) by (unfold zlen; cbn [length]; lia).
      assert (zlen (m :: x :: ms) = 2 + zlen ms) by (unfold zlen; cbn [length]; lia).
      assert (S : forall j, 0 <= j -> nth (Z.to_nat (j + 1)) (m :: x :: ms) 0 = nth (Z.to_nat j) (x :: ms) 0).
      { intros j Hj. replace (Z.to_nat (j + 1)) with (S (Z.to_nat j)) by lia. reflexivity. }
      split; [lia|]. split.
      * intros j Hj. destruct (Z.eq_dec j 1) as [->|Hj1]; [exact E|].
        replace j with ((j - 1) + 1) at 1 by lia. replace (j - 1) with ((j - 2) + 1) at 2 by lia. rewrite !S by lia.
        rewrite (I2 (j - 1)) by lia. do 3 f_equal. lia.
      * intros Hlt. replace (1 + a + 1) with ((a + 1) + 1) by lia. replace (1 + a) with (a + 1) at 1 by lia. rewrite !S by lia. apply I3. lia.
    + split; [unfold zlen; lia|]. split; [intros; lia|]. intros _. exact E.
Qed.

Lemma boot_l : forall d, dev_ok N B d ->
  wl_init good d N = Done (mkWl N (here (boot (markers d) (blocks d))) (mark (boot (markers d) (blocks d)))) /\
  0 <= here (boot (markers d) (blocks d)) < N /\ 0 <= mark (boot (markers d) (blocks d)) < 256.
Proof using HN HB.
  intros d Hd. unfold boot. cbn [here mark]. pose proof Hd as (D1 & D2 & _).
  destruct (markers d) as [|m ms] eqn:Em; [unfold zlen in D1; cbn in D1; lia|]. cbn [hd tl].
  pose proof (following_l ms m) as (F1 & F2 & F3). set (a := following m ms) in *.
  assert (L : zlen (m :: ms) = zlen ms + 1) by (unfold zlen; cbn [length]; lia).
  assert (R : 0 <= nth (Z.to_nat a) (m :: ms) 0 < 256).
  { rewrite Forall_forall in D2. apply D2. apply nth_In. unfold zlen in *. lia. }
  split; [|split; [destruct (Z.eqb_spec (a + 1) (zlen (m :: ms))); lia|exact R]].
  rewrite (init_chain N B HN HB d a Hd) by (rewrite ?Em; try assumption; try lia; intros; apply F3; lia).
  rewrite Em. do 2 f_equal. destruct (Z.ltb_spec (a + 1) N), (Z.eqb_spec (a + 1) (zlen (m :: ms))); lia.
Qed.

Definition xrel (s : store) (dw : wsys) : Prop :=
  let (d, w) := dw in dev_ok N B d /\ wl_ok N w /\
  marks s = markers d /\ datas s = blocks d /\ here s = last_active_block w /\ mark s = last_marker w.

Lemma boot_rel : forall d, dev_ok N B d -> exists w, wl_init good d N = Done w /\ xrel (boot (markers d) (blocks d)) (d, w).
Proof using HN HB.
  intros d Hd. destruct (boot_l d Hd) as (E & H1 & H2). eexists. split; [exact E|]. split; [exact Hd|].
  split; [split; [reflexivity|]; split; assumption|]. repeat split.
Qed.

Lemma xstep_l : forall s dw o, xrel s dw -> xop_ok B o ->
  exists dw' , xexec N dw o = Done (dw', snd (xstep s o)) /\ xrel (fst (xstep s o)) dw'.
Proof using HN HB.
  intros [ms ds hr mk] [d w] o (Hd & Hw & Em & Ed & Eh & Ek) Ho. cbn [marks datas here mark] in *. subst ms ds hr mk.
  assert (Hst : stored (mkStore (markers d) (blocks d) (last_active_block w) (last_marker w)) = cur d w) by reflexivity.
  assert (HL : zlen (markers d) = N) by apply Hd.
  pose proof Hw as (W1 & W2 & W3).
  destruct o as [x|x e| |x g]; cbn [xexec xstep xop_ok] in *; rewrite ?Hst; cbn [here mark marks datas]; rewrite ?HL.
  - rewrite (write_good N B HN HB) by assumption. destruct (same x (cur d w)); cbn [obind fst snd].
    + eexists. split; [reflexivity|]. split; [assumption|]. split; [assumption|]. repeat split.
    + eexists. split; [reflexivity|]. split; [apply (dev_next N B HN HB); [assumption|apply Z.mod_pos_bound; lia|assumption]|].
      split; [now apply (wl_next N B HN HB)|]. repeat split.
  - rewrite (write_gen N B HN HB) by (try assumption; reflexivity). destruct (same x (cur d w)); cbn [obind fst snd wr refusing].
    + eexists. split; [reflexivity|]. split; [assumption|]. split; [assumption|]. repeat split.
    + eexists. split; [reflexivity|]. split; [assumption|]. split; [now apply (wl_next N B HN HB)|]. repeat split.
  - destruct (boot_rel d Hd) as (w' & E & R). rewrite E. cbn [obind fst snd]. eexists. split; [reflexivity|exact R].
  - destruct Ho as [Hx Hg]. rewrite (write_torn N B HN HB) by assumption. destruct (same x (cur d w)); cbn [obind fst snd].
    + destruct (boot_rel d Hd) as (w' & E & R). rewrite E. cbn [obind]. eexists. split; [reflexivity|exact R].
    + set (b := (last_active_block w + 1) mod N). set (d1 := mkDev _ _ _).
      destruct (boot_rel d1) as (w' & E & R); [now apply (dev_torn N B HN HB)|]. rewrite E. cbn [obind]. eexists. split; [reflexivity|exact R].
Qed.

Lemma xrun_l : forall h s dw, xrel s dw -> Forall (xop_ok B) h ->
  exists dw', xrun N dw h = Done (dw', snd (xstates s h)) /\ xrel (fst (xstates s h)) dw'.
Proof using HN HB.
  induction h as [|o h IH]; intros s dw R Ho; cbn [xrun xstates].
  - exists dw. split; [reflexivity|exact R].
  - apply Forall_cons_iff in Ho as [Ho Hh]. destruct (xstep_l s dw o R Ho) as (dw1 & E1 & R1). rewrite E1. cbn [obind].
    destruct (xstep s o) as [s1 r]. cbn [fst snd] in *. destruct (IH s1 dw1 R1 Hh) as (dw' & E & R'). rewrite E. cbn [obind].
    destruct (xstates s1 h) as [s' rs]. exists dw'. split; [reflexivity|exact R'].
Qed.

Lemma wear_exact_l : forall d h, dev_ok N B d -> Forall (xop_ok B) h ->
  let r := xstates (boot (markers d) (blocks d)) h in
  exists d' w', (do s <- wstart N d; xrun N s h) = Done ((d', w'), snd r) /\
    markers d' = marks (fst r) /\ blocks d' = datas (fst r) /\ wl_read good d' w' B = Done (0, stored (fst r)).
Proof using HN HB.
  intros d h Hd Ho r. unfold wstart. destruct (boot_rel d Hd) as (w & E & R). rewrite E. cbn [obind].
  destruct (xrun_l h _ _ R Ho) as ([d' w'] & E' & R'). fold r in E', R'. exists d', w'. split; [exact E'|].
  destruct R' as (Hd' & Hw' & R1 & R2 & R3 & R4). split; [congruence|]. split; [congruence|].
  unfold wl_read. cbn [rd good]. rewrite (rd_spec N B HN HB) by (apply Hd' || apply Hw'). unfold stored. rewrite R2, R3. reflexivity.
Qed.

(** Where the data come from. *)
Lemma nth_upd_or : forall A (l : list A) i j x d, nth j (upd l i x) d = x \/ nth j (upd l i x) d = nth j l d.
Proof.
  intros A. induction l as [|a l IH]; intros [|i] [|j] x d; cbn; auto.
Qed.

Lemma provenance_l : forall h s, datas s <> [] -> 0 <= here s ->
  (forall j, nth j (datas (fst (xstates s h))) [] = nth j (datas s) [] \/
             exists o, In o h /\ puts_data (nth j (datas (fst (xstates s h))) []) o).
Proof.
  induction h as [|o h IH]; intros s Hs Hh j; cbn [xstates].
  - left. reflexivity.
  - destruct (xstep s o) as [s1 r] eqn:E. destruct (xstates s1 h) as [s' rs] eqn:E'.
    assert (Hs1 : (datas s1 <> [] /\ 0 <= here s1) /\ forall j, nth j (datas s1) [] = nth j (datas s) [] \/ puts_data (nth j (datas s1) []) o).
    { assert (U : forall l i (x : list Z), l <> [] -> upd l i x <> []) by (intros [|? ?] [|?] ? H; cbn; congruence).
      assert (M : 0 <= (here s + 1) mod zlen (marks s)).
      { destruct (Z.eq_dec (zlen (marks s)) 0) as [->|]; [rewrite Zmod_0_r; lia|]. pose proof (zlen_nonneg _ (marks s)). apply Z.mod_pos_bound. lia. }
      assert (Bt : forall ms ds, 0 <= here (boot ms ds)).
      { intros ms ds. unfold boot. cbn [here]. destruct (following_l (tl ms) (hd 0 ms)) as (F & _). destruct (_ =? _); lia. }
      assert (V : forall i j (x : list Z), nth j (upd (datas s) i x) [] = nth j (datas s) [] \/ x = nth j (upd (datas s) i x) []).
      { intros i k x. destruct (nth_upd_or _ (datas s) i k x []); auto. }
      assert (BD : forall ms ds, datas (boot ms ds) = ds) by reflexivity.
      destruct o as [x|x e| |x g]; cbn [xstep] in E; repeat match type of E with context [if ?c then _ else _] => destruct c end;
        injection E as <- _; rewrite ?BD; cbn [datas here puts_data]; split; [split| |split| |split| |split| |split| |split| |split|]; auto. }
    destruct Hs1 as ((A & A') & C). specialize (IH s1 A A' j). rewrite E' in IH. cbn [fst] in *.
    destruct IH as [IH|(o' & I1 & I2)]; [|right; exists o'; split; [now right|exact I2]].
    rewrite IH. destruct (C j) as [C'|C']; [now left|]. right. exists o. split; [now left|exact C'].
Qed.

Lemma wear_provenance_l : forall d h x, dev_ok N B d -> Forall (xop_ok B) h ->
  (do s <- wstart N d; do (s', _) <- xrun N s h; wl_read good (fst s') (snd s') B) = Done (0, x) ->
  In x (blocks d) \/ exists o, In o h /\ puts_data x o.
Proof using HN HB.
  intros d h x Hd Ho E. destruct (wear_exact_l d h Hd Ho) as (d' & w' & E1 & E2 & E3 & E4).
  unfold wstart in *. destruct (boot_rel d Hd) as (w & Ew & R). rewrite Ew in *. cbn [obind] in *. rewrite E1 in E. cbn [obind fst snd] in E.
  rewrite E4 in E. injection E as <-. set (s0 := boot (markers d) (blocks d)) in *.
  destruct R as (_ & (_ & RW & _) & _ & RD & RH & _).
  assert (Hne : datas s0 <> []). { rewrite RD. intros H. destruct Hd as (_ & _ & D3 & _). rewrite H in D3. unfold zlen in D3. cbn in D3. lia. }
  unfold stored. set (j := Z.to_nat (here (fst (xstates s0 h)))).
  destruct (provenance_l h s0 Hne ltac:(lia) j) as [H|H]; [|now right]. left. rewrite H, RD.
  destruct (xrun_l h s0 (d, w)) as ([d2 w2] & E5 & R5); [destruct (boot_rel d Hd) as (w0 & Ew0 & R0); rewrite Ew in Ew0; injection Ew0 as <-; exact R0|exact Ho|].
  destruct R5 as (_ & (_ & RW5 & _) & _ & _ & RH5 & _). apply nth_In. destruct Hd as (_ & _ & D3 & _). unfold zlen in D3. unfold j. lia.
Qed.

(** Stuck: after the fall back. *)
Definition full (m : Z) (d : device) : Prop := forall j, 0 <= j < N -> nth (Z.to_nat j) (markers d) 0 = (m + j) mod 256.
Definition broken (m : Z) (d : device) : Prop := forall j, 0 <= j < N -> nth (Z.to_nat j) (markers d) 0 = (m + (if j =? 1 then N else j)) mod 256.

Lemma full_init : forall m d, dev_ok N B d -> full m d -> wl_init good d N = Done (mkWl N 0 ((m + N - 1) mod 256)).
Proof using HN HB.
  intros m d Hd Hf. rewrite (init_chain N B HN HB d (N - 1) Hd); try lia.
  - destruct (Z.ltb_spec (N - 1 + 1) N); [lia|]. rewrite Hf by lia. do 3 f_equal. lia.
  - intros j Hj. rewrite !Hf by lia. rewrite (succ_mod N B HN HB (m + (j - 1))). f_equal. lia.
Qed.

Lemma broken_init : 1 < N -> forall m d, dev_ok N B d -> broken m d -> wl_init good d N = Done (mkWl N 0 (m mod 256)).
Proof using HN HB.
  intros HN1 m d Hd Hf. rewrite (init_chain N B HN HB d 0 Hd); try lia.
  - destruct (Z.ltb_spec (0 + 1) N); [|lia]. rewrite Hf by lia. cbn [Z.eqb]. do 3 f_equal. lia.
  - intros _. rewrite !Hf by lia. cbn [Z.eqb Z.add Pos.eqb]. rewrite Z.add_0_r. intros E. symmetry in E.
    rewrite (succ_mod N B HN HB m) in E. revert E. apply (mod_neq N B HN HB); lia.
Qed.

Lemma stuck_run : 1 < N -> forall m xs d w D, dev_ok N B d -> wl_ok N w -> Forall (fun x => zlen x = B) xs ->
  cur d w = D -> last_active_block w = 0 ->
  (full m d /\ last_marker w = (m + N - 1) mod 256 \/ broken m d /\ last_marker w = m mod 256) ->
  exists d' w', wrun N (d, w) (cycles xs) = Done (d', w') /\ dev_ok N B d' /\ wl_ok N w' /\ cur d' w' = D.
Proof using HN HB.
  intros HN1 m. induction xs as [|x xs IH]; intros d w D Hd Hw Hx HC H0 HF.
  - exists d, w. split; [reflexivity|]. auto.
  - apply Forall_cons_iff in Hx as [Hx Hxs]. cbn [cycles flat_map app wrun wexec]. fold (cycles xs).
    assert (OK : forall k, 0 <= k < 256 -> wl_ok N (mkWl N 0 k)) by (intros k Hk; split; [reflexivity|]; cbn; lia).
    assert (MB : forall k, 0 <= k mod 256 < 256) by (intros; apply Z.mod_pos_bound; lia).
    rewrite (write_good N B HN HB) by assumption. destruct (same x (cur d w)) eqn:Es; cbn [obind wexec].
    + assert (Ei : wl_init good d N = Done w).
      { destruct w as [wb wa wm]. destruct Hw as (W1 & _). cbn in *. subst wb wa.
        destruct HF as [[HF ->]|[HF ->]]; [now apply full_init|now apply broken_init]. }
      rewrite Ei. cbn [obind]. now apply (IH d w D).
    + rewrite H0. replace ((0 + 1) mod N) with 1 by (rewrite Z.mod_small; lia). set (d1 := mkDev _ _ _).
      assert (Hd1 : dev_ok N B d1) by (apply (dev_next N B HN HB); [assumption|apply MB|assumption]).
      assert (HL : (1 < length (markers d))%nat) by (destruct Hd as (D1 & _); unfold zlen in D1; lia).
      assert (Cd : forall k, cur d1 (mkWl N 0 k) = D).
      { intros k. unfold cur, d1. cbn [blocks last_active_block]. rewrite nth_upd_neq by (change (Z.to_nat 1) with 1%nat; change (Z.to_nat 0) with 0%nat; lia).
        rewrite <- HC. unfold cur. now rewrite H0. }
      destruct HF as [[HF Hm]|[HF Hm]].
      * assert (HF1 : broken m d1).
        { intros j Hj. unfold d1. cbn [markers]. destruct (Z.eqb_spec j 1) as [->|Hne].
          - rewrite nth_upd_eq by exact HL. rewrite Hm, (succ_mod N B HN HB). f_equal. lia.
          - rewrite nth_upd_neq by lia. now apply HF. }
        rewrite (broken_init HN1 m d1 Hd1 HF1). cbn [obind]. apply IH; auto.
      * assert (HF1 : full m d1).
        { intros j Hj. unfold d1. cbn [markers]. destruct (Z.eq_dec j 1) as [->|Hne].
          - rewrite nth_upd_eq by exact HL. rewrite Hm, (succ_mod N B HN HB). reflexivity.
          - rewrite nth_upd_neq by lia. rewrite HF by exact Hj. destruct (Z.eqb_spec j 1); [lia|reflexivity]. }
        rewrite (full_init m d1 Hd1 HF1). cbn [obind]. apply IH; auto.
Qed.

Lemma wrun_app : forall h1 h2 s, wrun N s (h1 ++ h2) = do s' <- wrun N s h1; wrun N s' h2.
Proof. induction h1 as [|o h1 IH]; intros h2 s; cbn [app wrun obind]; [reflexivity|]. destruct (wexec N s o); cbn [obind]; auto. Qed.

Lemma wear_stuck_l : forall c d h xs, 0 <= c < 256 -> dev_ok N B d -> erased c d -> Forall (wop_ok B) h ->
  let d0 := nth 0 (blocks d) [] in let n := snd (wstate d0 h) in
  restarts_ok N (d0, 0) h -> 1 < N -> n mod N = N - 1 -> Forall (fun x => zlen x = B) xs ->
  wread B N d (h ++ WRestart :: cycles xs) = wread B N d (h ++ [WRestart]).
Proof using HN HB.
  intros c d h xs Hc Hd He Hok d0 n Hr HN1 Hn Hx. unfold wread, wstart.
  destruct (erased_start N B HN HB c d Hc Hd He) as [HI HE]. rewrite HE. cbn [obind].
  destruct (restart_run N B HN HB c h 0 d (mkWl N 0 c) Hc HI Hok) as (d1 & w1 & E & HI' & C); [exact Hr|].
  change (cur d (mkWl N 0 c)) with d0 in *. fold (wstate d0 h) in *. fold n in HI'.
  rewrite !wrun_app, E. cbn [obind wrun wexec]. destruct HI' as (Hd1 & W1 & Hn0 & W2 & W3 & Hmk).
  assert (HF : full (c + N * (n / N)) d1).
  { intros j Hj. rewrite Hmk by exact Hj. unfold place. rewrite Hn. destruct (Z.leb_spec j (N - 1)); [|lia]. f_equal. lia. }
  rewrite (full_init _ d1 Hd1 HF). cbn [obind].
  set (w2 := mkWl N 0 ((c + N * (n / N) + N - 1) mod 256)).
  assert (Hw2 : wl_ok N w2) by (split; [reflexivity|]; split; [cbn; lia|]; cbn; apply Z.mod_pos_bound; lia).
  destruct (stuck_run HN1 (c + N * (n / N)) xs d1 w2 (cur d1 w2) Hd1 Hw2 Hx eq_refl eq_refl) as (d' & w' & E' & Hd' & Hw' & C'); [left; split; [exact HF|reflexivity]|].
  rewrite E'. cbn [obind]. unfold wl_read. cbn [rd good]. rewrite !(rd_spec N B HN HB) by (assumption || apply Hw' || apply Hw2).
  do 2 f_equal. exact C'.
Qed.

End X.

(** * Initialisation with failing reads *)

Section Init.
Context {Dev : Type}.
Variable cb : callbacks Dev.
Variables (d : Dev) (N : Z) (code marker : Z -> Z).
Hypothesis HN : 0 <= N < 256.
Hypothesis Hrm : forall i, 0 <= i < Z.max 1 N -> rm cb d i = Done (code i, marker i) /\ 0 <= marker i < 256.

Lemma init_loop : forall n i, Z.max 1 N - i < Z.of_nat n -> 1 <= i -> i <= Z.max 1 N ->
  (forall j, 0 <= j < i -> code j = 0) -> (forall j, 0 <= j < i - 1 -> marker (j + 1) = (marker j + 1) mod 256) ->
  exists r m, search_loop cb d N n i (marker (i - 1)) = Done (r, m) /\ comes_up N code marker (wrap 64 r) m.
Proof using HN Hrm.
  induction n as [|n IH]; intros i Hn H1 H2 Hc Hm; [lia|].
  assert (Hk : 0 <= i - 1 < Z.max 1 N) by lia.
  cbn [search_loop]. destruct (Z.ltb_spec i N) as [Hi|Hi].
  - destruct (Hrm i) as [E B]; [lia|]. rewrite E. cbn [obind].
    destruct (Z.eqb_spec (code i) 0) as [C|C]; cbn [negb].
    + rewrite (next_ok 1 1 ltac:(lia) ltac:(split; reflexivity) (marker (i - 1))); [|reflexivity|apply Hrm; lia]. cbn [obind].
      destruct (Z.eqb_spec (marker i) ((marker (i - 1) + 1) mod MAX_BLOCKS_IN_PAGE)) as [F|F]; cbn [negb].
      * destruct (IH (i + 1)) as (r & m & L & U); try lia.
        { intros j Hj. destruct (Z.eq_dec j i) as [->|]; [exact C|]. apply Hc. lia. }
        { intros j Hj. destruct (Z.eq_dec j (i - 1)) as [->|]; [|apply Hm; lia].
          replace (i - 1 + 1) with i by lia. exact F. }
        replace (i + 1 - 1) with i in L by lia. exists r, m. split; [exact L|exact U].
      * exists (i - 1), (marker (i - 1)). split; [reflexivity|]. right. exists (i - 1). split; [lia|].
        split; [intros j Hj; apply Hc; lia|]. split; [intros j Hj; apply Hm; lia|]. split; [reflexivity|].
        right. right. replace (i - 1 + 1) with i by lia. split; [lia|]. split; [exact C|]. split; [exact F|].
        unfold wrap. apply Z.mod_small. change (2 ^ 64) with 18446744073709551616. lia.
    + exists (code i), (marker (i - 1)). split; [reflexivity|]. right. exists (i - 1). split; [lia|].
      split; [intros j Hj; apply Hc; lia|]. split; [intros j Hj; apply Hm; lia|]. split; [reflexivity|].
      right. left. replace (i - 1 + 1) with i by lia. split; [lia|]. split; [exact C|]. reflexivity.
  - exists 0, (marker (i - 1)). split; [reflexivity|]. right. exists (i - 1). split; [lia|].
    split; [intros j Hj; apply Hc; lia|]. split; [intros j Hj; apply Hm; lia|]. split; [reflexivity|].
    left. split; [lia|reflexivity].
Qed.

Lemma comes_up_unique : forall r m r' m', comes_up N code marker r m -> comes_up N code marker r' m' -> r' = r /\ m' = m.
Proof using HN Hrm.
  intros r m r' m' [(A & -> & ->)|(k & K & C & M & -> & D)] [(A' & -> & ->)|(k' & K' & C' & M' & -> & D')].
  - auto.
  - exfalso. apply A. apply C'. lia.
  - exfalso. apply A'. apply C. lia.
  - assert (k' = k).
    { destruct (Z.lt_trichotomy k k') as [L|[L|L]]; [|auto|]; exfalso.
      - destruct D as [(D & _)|[(_ & D & _)|(_ & _ & D & _)]]; [lia| |].
        + apply D, C'. lia.
        + apply D, M'. lia.
      - destruct D' as [(D' & _)|[(_ & D' & _)|(_ & _ & D' & _)]]; [lia| |].
        + apply D', C. lia.
        + apply D', M. lia. }
    subst k'. split; [|reflexivity].
    destruct D as [(D & ->)|[(D0 & D & ->)|(D0 & D1 & D & ->)]];
      destruct D' as [(D' & ->)|[(D0' & D' & ->)|(D0' & D1' & D' & ->)]]; try reflexivity; try lia; contradiction.
Qed.

Lemma init_exact_l :
  (exists r m, wl_init cb d N = Done (mkWl N r m)) /\
  forall r m, wl_init cb d N = Done (mkWl N r m) <-> comes_up N code marker r m.
Proof using HN Hrm.
  assert (E : exists r m, wl_init cb d N = Done (mkWl N r m) /\ comes_up N code marker r m).
  { unfold wl_init. destruct (Z.leb_spec MAX_BLOCKS_IN_PAGE N) as [G|G]; [unfold MAX_BLOCKS_IN_PAGE in G; lia|].
    unfold search_last. destruct (Hrm 0) as [R B]; [lia|]. rewrite R. cbn [obind].
    destruct (Z.eqb_spec (code 0) 0) as [C|C]; cbn [negb].
    - destruct (init_loop (S (Z.to_nat N)) 1) as (r & m & L & U); try lia.
      { intros j Hj. replace j with 0 by lia. exact C. }
      change (1 - 1) with 0 in L. rewrite L. cbn [obind]. exists (wrap 64 r), m. split; [reflexivity|exact U].
    - exists (wrap 64 (code 0)), (marker 0). split; [reflexivity|]. left. auto. }
  destruct E as (r & m & E & U). split; [eauto|]. intros r' m'. rewrite E. split.
  - intros H. injection H as <- <-. exact U.
  - intros H. destruct (comes_up_unique _ _ _ _ U H) as [-> ->]. reflexivity.
Qed.

End Init.
