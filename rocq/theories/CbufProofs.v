From Coq Require Import ZifyBool ZifyNat.
From Verif Require Import Base BaseLemmas CbufModel CbufSpec CbufSystem.

Lemma mod_cases : forall x n, 0 < n -> 0 <= x < 2 * n ->
  x mod n = if x <? n then x else x - n.
Proof.
  intros x n Hn Hx. destruct (Z.ltb_spec x n).
  - apply Z.mod_small; lia.
  - symmetry; apply Z.mod_unique with (q := 1); lia.
Qed.

Section CbufProofs.
Context {A : Type}.
Implicit Types (c : cbuf A) (W q D b : list A).

(** [W] is the content of [b] read circularly from [t]. *)
Definition window (b : list A) (n t : Z) (W : list A) : Prop :=
  forall i, (i < length W)%nat -> nth_error W i = nth_error b (Z.to_nat ((t + Z.of_nat i) mod n)).

Record wf (c : cbuf A) : Prop := mkWf {
  wf_len : zlen (buffer c) = bufsize c;
  wf_size : 1 <= bufsize c <= INT_MAX;
  wf_head : 0 <= head c < bufsize c;
  wf_tail : 0 <= tail c < bufsize c }.

(** [c] stores [W], possibly using all cells (only reachable through a defect). *)
Record holds (c : cbuf A) (W : list A) : Prop := mkHolds {
  h_wf : wf c;
  h_len : zlen W <= bufsize c;
  h_head : head c = (tail c + zlen W) mod bufsize c;
  h_win : window (buffer c) (bufsize c) (tail c) W }.

Definition rep (c : cbuf A) (q : list A) : Prop := holds c q /\ zlen q <= bufsize c - 1.

Lemma window_read : forall b n t W k,
  0 <= t -> t < n -> zlen b = n -> window b n t W -> 0 <= k -> k <= zlen W -> t + k <= n ->
  firstn (Z.to_nat k) (skipn (Z.to_nat t) b) = firstn (Z.to_nat k) W.
Proof.
  intros b n t W k Ht Htn Hb Hw Hk HkW Htk. apply nth_error_ext. intros i.
  rewrite !nth_error_firstn, nth_error_skipn.
  destruct (Nat.ltb_spec i (Z.to_nat k)); [|reflexivity].
  unfold zlen in *. rewrite Hw by lia. f_equal.
  rewrite Z.mod_small by lia. lia.
Qed.

Lemma window_skip : forall b n t W k,
  0 < n -> window b n t W -> 0 <= k -> k <= zlen W ->
  window b n ((t + k) mod n) (skipn (Z.to_nat k) W).
Proof.
  intros b n t W k Hn Hw Hk HkW i Hi. rewrite skipn_length in Hi.
  rewrite nth_error_skipn, Hw by lia. f_equal. f_equal.
  rewrite Zplus_mod_idemp_l. f_equal. lia.
Qed.

Lemma window_firstn : forall b n t W k, window b n t W -> window b n t (firstn k W).
Proof.
  intros b n t W k Hw i Hi. rewrite firstn_length in Hi. rewrite nth_error_firstn.
  destruct (Nat.ltb_spec i k); [|lia]. apply Hw; lia.
Qed.

Lemma window_write : forall b n t W D h,
  0 <= t < n -> zlen b = n -> window b n t W -> h = (t + zlen W) mod n ->
  zlen W + zlen D <= n -> h + zlen D <= n ->
  window (firstn (Z.to_nat h) b ++ D ++ skipn (Z.to_nat h + length D) b) n t (W ++ D).
Proof.
  intros b n t W D h Ht Hb Hw Hh HWD HhD i Hi. rewrite app_length in Hi.
  unfold zlen in *.
  assert (Hh0 : 0 <= h < n) by (subst h; apply Z.mod_pos_bound; lia).
  rewrite !nth_error_app, firstn_length.
  assert (Hmin : Nat.min (Z.to_nat h) (length b) = Z.to_nat h) by lia. rewrite Hmin.
  rewrite (mod_cases (t + Z.of_nat (length W))) in Hh by lia.
  rewrite nth_error_firstn, nth_error_skipn.
  rewrite (mod_cases (t + Z.of_nat i)) by lia.
  destruct (Nat.ltb_spec i (length W)).
  - rewrite Hw by lia. rewrite (mod_cases (t + Z.of_nat i)) by lia.
    destruct (Z.ltb_spec (t + Z.of_nat i) n); destruct (Z.ltb_spec (t + Z.of_nat (length W)) n);
    match goal with |- context [Nat.ltb ?x ?y] => destruct (Nat.ltb_spec x y) end;
    try lia; try reflexivity;
    match goal with |- context [Nat.ltb ?x ?y] => destruct (Nat.ltb_spec x y) end;
    try lia; f_equal; lia.
  - destruct (Z.ltb_spec (t + Z.of_nat i) n); destruct (Z.ltb_spec (t + Z.of_nat (length W)) n);
    match goal with |- context [Nat.ltb ?x ?y] => destruct (Nat.ltb_spec x y) end;
    try lia; try reflexivity;
    match goal with |- context [Nat.ltb ?x ?y] => destruct (Nat.ltb_spec x y) end;
    try lia; f_equal; lia.
Qed.

Lemma zwrite_len : forall b h D, 0 <= h -> h + zlen D <= zlen b ->
  zlen (firstn (Z.to_nat h) b ++ D ++ skipn (Z.to_nat h + length D) b) = zlen b.
Proof.
  intros. unfold zlen in *. rewrite !app_length, firstn_length, skipn_length. lia.
Qed.

Lemma full_iff : forall c q, rep c q ->
  is_circular_buf_full c = (zlen q =? bufsize c - 1).
Proof.
  intros c q [[[Hl Hs Hh Ht] HL HH _] Hq]. unfold is_circular_buf_full, INT_MAX in *.
  pose proof (zlen_nonneg A q).
  rewrite wrap64_small by lia. rewrite HH, Zplus_mod_idemp_l.
  destruct (Z.eqb_spec (zlen q) (bufsize c - 1)).
  - replace (tail c + zlen q + 1) with (tail c + 1 * bufsize c) by lia.
    rewrite Z.mod_add by lia. rewrite Z.mod_small by lia. lia.
  - rewrite mod_cases by lia.
    destruct (Z.ltb_spec (tail c + zlen q + 1) (bufsize c)); lia.
Qed.

Lemma empty_iff : forall c q, rep c q -> is_circular_buf_empty c = (zlen q =? 0).
Proof.
  intros c q [[[Hl Hs Hh Ht] HL HH _] Hq]. unfold is_circular_buf_empty.
  pose proof (zlen_nonneg A q). rewrite HH, mod_cases by lia.
  destruct (Z.ltb_spec (tail c + zlen q) (bufsize c)); lia.
Qed.

(** Storing [D] at head and advancing over it appends [D]. *)
Lemma store_append : forall c q D,
  rep c q -> is_circular_buf_full c = false -> 0 < zlen D ->
  zlen q + zlen D <= bufsize c -> head c + zlen D <= bufsize c ->
  exists b, zwrite (buffer c) (head c) D = Done b /\
    let c' := advance_pointer (with_buffer c b) (zlen D) in
    holds c' (q ++ D) /\ tail c' = tail c /\ bufsize c' = bufsize c.
Proof.
  intros c q D [[[Hl Hs Hh Ht] HL HH Hw] Hq] Hf HD HqD HhD.
  unfold INT_MAX in *. pose proof (zlen_nonneg A q).
  eexists. split; [apply zwrite_ok; lia|].
  unfold advance_pointer.
  assert (Hf' : forall b, is_circular_buf_full (with_buffer c b) = false) by (intros; exact Hf).
  rewrite Hf'. cbn [orb].
  destruct (Z.eqb_spec (zlen D) 0); [lia|].
  cbn. rewrite (wrap64_small (zlen D)) by lia. rewrite wrap64_small by lia.
  split; [|split; reflexivity].
  assert (Hzl : zlen (q ++ D) = zlen q + zlen D) by (unfold zlen; rewrite app_length; lia).
  constructor; cbn.
  - pose proof (Z.mod_pos_bound (head c + zlen D) (bufsize c)).
    constructor; cbn; unfold INT_MAX; try lia. rewrite zwrite_len; lia.
  - lia.
  - rewrite HH, Zplus_mod_idemp_l, Hzl. f_equal; lia.
  - apply window_write; auto; lia.
Qed.

Lemma putc_ok : forall c q a, rep c q ->
  if zlen q <? bufsize c - 1 then
    exists c', circular_buf_putc c a = Done (c', 0) /\ rep c' (q ++ [a]) /\ bufsize c' = bufsize c
  else circular_buf_putc c a = Done (c, -1).
Proof.
  intros c q a H. pose proof H as [Hh Hq]. unfold circular_buf_putc.
  rewrite (full_iff c q H).
  destruct (Z.ltb_spec (zlen q) (bufsize c - 1)).
  - destruct (Z.eqb_spec (zlen q) (bufsize c - 1)); [lia|]. cbn [negb].
    destruct (h_wf c q Hh) as [Hl Hs Hhd Htl].
    destruct (store_append c q [a] H) as (b & Eb & Hc).
    + rewrite (full_iff c q H). lia.
    + unfold zlen; cbn; lia.
    + unfold zlen in *; cbn [length]; lia.
    + unfold zlen in *; cbn [length]; lia.
    + cbv zeta in Hc. destruct Hc as (Hc & Ht & Hb).
      replace (zset (buffer c) (head c) a) with (Done b).
      * cbn [obind]. eexists; split; [reflexivity|]. split; [split|].
        -- exact Hc.
        -- change (zlen [a]) with 1 in Hb. rewrite Hb.
           unfold zlen in *. rewrite app_length; cbn [length]; lia.
        -- exact Hb.
      * rewrite zset_ok by lia. rewrite zwrite_ok in Eb by (unfold zlen in *; cbn [length]; lia).
        rewrite <- Eb. f_equal.
        assert (Hn : (Z.to_nat (head c) < length (buffer c))%nat) by (unfold zlen in *; lia).
        revert Hn. generalize (Z.to_nat (head c)). generalize (buffer c).
        clear. intros l; induction l; intros m Hm; cbn in Hm; [lia|].
        destruct m; cbn; [reflexivity|]. f_equal. apply IHl. lia.
  - destruct (Z.eqb_spec (zlen q) (bufsize c - 1)); [|lia]. reflexivity.
Qed.

Lemma retreat_rep : forall c q k, holds c q -> 0 <= k <= zlen q ->
  holds (retreat_pointer c k) (skipn (Z.to_nat k) q) /\ bufsize (retreat_pointer c k) = bufsize c.
Proof.
  intros c q k [[Hl Hs Hh Ht] HL HH Hw] Hk. unfold INT_MAX in *.
  unfold retreat_pointer. rewrite (wrap64_small k) by lia. rewrite wrap64_small by lia.
  split; [|reflexivity].
  assert (Hz : zlen (skipn (Z.to_nat k) q) = zlen q - k)
    by (unfold zlen in *; rewrite skipn_length; lia).
  constructor; cbn.
  - constructor; cbn; unfold INT_MAX; auto; try lia.
  - lia.
  - rewrite Zplus_mod_idemp_l, HH, Hz. f_equal; lia.
  - apply window_skip; auto; lia.
Qed.

Lemma getc_ok : forall c q, rep c q ->
  match q with
  | [] => circular_buf_getc c = Done (c, (-1, None))
  | a :: q' => exists c', circular_buf_getc c = Done (c', (0, Some a)) /\ rep c' q' /\ bufsize c' = bufsize c
  end.
Proof.
  intros c q H. unfold circular_buf_getc. rewrite (empty_iff c q H).
  destruct q as [|a q']; [reflexivity|].
  destruct H as [Hh Hq]. pose proof (h_wf _ _ Hh) as [Hl Hs Hhd Htl].
  assert (Hz : zlen (a :: q') =? 0 = false) by (unfold zlen; cbn [length]; lia).
  rewrite Hz. unfold zget.
  destruct (Z.ltb_spec (tail c) 0); [lia|].
  pose proof (h_win _ _ Hh O) as Hw. cbn [length nth_error] in Hw.
  rewrite Z.add_0_r, Z.mod_small in Hw by lia. rewrite <- Hw by lia. cbn [obind].
  eexists; split; [reflexivity|].
  destruct (retreat_rep c (a :: q') 1 Hh) as [Hr Hb].
  - unfold zlen; cbn [length]; lia.
  - split; [split|]; [exact Hr| |exact Hb].
    rewrite Hb. unfold zlen in *; cbn [length] in *; lia.
Qed.

Lemma rep_nil : forall c, wf c -> head c = tail c -> rep c [].
Proof.
  intros c Hwf E. pose proof Hwf as [Hl Hs Hh Ht].
  split; [constructor|]; change (zlen (@nil A)) with 0.
  - exact Hwf.
  - lia.
  - rewrite Z.add_0_r, Z.mod_small; lia.
  - intros i Hi; cbn in Hi; lia.
  - lia.
Qed.

Lemma reset_ok : forall c q, rep c q -> rep (circular_buf_reset c) [].
Proof.
  intros c q [[[Hl Hs Hh Ht] HL HH Hw] Hq]. apply rep_nil; [|reflexivity].
  constructor; cbn; auto; lia.
Qed.

Lemma init_ok : forall region n, zlen region = n -> 1 <= n <= INT_MAX ->
  exists c, circular_buf_init region n = Some c /\ rep c [] /\ bufsize c = n.
Proof.
  intros region n Hn Hb. unfold circular_buf_init.
  destruct (Z.leb_spec n 0); [lia|]. eexists; split; [reflexivity|].
  split; [|reflexivity]. apply rep_nil; [|reflexivity].
  constructor; cbn; auto; lia.
Qed.

Lemma capacity_ok : forall c, wf c -> circular_buf_capacity c = bufsize c - 1.
Proof.
  intros c [Hl Hs Hh Ht]. unfold circular_buf_capacity, INT_MAX in *. apply wrap64_small; lia.
Qed.

Lemma size_ok : forall c q, rep c q ->
  circular_buf_size c = if zlen q =? bufsize c - 1 then bufsize c else zlen q.
Proof.
  intros c q H. pose proof H as [[[Hl Hs Hh Ht] HL HH Hw] Hq]. unfold circular_buf_size, INT_MAX in *.
  rewrite (full_iff c q H). pose proof (zlen_nonneg A q).
  destruct (Z.eqb_spec (zlen q) (bufsize c - 1)); cbn [negb]; [reflexivity|].
  rewrite !swrap32_small by lia.
  rewrite mod_cases in HH by lia.
  destruct (Z.ltb_spec (tail c + zlen q) (bufsize c)); destruct (Z.leb_spec (tail c) (head c)); try lia;
  rewrite wrap64_small by lia; lia.
Qed.

(** A bulk read of any window works, whatever the head copy is. *)
Lemma get_loop_ok : forall fuel c h W len present consume acc rd,
  wf c -> 0 <= h < bufsize c -> window (buffer c) (bufsize c) (tail c) W ->
  zlen W = len -> len <= bufsize c -> len <= Z.of_nat fuel -> 0 <= rd -> rd + len <= bufsize c ->
  consume = true ->
  get_loop fuel c h (tail c) len present consume acc rd =
    Done (with_tail c ((tail c + len) mod bufsize c), (rd + len, acc ++ (if present then W else []))).
Proof.
  induction fuel; intros c h W len present consume acc rd Hwf Hh Hw HW Hlen Hfuel Hrd Hrl Hcons.
  - pose proof (zlen_nonneg A W). assert (len = 0) by lia. subst len.
    cbn [get_loop]. destruct (Z.ltb_spec 0 (zlen W)); [lia|].
    assert (W = []) by (destruct W; [auto|unfold zlen in *; cbn in *; lia]). subst W.
    replace (rd + zlen (@nil A)) with rd by (unfold zlen; cbn; lia).
    replace (tail c + zlen (@nil A)) with (tail c) by (unfold zlen; cbn; lia).
    rewrite Z.mod_small by (apply Hwf).
    destruct c, present; rewrite app_nil_r; reflexivity.
  - destruct Hwf as [Hl Hs Hhd Htl]. unfold INT_MAX in *.
    cbn [get_loop]. destruct (Z.ltb_spec 0 len).
    2:{ pose proof (zlen_nonneg A W). assert (len = 0) by lia.
        assert (W = []) by (destruct W; [auto|unfold zlen in *; cbn in *; lia]). subst W.
        replace (rd + len) with rd by lia. replace (tail c + len) with (tail c) by lia.
        rewrite Z.mod_small by lia. destruct c, present; rewrite app_nil_r; reflexivity. }
    subst consume.
    set (chunk0 := if tail c <? h then wrap 64 (h - tail c) else wrap 64 (bufsize c - wrap 64 (tail c))).
    assert (Hc0 : 1 <= chunk0 /\ tail c + chunk0 <= bufsize c).
    { unfold chunk0. destruct (Z.ltb_spec (tail c) h).
      - rewrite wrap64_small by lia. lia.
      - rewrite (wrap64_small (tail c)) by lia. rewrite wrap64_small by lia. lia. }
    set (chunk := if len <? chunk0 then len else chunk0).
    assert (Hc : 1 <= chunk <= len /\ tail c + chunk <= bufsize c)
      by (unfold chunk; destruct (Z.ltb_spec len chunk0); lia).
    clearbody chunk. clear chunk0 Hc0.
    cbv zeta. rewrite (swrap32_small (rd + chunk)) by lia. rewrite (swrap32_small chunk) by lia.
    rewrite (wrap64_small (len - chunk)) by lia.
    assert (Hrec : forall acc',
      get_loop fuel (retreat_pointer c chunk) h (swrap 32 (tail (retreat_pointer c chunk)))
        (len - chunk) present true acc' (rd + chunk) =
      Done (with_tail c ((tail c + len) mod bufsize c),
            (rd + len, acc' ++ (if present then skipn (Z.to_nat chunk) W else [])))).
    { intros acc'.
      assert (Er : retreat_pointer c chunk = with_tail c ((tail c + chunk) mod bufsize c)).
      { unfold retreat_pointer. rewrite (wrap64_small chunk) by lia. now rewrite wrap64_small by lia. }
      pose proof (Z.mod_pos_bound (tail c + chunk) (bufsize c)).
      rewrite Er. cbn [tail with_tail]. rewrite swrap32_small by lia.
      set (c1 := with_tail c ((tail c + chunk) mod bufsize c)).
      change ((tail c + chunk) mod bufsize c) with (tail c1) at 1.
      rewrite IHfuel with (W := skipn (Z.to_nat chunk) W); auto; try (cbn; lia).
      - unfold c1, with_tail; cbn. rewrite Zplus_mod_idemp_l.
        do 2 f_equal; [f_equal; f_equal; lia|f_equal; lia].
      - constructor; cbn; unfold INT_MAX; auto; lia.
      - apply window_skip; auto; lia.
      - unfold zlen in *; rewrite skipn_length; lia. }
    destruct present.
    + rewrite zread_ok by lia. cbn [obind].
      rewrite (window_read (buffer c) (bufsize c)) with (W := W) by (auto; lia).
      rewrite Hrec. rewrite <- app_assoc, firstn_skipn. reflexivity.
    + cbn [obind]. rewrite Hrec. rewrite app_nil_r. reflexivity.
Qed.

(** The same without consuming. *)
Lemma peek_loop_ok : forall fuel c h t W len acc rd,
  wf c -> 0 <= h < bufsize c -> 0 <= t < bufsize c -> window (buffer c) (bufsize c) t W ->
  zlen W = len -> len <= bufsize c -> len <= Z.of_nat fuel -> 0 <= rd -> rd + len <= bufsize c ->
  get_loop fuel c h t len true false acc rd = Done (c, (rd + len, acc ++ W)).
Proof.
  induction fuel; intros c h t W len acc rd Hwf Hh Ht Hw HW Hlen Hfuel Hrd Hrl.
  - pose proof (zlen_nonneg A W).
    cbn [get_loop]. destruct (Z.ltb_spec 0 len); [lia|].
    assert (W = []) by (destruct W; [auto|unfold zlen in *; cbn in *; lia]). subst W.
    replace (rd + len) with rd by lia. rewrite app_nil_r. reflexivity.
  - pose proof Hwf as [Hl Hs Hhd Htl]. unfold INT_MAX in *.
    cbn [get_loop]. destruct (Z.ltb_spec 0 len).
    2:{ pose proof (zlen_nonneg A W).
        assert (W = []) by (destruct W; [auto|unfold zlen in *; cbn in *; lia]). subst W.
        replace (rd + len) with rd by lia. rewrite app_nil_r. reflexivity. }
    set (chunk0 := if t <? h then wrap 64 (h - t) else wrap 64 (bufsize c - wrap 64 t)).
    assert (Hc0 : 1 <= chunk0 /\ t + chunk0 <= bufsize c).
    { unfold chunk0. destruct (Z.ltb_spec t h).
      - rewrite wrap64_small by lia. lia.
      - rewrite (wrap64_small t) by lia. rewrite wrap64_small by lia. lia. }
    set (chunk := if len <? chunk0 then len else chunk0).
    assert (Hc : 1 <= chunk <= len /\ t + chunk <= bufsize c)
      by (unfold chunk; destruct (Z.ltb_spec len chunk0); lia).
    clearbody chunk. clear chunk0 Hc0.
    rewrite (swrap32_small (rd + chunk)) by lia.
    rewrite (wrap64_small (len - chunk)) by lia.
    rewrite (wrap64_small t) by lia. rewrite (wrap64_small (t + chunk)) by lia.
    rewrite zread_ok by lia. cbn [obind].
    pose proof (Z.mod_pos_bound (t + chunk) (bufsize c)).
    rewrite swrap32_small by lia.
    rewrite IHfuel with (W := skipn (Z.to_nat chunk) W); auto; try lia.
    + rewrite (window_read (buffer c) (bufsize c)) with (W := W) by (auto; lia).
      rewrite <- app_assoc, firstn_skipn. do 3 f_equal. lia.
    + apply window_skip; auto; lia.
    + unfold zlen in *; rewrite skipn_length; lia.
Qed.

(** Number of elements a bulk read of the (size_t) length [len] produces. *)
Definition get_count (n : Z) (q : list A) (len : Z) : Z :=
  let size := if zlen q =? n - 1 then n else zlen q in
  if len <? size then len else size.

(** What is delivered: the stored elements, followed by the reserved cell when more
    than the stored elements are taken from a full buffer. *)
Lemma full_window : forall c q, holds c q -> zlen q = bufsize c - 1 ->
  exists x, window (buffer c) (bufsize c) (tail c) (q ++ [x]).
Proof.
  intros c q [[Hl Hs Hh Ht] HL HH Hw] Hq.
  destruct (nth_error (buffer c) (Z.to_nat (head c))) as [x|] eqn:E.
  - exists x. intros i Hi. rewrite app_length in Hi. cbn [length] in Hi. rewrite nth_error_app.
    destruct (Nat.ltb_spec i (length q)); [now apply Hw|].
    assert (i = length q) by lia. subst i. rewrite Nat.sub_diag. cbn [nth_error].
    unfold zlen in HH at 1. rewrite <- HH, E. reflexivity.
  - apply nth_error_None in E. unfold zlen in *. lia.
Qed.

Lemma get_window : forall c q len, rep c q -> 0 <= len ->
  exists x, let k := get_count (bufsize c) q len in
    0 <= k <= bufsize c /\
    window (buffer c) (bufsize c) (tail c) (firstn (Z.to_nat k) (q ++ [x])) /\
    zlen (firstn (Z.to_nat k) (q ++ [x])) = k.
Proof.
  intros c q len [Hh Hq] Hlen. pose proof (h_wf _ _ Hh) as [Hl Hs Hhd Htl].
  pose proof (zlen_nonneg A q). cbv zeta. unfold get_count.
  destruct (Z.eqb_spec (zlen q) (bufsize c - 1)) as [E|E].
  - destruct (full_window c q Hh E) as [x Hx]. exists x. split; [|split].
    + destruct (Z.ltb_spec len (bufsize c)); lia.
    + now apply window_firstn.
    + unfold zlen in *. rewrite firstn_length, app_length. cbn [length].
      destruct (Z.ltb_spec len (bufsize c)); lia.
  - assert (exists x : A, True) as [x _].
    { destruct (buffer c) as [|x ?] eqn:Eb; [unfold zlen in Hl; cbn in Hl; lia|now exists x]. }
    exists x. split; [|split].
    + destruct (Z.ltb_spec len (zlen q)); lia.
    + rewrite firstn_app. unfold zlen in *.
      replace (_ - length q)%nat with O by (destruct (Z.ltb_spec len (Z.of_nat (length q))); lia).
      cbn [firstn]. rewrite app_nil_r. apply window_firstn. apply Hh.
    + unfold zlen in *. rewrite firstn_length, app_length. cbn [length].
      destruct (Z.ltb_spec len (Z.of_nat (length q))); lia.
Qed.

Lemma get_ok : forall c q len, rep c q -> 0 <= len ->
  exists x, let k := get_count (bufsize c) q len in
    0 <= k <= bufsize c /\
    (forall present, circular_buf_get c len present true =
       Done (with_tail c ((tail c + k) mod bufsize c),
             (k, if present then firstn (Z.to_nat k) (q ++ [x]) else []))) /\
    circular_buf_get c len true false = Done (c, (k, firstn (Z.to_nat k) (q ++ [x]))).
Proof.
  intros c q len H Hlen. destruct (get_window c q len H Hlen) as [x Hx]. exists x.
  pose proof H as [Hh Hq]. pose proof (h_wf _ _ Hh) as Hwf.
  pose proof Hwf as [Hl Hs Hhd Htl]. unfold INT_MAX in *.
  cbv zeta in *. destruct Hx as (Hk & Hx & Hz).
  assert (Ek : (if len <? circular_buf_size c then len else circular_buf_size c)
               = get_count (bufsize c) q len)
    by (unfold get_count; rewrite (size_ok c q H); reflexivity).
  split; [exact Hk|split].
  - intros present. unfold circular_buf_get. cbv zeta. rewrite Ek, !swrap32_small by lia.
    erewrite get_loop_ok; [|exact Hwf|lia|exact Hx|exact Hz|lia|lia|lia|lia|reflexivity].
    reflexivity.
  - unfold circular_buf_get. cbv zeta. rewrite Ek, !swrap32_small by lia.
    erewrite peek_loop_ok; [|exact Hwf|lia|lia|exact Hx|exact Hz|lia|lia|lia|lia].
    reflexivity.
Qed.

Lemma with_tail_rep : forall c q k, rep c q -> 0 <= k <= zlen q ->
  rep (with_tail c ((tail c + k) mod bufsize c)) (skipn (Z.to_nat k) q).
Proof.
  intros c q k [Hh Hq] Hk. destruct (retreat_rep c q k Hh Hk) as [Hr Hb].
  pose proof (h_wf _ _ Hh) as [Hl Hs Hhd Htl]. unfold INT_MAX in *.
  unfold retreat_pointer in Hr. rewrite (wrap64_small k) in Hr by lia.
  rewrite wrap64_small in Hr by lia. split; [exact Hr|].
  cbn. unfold zlen in *; rewrite skipn_length; lia.
Qed.

(** The one defect of circular_buf_puts: exactly one more element than fits, with the
    tail at position 2 or later, is accepted. *)
Definition puts_defect (c : cbuf A) (q : list A) (len : Z) : bool :=
  let free := bufsize c - 1 - zlen q in
  (1 <=? free) && (len =? free + 1) && (2 <=? tail c).

Definition puts_count (c : cbuf A) (q : list A) (len : Z) : Z :=
  if puts_defect c q len then len else Z.min len (bufsize c - 1 - zlen q).

Lemma puts_loop_ok : forall fuel c q data len w,
  rep c q -> 0 <= len -> len <= zlen data -> 0 <= w -> w <= zlen q ->
  len < 2 ^ 64 ->
  bufsize c - 1 - zlen q <= Z.of_nat fuel ->
  exists c',
    puts_loop fuel c (head c) (tail c) data len w = Done (c', w + puts_count c q len) /\
    holds c' (q ++ firstn (Z.to_nat (puts_count c q len)) data) /\ bufsize c' = bufsize c /\ tail c' = tail c.
Proof.
  induction fuel; intros c q data len w H Hlen Hdata Hw Hwq H64 Hfuel.
  - assert (Hfull : is_circular_buf_full c = true).
    { rewrite (full_iff c q H). destruct H. lia. }
    cbn [puts_loop]. rewrite Hfull. cbn [negb andb].
    assert (E : puts_count c q len = 0).
    { unfold puts_count, puts_defect. destruct H. 
      destruct (Z.leb_spec 1 (bufsize c - 1 - zlen q)); [lia|]. cbn. lia. }
    rewrite E, Z.add_0_r. cbn [Z.to_nat firstn]. rewrite app_nil_r.
    exists c. repeat split; auto; apply H.
  - cbn [puts_loop]. pose proof H as [Hh Hq].
    pose proof (h_wf _ _ Hh) as [Hl Hs Hhd Htl]. unfold INT_MAX in *.
    pose proof (zlen_nonneg A q).
    rewrite (full_iff c q H).
    destruct (Z.eqb_spec (zlen q) (bufsize c - 1)) as [Ef|Ef].
    { cbn [negb andb].
      assert (E : puts_count c q len = 0).
      { unfold puts_count, puts_defect.
        destruct (Z.leb_spec 1 (bufsize c - 1 - zlen q)); [lia|]. cbn. lia. }
      rewrite E, Z.add_0_r. cbn [Z.to_nat firstn]. rewrite app_nil_r.
      exists c. auto. }
    cbn [negb andb]. destruct (Z.ltb_spec 0 len).
    2:{ assert (E : puts_count c q len = 0).
        { unfold puts_count, puts_defect.
          destruct (Z.eqb_spec len (bufsize c - 1 - zlen q + 1)); [lia|].
          rewrite andb_false_r. cbn. lia. }
        rewrite E, Z.add_0_r. cbn [Z.to_nat firstn]. rewrite app_nil_r.
        exists c. auto. }
    set (free := bufsize c - 1 - zlen q).
    match goal with |- context [swrap 32 (if tail c <=? head c then ?x else ?y)] =>
      set (chunk := if tail c <=? head c then x else y) end.
    pose proof (h_head _ _ Hh) as HH. rewrite mod_cases in HH by lia.
    assert (Hchunk :
      1 <= chunk <= len /\ head c + chunk <= bufsize c /\
      (chunk <= free \/ (chunk = free + 1 /\ len = free + 1 /\ 2 <= tail c)) /\
      (chunk = free -> len = free + 1 -> tail c < 2) /\
      (chunk < len -> chunk < free -> head c + chunk = bufsize c /\ 2 <= tail c)).
    { unfold chunk, free. clear chunk.
      destruct (Z.leb_spec (tail c) (head c)); destruct (Z.ltb_spec (tail c + zlen q) (bufsize c)); try lia.
      - destruct (Z.eqb_spec (tail c) 0).
        + rewrite (wrap64_small (bufsize c - head c)) by lia. rewrite wrap64_small by lia.
          destruct (Z.ltb_spec (bufsize c - head c - 1) len); lia.
        + rewrite (wrap64_small (bufsize c - head c)) by lia.
          destruct (Z.ltb_spec (bufsize c - head c) len); lia.
      - rewrite (wrap64_small (tail c - head c)) by lia. rewrite wrap64_small by lia.
        destruct (Z.ltb_spec (tail c - head c) len); lia. }
    clearbody chunk. destruct Hchunk as (Hc1 & Hc2 & Hc3 & Hc4 & Hc5).
    assert (Hcf : chunk <= free + 1) by lia.
    rewrite swrap32_small by lia.
    rewrite zread_ok by lia. cbn [obind skipn Z.to_nat].
    set (D := firstn (Z.to_nat chunk) data).
    assert (HD : zlen D = chunk) by (unfold D, zlen in *; rewrite firstn_length; lia).
    destruct (store_append c q D H) as (b & Eb & Hc).
    { rewrite (full_iff c q H). lia. }
    { lia. } { lia. } { lia. }
    rewrite HD in Hc. cbv zeta in Hc. destruct Hc as (Hc & Ht' & Hb').
    rewrite Eb. cbn [obind].
    set (c' := advance_pointer (with_buffer c b) chunk) in *.
    rewrite (wrap64_small chunk) by lia. rewrite (wrap64_small (len - chunk)) by lia.
    rewrite swrap32_small by lia.
    assert (Hzq : zlen (q ++ D) = zlen q + chunk)
      by (unfold zlen in *; rewrite app_length; lia).
    assert (Hsplit : forall k, chunk <= k -> firstn (Z.to_nat k) data =
              D ++ firstn (Z.to_nat (k - chunk)) (skipn (Z.to_nat chunk) data)).
    { intros k Hk. unfold D. rewrite <- (firstn_skipn (Z.to_nat chunk) data) at 1.
      rewrite firstn_app, firstn_length.
      rewrite firstn_all2 by (rewrite firstn_length; unfold zlen in *; lia).
      f_equal. f_equal. unfold zlen in *; lia. }
    destruct Hc3 as [Hc3|(Hc3 & Hc3l & Hc3t)].
    + assert (Hrep' : rep c' (q ++ D)).
      { split; [exact Hc|]. rewrite Hb', Hzq. lia. }
      destruct (IHfuel c' (q ++ D) (skipn (Z.to_nat chunk) data) (len - chunk) (w + chunk)) as (c'' & E & Hh'' & Hb'' & Ht'').
      * exact Hrep'.
      * lia.
      * unfold zlen in *; rewrite skipn_length; lia.
      * lia.
      * rewrite Hzq. lia.
      * lia.
      * rewrite Hb', Hzq. lia.
      * rewrite Ht' in E. rewrite E.
        assert (Ecnt : puts_count c q len = chunk + puts_count c' (q ++ D) (len - chunk)).
        { unfold puts_count, puts_defect. rewrite Hzq, Hb', Ht'. fold free.
          replace (bufsize c - 1 - (zlen q + chunk)) with (free - chunk) by lia.
          destruct (Z.leb_spec 1 free); destruct (Z.leb_spec 1 (free - chunk));
          destruct (Z.eqb_spec len (free + 1)); destruct (Z.eqb_spec (len - chunk) (free - chunk + 1));
          destruct (Z.leb_spec 2 (tail c)); cbn; lia. }
        exists c''. split; [|split; [|split]].
        -- do 2 f_equal. lia.
        -- rewrite Hsplit; [rewrite app_assoc; replace (_ - chunk) with (puts_count c' (q ++ D) (len - chunk)) by lia; exact Hh''|].
           assert (0 <= puts_count c' (q ++ D) (len - chunk)).
           { unfold puts_count. rewrite Hzq, Hb'. destruct (puts_defect _ _ _); lia. }
           lia.
        -- congruence.
        -- congruence.
    + assert (Ecnt : puts_count c q len = chunk).
      { unfold puts_count, puts_defect. fold free.
        destruct (Z.leb_spec 1 free); destruct (Z.eqb_spec len (free + 1));
        destruct (Z.leb_spec 2 (tail c)); cbn; lia. }
      assert (El : len - chunk = 0) by lia.
      rewrite El. exists c'. rewrite Ecnt. fold D. split; [|auto].
      destruct fuel; cbn [puts_loop];
        (replace (0 <? 0) with false by reflexivity); rewrite andb_false_r; reflexivity.
Qed.

Lemma puts_ok : forall c q data len,
  rep c q -> 0 <= len < 2 ^ 64 -> len <= zlen data ->
  exists c',
    circular_buf_puts c data len = Done (c', puts_count c q len) /\
    holds c' (q ++ firstn (Z.to_nat (puts_count c q len)) data) /\ bufsize c' = bufsize c /\ tail c' = tail c.
Proof.
  intros c q data len H Hlen Hdata. unfold circular_buf_puts.
  pose proof H as [Hh Hq]. pose proof (zlen_nonneg A q).
  destruct (puts_loop_ok (Z.to_nat (bufsize c)) c q data len 0 H) as (c' & E & R); try lia.
  exists c'. split; [exact E|exact R].
Qed.

(** A buffer in which all cells were filled by the defect looks empty. *)
Lemma holds_full_empty : forall c W, holds c W -> zlen W = bufsize c -> rep c [].
Proof.
  intros c W [Hwf HL HH Hw] E. pose proof Hwf as [Hl Hs Hhd Htl]. split; [constructor|]; auto.
  - unfold zlen; cbn; lia.
  - rewrite HH, E. change (zlen (@nil A)) with 0. rewrite Z.add_0_r.
    rewrite <- (Z.mul_1_l (bufsize c)) at 1. rewrite Z.mod_add by lia. reflexivity.
  - intros i Hi; cbn in Hi; lia.
  - unfold zlen; cbn; lia.
Qed.

Lemma full_get_unmoved : forall c, wf c ->
  with_tail c ((tail c + bufsize c) mod bufsize c) = c.
Proof.
  intros c [Hl Hs Hhd Htl]. rewrite <- (Z.mul_1_l (bufsize c)) at 1.
  rewrite Z.mod_add, Z.mod_small by lia. destruct c; reflexivity.
Qed.

Lemma wrap_int : forall len, INT_MIN <= len <= INT_MAX ->
  wrap 64 len = if len <? 0 then len + 18446744073709551616 else len.
Proof.
  intros len H. unfold INT_MIN, INT_MAX in H. unfold wrap.
  change (2 ^ 64) with 18446744073709551616.
  destruct (Z.ltb_spec len 0).
  - symmetry. apply Z.mod_unique with (q := -1); lia.
  - apply Z.mod_small; lia.
Qed.

(** One call: the model simulates the specification outside the defects. *)
Lemma step_sim : forall c q o,
  rep c q -> legal o -> sane (bufsize c - 1) q o ->
  exists c', cbuf_step c o = Done (c', snd (fifo_step (bufsize c - 1) q o)) /\
             rep c' (fst (fifo_step (bufsize c - 1) q o)) /\ bufsize c' = bufsize c.
Proof.
  intros c q o H Hleg Hsane.
  pose proof H as [Hh Hq]. pose proof (h_wf _ _ Hh) as Hwf.
  pose proof Hwf as [Hl Hs Hhd Htl]. unfold INT_MAX in *.
  pose proof (zlen_nonneg A q).
  assert (Hst : stored q = zlen q) by reflexivity.
  assert (Hget : forall len, INT_MIN <= len <= INT_MAX ->
            (stored q <> bufsize c - 1 \/ 0 <= len <= bufsize c - 1) ->
            get_count (bufsize c) q (wrap 64 len) = Z.of_nat (request q len)).
  { intros len HL HS. rewrite wrap_int by lia. unfold get_count, request, INT_MIN, INT_MAX in *.
    unfold zlen, stored in *.
    destruct (Z.ltb_spec len 0); destruct (Z.eqb_spec (Z.of_nat (length q)) (bufsize c - 1));
    match goal with |- context [if ?x <? ?y then _ else _] => destruct (Z.ltb_spec x y) end; lia. }
  assert (Hreq : forall len, (request q len <= length q)%nat)
    by (intros; unfold request; destruct (len <? 0); lia).
  assert (Hwpos : forall len, 0 <= wrap 64 len) by (intros; apply wrap_range; lia).
  destruct o; cbn [cbuf_step fifo_step fst snd sane legal] in *; unfold pure_res.
  - pose proof (putc_ok c q a H) as P. rewrite Hst.
    destruct (Z.ltb_spec (zlen q) (bufsize c - 1)).
    + destruct P as (c' & E & R & B). rewrite E. cbn [obind fst snd]. eauto.
    + rewrite P. cbn [obind fst snd]. eauto.
  - pose proof (getc_ok c q H) as P. destruct q.
    + rewrite P. cbn [obind fst snd]. eauto.
    + destruct P as (c' & E & R & B). rewrite E. cbn [obind fst snd]. eauto.
  - exists (circular_buf_reset c). repeat split; eauto; eapply reset_ok; eauto.
  - rewrite (empty_iff c q H). exists c. unfold b2z. rewrite Hst. auto.
  - rewrite (full_iff c q H). exists c. unfold b2z. rewrite Hst. auto.
  - rewrite capacity_ok by auto. eauto.
  - rewrite (size_ok c q H). destruct (Z.eqb_spec (zlen q) (bufsize c - 1)); [lia|]. eauto.
  - destruct Hleg as [Hlen Hdata].
    destruct (puts_ok c q data len H Hlen) as (c' & E & R & B & T); [unfold zlen; lia|].
    assert (Ec : puts_count c q len = Z.min len (bufsize c - 1 - stored q)).
    { unfold puts_count, puts_defect. rewrite Hst.
      destruct (Z.leb_spec 1 (bufsize c - 1 - zlen q)); destruct (Z.eqb_spec len (bufsize c - 1 - zlen q + 1));
      cbn; try reflexivity; lia. }
    rewrite E, Ec in *. cbn [obind]. exists c'. split; [reflexivity|split; [split|exact B]].
    + exact R.
    + rewrite B. unfold stored, zlen in *. rewrite app_length, firstn_length. lia.
  - destruct (get_ok c q (wrap 64 len) H (Hwpos len)) as (x & Hk & E1 & E2).
    rewrite (Hget len Hleg Hsane) in *. unfold circular_buf_gets. rewrite E1.
    exists (with_tail c ((tail c + Z.of_nat (request q len)) mod bufsize c)); split; [|split; [|reflexivity]].
    + rewrite Nat2Z.id, firstn_app. replace (_ - length q)%nat with O by (specialize (Hreq len); lia).
      cbn [firstn]. rewrite app_nil_r. reflexivity.
    + replace (request q len) with (Z.to_nat (Z.of_nat (request q len))) at 2 by lia.
      apply with_tail_rep; auto. unfold zlen. specialize (Hreq len). lia.
  - destruct (get_ok c q (wrap 64 len) H (Hwpos len)) as (x & Hk & E1 & E2).
    rewrite (Hget len Hleg Hsane) in *. unfold circular_buf_peek. rewrite E2.
    exists c. rewrite Nat2Z.id, firstn_app.
    replace (_ - length q)%nat with O by (specialize (Hreq len); lia).
    cbn [firstn]. rewrite app_nil_r. auto.
  - destruct (get_ok c q (wrap 64 len) H (Hwpos len)) as (x & Hk & E1 & E2).
    rewrite (Hget len Hleg Hsane) in *. unfold circular_buf_drop. rewrite E1.
    eexists; split; [reflexivity|split; [|reflexivity]].
    replace (request q len) with (Z.to_nat (Z.of_nat (request q len))) at 2 by lia.
    apply with_tail_rep; auto. unfold zlen. specialize (Hreq len). lia.
Qed.

Lemma run_sim : forall ops c q,
  rep c q -> all_sane (bufsize c - 1) q ops ->
  exists c', cbuf_run c ops = Done (c', fifo_run (bufsize c - 1) q ops) /\
             rep c' (fifo_state (bufsize c - 1) q ops) /\ bufsize c' = bufsize c.
Proof.
  induction ops as [|o ops IH]; intros c q H Hs.
  - exists c; repeat split; auto; apply H.
  - destruct Hs as (Hleg & Hsane & Hrest).
    destruct (step_sim c q o H Hleg Hsane) as (c' & E & R & B).
    cbn [cbuf_run fifo_run]. rewrite E. cbn [obind].
    unfold fifo_state. cbn [fold_left]. fold (fifo_state (bufsize c - 1) (fst (fifo_step (bufsize c - 1) q o)) ops).
    destruct (fifo_step (bufsize c - 1) q o) as [q' r]. cbn [fst snd] in *.
    rewrite <- B in Hrest. destruct (IH c' q' R Hrest) as (c'' & E'' & R'' & B'').
    rewrite E''. cbn [obind]. rewrite B in *. eauto.
Qed.

Lemma run_app : forall ops1 ops2 c c1 r1,
  cbuf_run c ops1 = Done (c1, r1) ->
  cbuf_run c (ops1 ++ ops2) = do (c2, r2) <- cbuf_run c1 ops2; Done (c2, r1 ++ r2).
Proof.
  induction ops1 as [|o ops1 IH]; intros ops2 c c1 r1 E.
  - cbn in E. inversion E; subst. cbn [app]. destruct (cbuf_run c1 ops2) as [[? ?]| | |]; reflexivity.
  - cbn [app cbuf_run] in *. destruct (cbuf_step c o) as [[c' r]| | |]; cbn [obind] in *; try discriminate.
    destruct (cbuf_run c' ops1) as [[c'' rs]| | |] eqn:E1; cbn [obind] in *; try discriminate.
    inversion E; subst. rewrite (IH ops2 c' c1 rs E1).
    destruct (cbuf_run c1 ops2) as [[? ?]| | |]; reflexivity.
Qed.

(** All calls, also the defective ones, keep the structure well formed. *)
Lemma step_safe : forall c q o, rep c q -> legal o ->
  exists c' q' r d, cbuf_step c o = Done (c', (r, d)) /\ rep c' q' /\ bufsize c' = bufsize c /\
    zlen d <= delivery_limit (bufsize c) o.
Proof.
  intros c q o H Hleg.
  pose proof H as [Hh Hq]. pose proof (h_wf _ _ Hh) as Hwf.
  pose proof Hwf as [Hl Hs Hhd Htl].
  assert (Hz0 : zlen (@nil A) <= 0) by (unfold zlen; cbn; lia).
  assert (Hz1 : zlen (@nil A) <= 1) by (unfold zlen; cbn; lia).
  pose proof (zlen_nonneg A q).
  assert (Hwpos : forall len, 0 <= wrap 64 len) by (intros; apply wrap_range; lia).
  assert (Hgets : forall len, exists q',
     rep (with_tail c ((tail c + get_count (bufsize c) q len) mod bufsize c)) q' \/ len < 0).
  { intros len. destruct (Z.ltb_spec len 0); [exists q; now right|].
    unfold get_count.
    destruct (Z.eqb_spec (zlen q) (bufsize c - 1)); destruct (Z.ltb_spec len (if zlen q =? bufsize c - 1 then bufsize c else zlen q)).
    - destruct (Z.eqb_spec (zlen q) (bufsize c - 1)); [|lia].
      destruct (Z.ltb_spec len (bufsize c)); [|lia].
      exists (skipn (Z.to_nat len) q). left. apply with_tail_rep; auto; lia.
    - destruct (Z.eqb_spec (zlen q) (bufsize c - 1)); [|lia].
      destruct (Z.ltb_spec len (bufsize c)); [lia|].
      exists q. left. rewrite full_get_unmoved by auto. exact H.
    - destruct (Z.eqb_spec (zlen q) (bufsize c - 1)); [lia|].
      destruct (Z.ltb_spec len (zlen q)); [|lia].
      exists (skipn (Z.to_nat len) q). left. apply with_tail_rep; auto; lia.
    - destruct (Z.eqb_spec (zlen q) (bufsize c - 1)); [lia|].
      destruct (Z.ltb_spec len (zlen q)); [lia|].
      exists (skipn (Z.to_nat (zlen q)) q). left. apply with_tail_rep; auto; lia. }
  assert (Hsane_case : sane (bufsize c - 1) q o ->
    exists c' q' r d, cbuf_step c o = Done (c', (r, d)) /\ rep c' q' /\ bufsize c' = bufsize c).
  { intros Hs'. destruct (step_sim c q o H Hleg Hs') as (c' & E & R & B).
    destruct (snd (fifo_step (bufsize c - 1) q o)) as [r d]. eauto 8. }
  assert (Hlim : forall len x, INT_MIN <= len <= INT_MAX ->
    zlen (firstn (Z.to_nat (get_count (bufsize c) q (wrap 64 len))) (q ++ [x])) <=
    (if len <? 0 then bufsize c else Z.min len (bufsize c))).
  { intros len x HL. rewrite wrap_int by exact HL. unfold INT_MIN, INT_MAX in *.
    unfold get_count, zlen in *. rewrite firstn_length, app_length. cbn [length].
    destruct (Z.ltb_spec len 0);
    match goal with |- context [if ?x <? ?y then _ else _] => destruct (Z.ltb_spec x y) end;
    destruct (Z.eqb_spec (Z.of_nat (length q)) (bufsize c - 1)); lia. }
  destruct o; cbn [cbuf_step legal delivery_limit] in *; unfold pure_res.
  - pose proof (putc_ok c q a H) as P. destruct (zlen q <? bufsize c - 1).
    + destruct P as (c' & E & R & B). rewrite E. cbn [obind]. eauto 10.
    + rewrite P. cbn [obind]. exists c, q, (-1), []. auto.
  - pose proof (getc_ok c q H) as P. destruct q as [|a q'].
    + rewrite P. cbn [obind]. exists c, [], (-1), []. auto.
    + destruct P as (c' & E & R & B). rewrite E. cbn [obind].
      exists c', q', 0, [a]. split; [reflexivity|]. split; [exact R|]. split; [exact B|]. unfold zlen; cbn; lia.
  - exists (circular_buf_reset c), [], 0, []. split; [reflexivity|].
    split; [eapply reset_ok; eauto|auto].
  - eauto 10. 
  - eauto 10.
  - eauto 10.
  - eauto 10.
  - destruct Hleg as [Hlen Hdata].
    destruct (puts_ok c q data len H Hlen) as (c' & E & R & B & T); [unfold zlen; lia|].
    rewrite E. cbn [obind]. exists c'.
    pose proof (h_len _ _ R) as HL.
    destruct (Z.eq_dec (zlen (q ++ firstn (Z.to_nat (puts_count c q len)) data)) (bufsize c')).
    + exists [], (puts_count c q len), []. split; [reflexivity|].
      split; [eapply holds_full_empty; eauto|auto].
    + exists (q ++ firstn (Z.to_nat (puts_count c q len)) data), (puts_count c q len), [].
      split; [reflexivity|]. split; [split; [exact R|lia]|auto].
  - destruct (get_ok c q (wrap 64 len) H (Hwpos len)) as (x & Hk & E1 & E2).
    unfold circular_buf_gets. rewrite E1.
    destruct (Hgets (wrap 64 len)) as [q' [R|R]]; [|specialize (Hwpos len); lia].
    do 4 eexists. split; [reflexivity|split; [exact R|split; [reflexivity|]]].
    now apply Hlim.
  - destruct (get_ok c q (wrap 64 len) H (Hwpos len)) as (x & Hk & E1 & E2).
    unfold circular_buf_peek. rewrite E2.
    do 4 eexists. split; [reflexivity|split; [exact H|split; [reflexivity|]]].
    now apply Hlim.
  - destruct (get_ok c q (wrap 64 len) H (Hwpos len)) as (x & Hk & E1 & E2).
    unfold circular_buf_drop. rewrite E1.
    destruct (Hgets (wrap 64 len)) as [q' [R|R]]; [|specialize (Hwpos len); lia].
    do 4 eexists. split; [reflexivity|split; [exact R|split; [reflexivity|]]]. exact Hz0.
Qed.

Lemma run_safe : forall ops c q,
  rep c q -> Forall legal ops ->
  exists c' rs, cbuf_run c ops = Done (c', rs) /\
    0 <= head c' < bufsize c /\ 0 <= tail c' < bufsize c /\ zlen (buffer c') = bufsize c /\
    Forall2 (fun o r => zlen (snd r) <= delivery_limit (bufsize c) o) ops rs.
Proof.
  induction ops as [|o ops IH]; intros c q H HF.
  - exists c, []. pose proof (h_wf _ _ (proj1 H)) as [Hl Hs Hhd Htl]. cbn. auto.
  - inversion HF as [|? ? Ho Hrest]; subst.
    destruct (step_safe c q o H Ho) as (c' & q' & r & d & E & R & B & Z).
    destruct (IH c' q' R Hrest) as (c'' & rs & E' & P1 & P2 & P3 & P4).
    exists c'', ((r, d) :: rs). cbn [cbuf_run]. rewrite E. cbn [obind]. rewrite E'. cbn [obind].
    rewrite B in *. auto 6.
Qed.


Lemma all_sane_single : forall cap ops q, forallb single ops = true -> all_sane cap q ops.
Proof.
  induction ops as [|o ops IH]; intros q H; cbn in *; [exact I|].
  apply andb_prop in H as [H1 H2]. split; [|split].
  - destruct o; cbn in *; auto; discriminate.
  - destruct o; cbn in *; auto; discriminate.
  - auto.
Qed.

Lemma single_ops_fifo_l : forall (region : list A) ops,
  1 <= zlen region <= INT_MAX -> forallb single ops = true ->
  exists c0 c', circular_buf_init region (zlen region) = Some c0 /\
    cbuf_run c0 ops = Done (c', fifo_run (zlen region - 1) [] ops).
Proof.
  intros region ops Hn Hs. destruct (init_ok region (zlen region) eq_refl Hn) as (c0 & E & R & B).
  destruct (run_sim ops c0 [] R) as (c' & E' & _).
  - apply all_sane_single; auto.
  - rewrite B in E'. eauto.
Qed.

Lemma history_fifo_l : forall (region : list A) ops,
  1 <= zlen region <= INT_MAX -> all_sane (zlen region - 1) [] ops ->
  exists c0 c', circular_buf_init region (zlen region) = Some c0 /\
    cbuf_run c0 ops = Done (c', fifo_run (zlen region - 1) [] ops).
Proof.
  intros region ops Hn Hs. destruct (init_ok region (zlen region) eq_refl Hn) as (c0 & E & R & B).
  rewrite <- B in Hs. destruct (run_sim ops c0 [] R Hs) as (c' & E' & _). rewrite B in E'. eauto.
Qed.

Lemma size_exact_l : forall (region : list A) ops,
  1 <= zlen region <= INT_MAX -> all_sane (zlen region - 1) [] ops ->
  let cap := zlen region - 1 in
  let q := fifo_state cap [] ops in
  exists c0 c', circular_buf_init region (zlen region) = Some c0 /\
    cbuf_run c0 (ops ++ [Size]) =
      Done (c', fifo_run cap [] ops ++ [(if stored q =? cap then cap + 1 else stored q, [])]).
Proof.
  intros region ops Hn Hs. destruct (init_ok region (zlen region) eq_refl Hn) as (c0 & E & R & B).
  rewrite <- B in Hs. destruct (run_sim ops c0 [] R Hs) as (c' & E' & R' & B').
  exists c0, c'. split; [exact E|]. rewrite (run_app _ _ _ _ _ E').
  cbn [cbuf_run cbuf_step pure_res obind]. rewrite (size_ok _ _ R'), B', B.
  unfold stored. fold (zlen (fifo_state (zlen region - 1) [] ops)).
  destruct (_ =? _); [replace (zlen region - 1 + 1) with (zlen region) by lia|]; reflexivity.
Qed.

Lemma gets_full_exact_l : forall (region : list A) ops len ops2,
  1 <= zlen region <= INT_MAX -> all_sane (zlen region - 1) [] ops ->
  let cap := zlen region - 1 in
  let q := fifo_state cap [] ops in
  stored q = cap -> INT_MIN <= len <= INT_MAX -> len < 0 \/ cap < len ->
  all_sane cap q ops2 ->
  exists c0 c' x, circular_buf_init region (zlen region) = Some c0 /\
    cbuf_run c0 (ops ++ Gets len :: ops2) =
      Done (c', fifo_run cap [] ops ++ (cap + 1, q ++ [x]) :: fifo_run cap q ops2).
Proof.
  intros region ops len ops2 Hn Hs cap q Hfull Hlen Hbig Hs2.
  destruct (init_ok region (zlen region) eq_refl Hn) as (c0 & E & R & B).
  rewrite <- B in Hs. destruct (run_sim ops c0 [] R Hs) as (c1 & E1 & R1 & B1).
  rewrite B in E1, R1, B1. assert (Hcap : zlen region - 1 = cap) by reflexivity.
  clearbody cap. rewrite Hcap in E1, R1. fold q in R1.
  destruct (get_ok c1 q (wrap 64 len) R1) as (x & Hk & Eg & _); [apply wrap_range; lia|].
  assert (Ek : get_count (bufsize c1) q (wrap 64 len) = cap + 1).
  { unfold get_count. change (zlen q) with (stored q). rewrite Hfull, B1, Hcap.
    rewrite Z.eqb_refl, wrap_int by auto. unfold INT_MAX, INT_MIN in *.
    destruct (Z.ltb_spec len 0);
    match goal with |- context [if ?x <? ?y then _ else _] => destruct (Z.ltb_spec x y) end; lia. }
  rewrite Ek in *.
  destruct (run_sim ops2 c1 q R1) as (c2 & E2 & R2 & B2); [rewrite B1, Hcap; exact Hs2|].
  exists c0, c2, x. split; [exact E|]. rewrite (run_app _ _ _ _ _ E1).
  cbn [cbuf_run cbuf_step]. unfold circular_buf_gets. rewrite Eg. cbn [obind].
  replace (cap + 1) with (bufsize c1) by lia.
  rewrite full_get_unmoved by (apply R1). rewrite E2. cbn [obind]. rewrite B1, Hcap.
  rewrite firstn_all2; [reflexivity|].
  rewrite app_length. unfold stored in Hfull. cbn [length]. lia.
Qed.

Lemma puts_one_too_many_l : forall (region : list A) ops data len,
  1 <= zlen region <= INT_MAX -> all_sane (zlen region - 1) [] ops ->
  let cap := zlen region - 1 in
  let q := fifo_state cap [] ops in
  0 <= len < 2 ^ 64 -> len <= zlen data ->
  exists c0 r q', circular_buf_init region (zlen region) = Some c0 /\
    ((r = Z.min len (cap - stored q) /\ q' = q ++ firstn (Z.to_nat r) data) \/
     (stored q < cap /\ len = cap - stored q + 1 /\ r = len /\ q' = [])) /\
    forall ops2, all_sane cap q' ops2 -> exists c',
       cbuf_run c0 (ops ++ Puts data len :: ops2) =
        Done (c', fifo_run cap [] ops ++ (r, []) :: fifo_run cap q' ops2).
Proof.
  intros region ops data len Hn Hs cap q Hlen Hdata.
  destruct (init_ok region (zlen region) eq_refl Hn) as (c0 & E & R & B).
  rewrite <- B in Hs. destruct (run_sim ops c0 [] R Hs) as (c1 & E1 & R1 & B1).
  rewrite B in E1, R1, B1. assert (Hcap : zlen region - 1 = cap) by reflexivity.
  clearbody cap. rewrite Hcap in E1, R1. fold q in R1.
  destruct (puts_ok c1 q data len R1 Hlen Hdata) as (c2 & E2 & R2 & B2 & T2).
  unfold puts_count in *. rewrite B1, Hcap in E2, R2. rewrite B1 in B2.
  assert (Hsuf : forall r q', rep c2 q' -> circular_buf_puts c1 data len = Done (c2, r) ->
    forall ops2, all_sane cap q' ops2 -> exists c',
       cbuf_run c0 (ops ++ Puts data len :: ops2) =
        Done (c', fifo_run cap [] ops ++ (r, []) :: fifo_run cap q' ops2)).
  { intros r q' R' E' ops2 HS.
    destruct (run_sim ops2 c2 q' R') as (c3 & E3 & _); [rewrite B2, Hcap; exact HS|].
    exists c3. rewrite (run_app _ _ _ _ _ E1). cbn [cbuf_run cbuf_step]. rewrite E'. cbn [obind].
    rewrite E3, B2, Hcap. reflexivity. }
  destruct (puts_defect c1 q len) eqn:Ed.
  - unfold puts_defect in Ed. rewrite B1, Hcap in Ed.
    apply andb_prop in Ed as [Ed E3]. apply andb_prop in Ed as [Ed1 Ed2].
    assert (zlen (q ++ firstn (Z.to_nat len) data) = bufsize c2).
    { rewrite B2. unfold zlen in *. rewrite app_length, firstn_length. lia. }
    exists c0, len, []. split; [exact E|split].
    + right. unfold stored. fold (zlen q). repeat split; lia.
    + apply Hsuf; [eapply holds_full_empty; eauto|exact E2].
  - exists c0, (Z.min len (cap - stored q)), (q ++ firstn (Z.to_nat (Z.min len (cap - stored q))) data).
    split; [exact E|split].
    + left. auto.
    + apply Hsuf; [|exact E2].
      split; [exact R2|]. rewrite B2. destruct R1 as [_ R1]. rewrite B1 in R1.
      unfold zlen, stored in *. rewrite app_length, firstn_length. lia.
Qed.

Lemma memory_safe_l : forall (region : list A) ops,
  1 <= zlen region <= INT_MAX -> Forall legal ops ->
  exists c0 c' outs, circular_buf_init region (zlen region) = Some c0 /\
    cbuf_run c0 ops = Done (c', outs) /\
    0 <= head c' < zlen region /\ 0 <= tail c' < zlen region /\ zlen (buffer c') = zlen region /\
    Forall2 (fun o r => zlen (snd r) <= delivery_limit (zlen region) o) ops outs.
Proof.
  intros region ops Hn Hl. destruct (init_ok region (zlen region) eq_refl Hn) as (c0 & E & R & B).
  destruct (run_safe ops c0 [] R Hl) as (c' & rs & P). rewrite B in P. exists c0, c', rs. tauto.
Qed.

End CbufProofs.
