(** Every history of calls, the defective ones included. *)
From Coq Require Import ZifyBool ZifyNat.
From Verif Require Import Base BaseLemmas CbufModel CbufSpec CbufSystem CbufProofs.

Section CbufExact.
Context {A : Type}.
Implicit Types (c : cbuf A) (q F D b : list A).

(** [c] holds [q]; the other cells are [F]. *)
Record ringed (c : cbuf A) (q F : list A) : Prop := mkRinged {
  r_rep : rep c q;
  r_len : zlen q + zlen F = bufsize c;
  r_win : window (buffer c) (bufsize c) (tail c) (q ++ F) }.

Lemma zlen_app : forall (x y : list A), zlen (x ++ y) = zlen x + zlen y.
Proof. intros. unfold zlen. rewrite app_length. lia. Qed.

Lemma window_overwrite : forall b n t q F D h,
  0 <= t < n -> zlen b = n -> window b n t (q ++ F) -> h = (t + zlen q) mod n ->
  zlen q + zlen F = n -> zlen D <= zlen F -> h + zlen D <= n ->
  window (firstn (Z.to_nat h) b ++ D ++ skipn (Z.to_nat h + length D) b) n t (q ++ D ++ skipn (length D) F).
Proof.
  intros b n t q F D h Ht Hb Hw Hh HqF HDF HhD i Hi.
  rewrite !app_length, skipn_length in Hi. unfold zlen in *.
  assert (Hh0 : 0 <= h < n) by (subst h; apply Z.mod_pos_bound; lia).
  assert (Hw' := Hw i). rewrite app_length in Hw'. specialize (Hw' ltac:(lia)).
  rewrite nth_error_app in Hw'.
  rewrite !nth_error_app, firstn_length, !nth_error_skipn.
  assert (Hmin : Nat.min (Z.to_nat h) (length b) = Z.to_nat h) by lia. rewrite Hmin.
  rewrite (mod_cases (t + Z.of_nat (length q))) in Hh by lia.
  rewrite (mod_cases (t + Z.of_nat i)) in Hw' |- * by lia.
  rewrite nth_error_firstn.
  destruct (Nat.ltb_spec i (length q)).
  - rewrite Hw'.
    destruct (Z.ltb_spec (t + Z.of_nat i) n); destruct (Z.ltb_spec (t + Z.of_nat (length q)) n);
    match goal with |- context [Nat.ltb ?x ?y] => destruct (Nat.ltb_spec x y) end;
    try lia; try reflexivity;
    match goal with |- context [Nat.ltb ?x ?y] => destruct (Nat.ltb_spec x y) end;
    try lia; f_equal; lia.
  - destruct (Nat.ltb_spec (i - length q) (length D)).
    + destruct (Z.ltb_spec (t + Z.of_nat i) n); destruct (Z.ltb_spec (t + Z.of_nat (length q)) n);
      match goal with |- context [Nat.ltb ?x ?y] => destruct (Nat.ltb_spec x y) end;
      try lia; try reflexivity;
      match goal with |- context [Nat.ltb ?x ?y] => destruct (Nat.ltb_spec x y) end;
      try lia; f_equal; lia.
    + replace (length D + (i - length q - length D))%nat with (i - length q)%nat by lia.
      rewrite Hw'.
      destruct (Z.ltb_spec (t + Z.of_nat i) n); destruct (Z.ltb_spec (t + Z.of_nat (length q)) n);
      match goal with |- context [Nat.ltb ?x ?y] => destruct (Nat.ltb_spec x y) end;
      try lia; try reflexivity;
      match goal with |- context [Nat.ltb ?x ?y] => destruct (Nat.ltb_spec x y) end;
      try lia; f_equal; lia.
Qed.

(** Storing [D] at head and advancing over it. *)
Lemma store_ring : forall c q F D,
  ringed c q F -> is_circular_buf_full c = false -> 0 < zlen D ->
  zlen D <= zlen F -> head c + zlen D <= bufsize c ->
  exists b, zwrite (buffer c) (head c) D = Done b /\
    let c' := advance_pointer (with_buffer c b) (zlen D) in
    tail c' = tail c /\ bufsize c' = bufsize c /\
    if zlen D <? zlen F then ringed c' (q ++ D) (skipn (length D) F) else ringed c' [] (q ++ D).
Proof.
  intros c q F D [Hr HF Hw] Hf HD HDF HhD.
  destruct (store_append c q D Hr Hf HD ltac:(lia) HhD) as (b & Eb & Hc). cbv zeta in Hc.
  destruct Hc as (Hc & Ht & Hb). exists b. split; [exact Eb|]. cbv zeta.
  split; [exact Ht|]. split; [exact Hb|].
  pose proof Hr as [[[Hl Hs Hh Htl] HL HH _] Hq].
  assert (Hwin : window b (bufsize c) (tail c) (q ++ D ++ skipn (length D) F)).
  { rewrite zwrite_ok in Eb by lia. injection Eb as <-. apply window_overwrite; auto. }
  assert (Hbuf : buffer (advance_pointer (with_buffer c b) (zlen D)) = b).
  { unfold advance_pointer. now destruct (_ || _). }
  destruct (Z.ltb_spec (zlen D) (zlen F)).
  - constructor.
    + split; [exact Hc|]. rewrite Hb, zlen_app. lia.
    + rewrite Hb, zlen_app. unfold zlen in *. rewrite skipn_length. lia.
    + rewrite Hbuf, Hb, Ht, <- app_assoc. exact Hwin.
  - constructor.
    + eapply holds_full_empty; [exact Hc|]. rewrite Hb, zlen_app. lia.
    + rewrite Hb, zlen_app. unfold zlen in *. cbn. lia.
    + rewrite Hbuf, Hb, Ht. cbn [app]. rewrite skipn_all2 in Hwin by (unfold zlen in *; lia).
      now rewrite app_nil_r in Hwin.
Qed.

(** What puts makes of content and unused cells. *)
Definition put_ring (c : cbuf A) (q F data : list A) (len : Z) (c' : cbuf A) : Prop :=
  if puts_defect c q len then ringed c' [] (q ++ firstn (Z.to_nat len) data)
  else ringed c' (q ++ firstn (Z.to_nat (Z.min len (bufsize c - 1 - zlen q))) data)
              (skipn (Z.to_nat (Z.min len (bufsize c - 1 - zlen q))) F).

Lemma defect_full : forall c q len, bufsize c - 1 - zlen q <= 0 -> puts_defect c q len = false.
Proof. intros. unfold puts_defect. destruct (Z.leb_spec 1 (bufsize c - 1 - zlen q)); [lia|reflexivity]. Qed.
Lemma defect_none : forall c q len, len <> bufsize c - 1 - zlen q + 1 -> puts_defect c q len = false.
Proof.
  intros. unfold puts_defect. destruct (Z.eqb_spec len (bufsize c - 1 - zlen q + 1)); [lia|].
  now rewrite andb_false_r.
Qed.

Lemma puts_loop_ring : forall fuel c q F data len w,
  ringed c q F -> 0 <= len -> len <= zlen data -> 0 <= w -> w <= zlen q ->
  len < 2 ^ 64 ->
  bufsize c - 1 - zlen q <= Z.of_nat fuel ->
  exists c',
    puts_loop fuel c (head c) (tail c) data len w = Done (c', w + puts_count c q len) /\
    put_ring c q F data len c' /\ bufsize c' = bufsize c /\ tail c' = tail c.
Proof.
  induction fuel; intros c q F data len w HR Hlen Hdata Hw Hwq H64 Hfuel.
  - pose proof HR as [H HF Hwin].
    assert (Hfull : is_circular_buf_full c = true).
    { rewrite (full_iff c q H). destruct H. lia. }
    cbn [puts_loop]. rewrite Hfull. cbn [negb andb].
    exists c. unfold puts_count, put_ring. rewrite defect_full by lia.
    destruct H as [? Hq].
    replace (Z.min len (bufsize c - 1 - zlen q)) with 0 by lia.
    rewrite Z.add_0_r. cbn [Z.to_nat firstn skipn]. rewrite app_nil_r. auto.
  - cbn [puts_loop]. pose proof HR as [H HF Hwin]. pose proof H as [Hh Hq].
    pose proof (h_wf _ _ Hh) as [Hl Hs Hhd Htl]. unfold INT_MAX in *.
    pose proof (zlen_nonneg A q).
    rewrite (full_iff c q H).
    destruct (Z.eqb_spec (zlen q) (bufsize c - 1)) as [Ef|Ef].
    { cbn [negb andb]. exists c. unfold puts_count, put_ring. rewrite defect_full by lia.
      replace (Z.min len (bufsize c - 1 - zlen q)) with 0 by lia.
      rewrite Z.add_0_r. cbn [Z.to_nat firstn skipn]. rewrite app_nil_r. auto. }
    cbn [negb andb]. destruct (Z.ltb_spec 0 len).
    2:{ exists c. unfold puts_count, put_ring. rewrite defect_none by lia.
        replace (Z.min len (bufsize c - 1 - zlen q)) with 0 by lia.
        rewrite Z.add_0_r. cbn [Z.to_nat firstn skipn]. rewrite app_nil_r. auto. }
    set (fr := bufsize c - 1 - zlen q).
    match goal with |- context [swrap 32 (if tail c <=? head c then ?x else ?y)] =>
      set (chunk := if tail c <=? head c then x else y) end.
    pose proof (h_head _ _ Hh) as HH. rewrite mod_cases in HH by lia.
    assert (Hchunk :
      1 <= chunk <= len /\ head c + chunk <= bufsize c /\
      (chunk <= fr \/ (chunk = fr + 1 /\ len = fr + 1 /\ 2 <= tail c)) /\
      (chunk = fr -> len = fr + 1 -> tail c < 2) /\
      (chunk < len -> chunk < fr -> head c + chunk = bufsize c /\ 2 <= tail c)).
    { unfold chunk, fr. clear chunk.
      destruct (Z.leb_spec (tail c) (head c)); destruct (Z.ltb_spec (tail c + zlen q) (bufsize c)); try lia.
      - destruct (Z.eqb_spec (tail c) 0).
        + rewrite (wrap64_small (bufsize c - head c)) by lia. rewrite wrap64_small by lia.
          destruct (Z.ltb_spec (bufsize c - head c - 1) len); lia.
        + rewrite (wrap64_small (bufsize c - head c)) by lia.
          destruct (Z.ltb_spec (bufsize c - head c) len); lia.
      - rewrite (wrap64_small (tail c - head c)) by lia. rewrite wrap64_small by lia.
        destruct (Z.ltb_spec (tail c - head c) len); lia. }
    clearbody chunk. destruct Hchunk as (Hc1 & Hc2 & Hc3 & Hc4 & Hc5).
    assert (Hcf : chunk <= fr + 1) by lia.
    rewrite swrap32_small by lia.
    rewrite zread_ok by lia. cbn [obind skipn Z.to_nat].
    set (D := firstn (Z.to_nat chunk) data).
    assert (HD : zlen D = chunk) by (unfold D, zlen in *; rewrite firstn_length; lia).
    destruct (store_ring c q F D HR) as (b & Eb & Hc).
    { rewrite (full_iff c q H). lia. }
    { lia. } { lia. } { lia. }
    rewrite HD in Hc. cbv zeta in Hc. destruct Hc as (Ht' & Hb' & Hc).
    rewrite Eb. cbn [obind].
    set (c' := advance_pointer (with_buffer c b) chunk) in *.
    rewrite (wrap64_small chunk) by lia. rewrite (wrap64_small (len - chunk)) by lia.
    rewrite swrap32_small by lia.
    assert (Hzq : zlen (q ++ D) = zlen q + chunk) by (rewrite zlen_app; lia).
    assert (HlD : length D = Z.to_nat chunk) by (unfold zlen in HD; lia).
    assert (Hsplit : forall k, chunk <= k -> firstn (Z.to_nat k) data =
              D ++ firstn (Z.to_nat (k - chunk)) (skipn (Z.to_nat chunk) data)).
    { intros k Hk. unfold D. rewrite <- (firstn_skipn (Z.to_nat chunk) data) at 1.
      rewrite firstn_app, firstn_length.
      rewrite firstn_all2 by (rewrite firstn_length; unfold zlen in *; lia).
      f_equal. f_equal. unfold zlen in *; lia. }
    assert (Hskip : forall k, chunk <= k -> skipn (Z.to_nat k) F = skipn (Z.to_nat (k - chunk)) (skipn (length D) F)).
    { intros k Hk. rewrite HlD. replace (Z.to_nat k) with (Z.to_nat chunk + Z.to_nat (k - chunk))%nat by lia.
      generalize (Z.to_nat chunk), (Z.to_nat (k - chunk)). clear. intros x y. revert F.
      induction x; intros F; cbn; auto. destruct F; [now rewrite skipn_nil|auto]. }
    destruct Hc3 as [Hc3|(Hc3 & Hc3l & Hc3t)].
    + destruct (Z.ltb_spec chunk (zlen F)) as [_|Hbad]; [|lia].
      destruct (IHfuel c' (q ++ D) (skipn (length D) F) (skipn (Z.to_nat chunk) data) (len - chunk) (w + chunk)) as (c'' & E & Hh'' & Hb'' & Ht'').
      * exact Hc.
      * lia.
      * unfold zlen in *; rewrite skipn_length; lia.
      * lia.
      * rewrite Hzq. lia.
      * lia.
      * rewrite Hb', Hzq. lia.
      * rewrite Ht' in E. rewrite E.
        assert (Ed : puts_defect c q len = puts_defect c' (q ++ D) (len - chunk)).
        { unfold puts_defect. rewrite Hzq, Hb', Ht'. fold fr.
          replace (bufsize c - 1 - (zlen q + chunk)) with (fr - chunk) by lia.
          destruct (Z.leb_spec 1 fr); destruct (Z.leb_spec 1 (fr - chunk));
          destruct (Z.eqb_spec len (fr + 1)); destruct (Z.eqb_spec (len - chunk) (fr - chunk + 1));
          destruct (Z.leb_spec 2 (tail c)); cbn; lia. }
        exists c''. split; [|split; [|split]].
        -- do 2 f_equal. unfold puts_count. rewrite <- Ed, Hzq, Hb'. fold fr.
           destruct (puts_defect c q len); lia.
        -- unfold put_ring in *. rewrite Ed, Hzq, Hb' in *.
           destruct (puts_defect c' (q ++ D) (len - chunk)).
           ++ rewrite Hsplit by lia. rewrite app_assoc. exact Hh''.
           ++ rewrite Hsplit by lia. rewrite Hskip by lia. rewrite app_assoc.
              replace (Z.min len (bufsize c - 1 - zlen q) - chunk) with
                (Z.min (len - chunk) (bufsize c - 1 - (zlen q + chunk))) by lia.
              exact Hh''.
        -- congruence.
        -- congruence.
    + assert (Ed : puts_defect c q len = true).
      { unfold puts_defect. fold fr.
        destruct (Z.leb_spec 1 fr); destruct (Z.eqb_spec len (fr + 1));
        destruct (Z.leb_spec 2 (tail c)); cbn; lia. }
      assert (El : len - chunk = 0) by lia.
      rewrite El. exists c'. unfold puts_count, put_ring. rewrite Ed.
      replace (Z.to_nat len) with (Z.to_nat chunk) by lia. fold D.
      destruct (Z.ltb_spec chunk (zlen F)) as [Hbad|_]; [lia|].
      split; [|auto].
      replace (w + len) with (w + chunk) by lia.
      destruct fuel; cbn [puts_loop];
        (replace (0 <? 0) with false by reflexivity); rewrite andb_false_r; reflexivity.
Qed.

Lemma puts_ring : forall c q F data len,
  ringed c q F -> 0 <= len < 2 ^ 64 -> len <= zlen data ->
  exists c', circular_buf_puts c data len = Done (c', puts_count c q len) /\
    put_ring c q F data len c' /\ bufsize c' = bufsize c /\ tail c' = tail c.
Proof.
  intros c q F data len H Hlen Hdata. unfold circular_buf_puts.
  pose proof (zlen_nonneg A q).
  destruct (puts_loop_ring (Z.to_nat (bufsize c)) c q F data len 0 H) as (c' & E & R); try lia.
  exists c'. split; [exact E|exact R].
Qed.

Lemma window_rotate : forall b n t W k, 0 < n -> window b n t W -> zlen W = n -> (k <= length W)%nat ->
  window b n ((t + Z.of_nat k) mod n) (skipn k W ++ firstn k W).
Proof.
  intros b n t W k Hn Hw HW Hk i Hi. unfold zlen in HW.
  rewrite app_length, skipn_length, firstn_length in Hi.
  rewrite nth_error_app, skipn_length, nth_error_skipn, nth_error_firstn, Zplus_mod_idemp_l.
  destruct (Nat.ltb_spec i (length W - k)).
  - rewrite Hw by lia. do 2 f_equal. f_equal. lia.
  - destruct (Nat.ltb_spec (i - (length W - k)) k); [|lia].
    rewrite Hw by lia. f_equal. f_equal.
    replace (t + Z.of_nat k + Z.of_nat i) with (t + Z.of_nat (i - (length W - k)) + 1 * n) by lia.
    now rewrite Z.mod_add by lia.
Qed.

Lemma take_ring : forall c q F k, ringed c q F -> (k <= length q)%nat ->
  ringed (with_tail c ((tail c + Z.of_nat k) mod bufsize c)) (skipn k q) (F ++ firstn k q).
Proof.
  intros c q F k [Hr HF Hw] Hk.
  pose proof (with_tail_rep c q (Z.of_nat k) Hr ltac:(unfold zlen; lia)) as Hr'. rewrite Nat2Z.id in Hr'.
  pose proof Hr as [[[Hl Hs Hh Ht] _ _ _] _].
  constructor; [exact Hr'| |].
  - cbn [bufsize with_tail]. rewrite zlen_app. unfold zlen in *. rewrite skipn_length, firstn_length. lia.
  - cbn [bufsize with_tail tail buffer].
    pose proof (window_rotate (buffer c) (bufsize c) (tail c) (q ++ F) k ltac:(lia) Hw) as HR.
    rewrite skipn_app, firstn_app in HR.
    replace (k - length q)%nat with O in HR by lia. cbn [skipn firstn] in HR.
    rewrite app_nil_r, <- app_assoc in HR. apply HR.
    + rewrite zlen_app. lia.
    + rewrite app_length. lia.
Qed.

Lemma get_ring : forall c q F len, ringed c q F -> 0 <= len ->
  let k := get_count (bufsize c) q len in
  0 <= k <= bufsize c /\
  (forall present, circular_buf_get c len present true =
     Done (with_tail c ((tail c + k) mod bufsize c),
           (k, if present then firstn (Z.to_nat k) (q ++ F) else []))) /\
  circular_buf_get c len true false = Done (c, (k, firstn (Z.to_nat k) (q ++ F))).
Proof.
  intros c q F len [Hr HF Hw] Hlen k.
  pose proof Hr as [Hh Hq]. pose proof (h_wf _ _ Hh) as Hwf.
  pose proof Hwf as [Hl Hs Hhd Htl]. unfold INT_MAX in *. pose proof (zlen_nonneg A q).
  assert (Ek : (if len <? circular_buf_size c then len else circular_buf_size c) = k)
    by (unfold k, get_count; rewrite (size_ok c q Hr); reflexivity).
  assert (Hk : 0 <= k <= bufsize c).
  { unfold k, get_count. destruct (Z.eqb_spec (zlen q) (bufsize c - 1));
    match goal with |- context [if ?x <? ?y then _ else _] => destruct (Z.ltb_spec x y) end; lia. }
  assert (Hx : window (buffer c) (bufsize c) (tail c) (firstn (Z.to_nat k) (q ++ F))) by now apply window_firstn.
  assert (Hz : zlen (firstn (Z.to_nat k) (q ++ F)) = k)
    by (unfold zlen in *; rewrite firstn_length, app_length; lia).
  clearbody k. split; [exact Hk|split].
  - intros present. unfold circular_buf_get. cbv zeta. rewrite Ek, !swrap32_small by lia.
    erewrite get_loop_ok; [|exact Hwf|lia|exact Hx|exact Hz|lia|lia|lia|lia|reflexivity].
    reflexivity.
  - unfold circular_buf_get. cbv zeta. rewrite Ek, !swrap32_small by lia.
    erewrite peek_loop_ok; [|exact Hwf|lia|lia|exact Hx|exact Hz|lia|lia|lia|lia].
    reflexivity.
Qed.

Definition related (c : cbuf A) (s : ring A) : Prop :=
  ringed c (content s) (free s) /\ tail c = at_ s.

Lemma taken_count : forall c q F t len, ringed c q F -> INT_MIN <= len <= INT_MAX ->
  get_count (bufsize c) q (wrap 64 len) = Z.of_nat (taken (mkRing t q F) len).
Proof.
  intros c q F t len [Hr HF Hw] Hlen. destruct Hr as [[[Hl Hs _ _] _ _ _] Hq].
  rewrite wrap_int by assumption. unfold get_count, taken, readable, ring_room, INT_MIN, INT_MAX in *.
  cbn [content free]. unfold zlen in *.
  destruct (Z.eqb_spec (Z.of_nat (length F) - 1) 0), (Z.eqb_spec (Z.of_nat (length q)) (bufsize c - 1)); try lia;
  destruct (Z.ltb_spec len 0); rewrite ?app_length;
  match goal with |- context [if ?x <? ?y then _ else _] => destruct (Z.ltb_spec x y) end; lia.
Qed.

Lemma taken_read : forall t q F len, let s := mkRing t q F in
  firstn (taken s len) (readable s) = firstn (taken s len) (q ++ F).
Proof.
  intros t q F len s.
  assert (H : (taken s len <= length (readable s))%nat) by (unfold taken; destruct (len <? 0); lia).
  unfold readable in *. destruct (ring_room s =? 0); [reflexivity|]. cbn [content free s] in *.
  rewrite firstn_app. replace (taken s len - length q)%nat with O by lia. cbn [firstn]. now rewrite app_nil_r.
Qed.

Lemma take_related : forall c t q F k, ringed c q F -> tail c = t -> 0 <= k <= bufsize c ->
  (zlen q < k -> k = bufsize c) ->
  related (with_tail c ((tail c + k) mod bufsize c)) (ring_take (mkRing t q F) (Z.to_nat k)).
Proof.
  intros c t q F k HR Ht Hk Hall. unfold ring_take, ring_cells. cbn [content free at_].
  pose proof HR as [Hr HF Hw]. pose proof Hr as [[Hwf _ _ _] _].
  assert (Hlen : Z.of_nat (length (q ++ F)) = bufsize c) by (rewrite app_length; unfold zlen in *; lia).
  destruct (Nat.ltb_spec (length q) (Z.to_nat k)).
  - rewrite Hall by (unfold zlen; lia). rewrite full_get_unmoved by assumption. split; assumption.
  - split; cbn [content free at_].
    + replace k with (Z.of_nat (Z.to_nat k)) at 1 by lia. apply take_ring; assumption.
    + cbn [tail with_tail]. rewrite Hlen, Ht. do 2 f_equal. lia.
Qed.

Lemma step_exact : forall c s o, related c s -> legal o ->
  exists c', cbuf_step c o = Done (c', snd (exact_step s o)) /\ related c' (fst (exact_step s o)).
Proof.
  intros c [t q F] o [HR Ht] Hleg. cbn [content free at_] in *.
  pose proof HR as [H HF Hwin]. pose proof H as [Hh Hq]. pose proof (h_wf _ _ Hh) as Hwf.
  pose proof Hwf as [Hl Hs Hhd Htl].
  pose proof (zlen_nonneg A q).
  assert (Hlen : Z.of_nat (length (q ++ F)) = bufsize c) by (rewrite app_length; unfold zlen in *; lia).
  assert (Hroom : ring_room (mkRing t q F) = bufsize c - 1 - zlen q) by (unfold ring_room, zlen in *; cbn [free]; lia).
  assert (Hwpos : forall len, 0 <= wrap 64 len) by (intros; apply wrap_range; lia).
  assert (Hall : forall len, zlen q < get_count (bufsize c) q len -> get_count (bufsize c) q len = bufsize c).
  { intros len. unfold get_count. destruct (Z.eqb_spec (zlen q) (bufsize c - 1));
    match goal with |- context [if ?x <? ?y then _ else _] => destruct (Z.ltb_spec x y) end; lia. }
  destruct o; cbn [cbuf_step exact_step legal content] in *; unfold pure_res, ring_cells; cbn [content free at_].
  - rewrite Hroom. unfold circular_buf_putc. rewrite (full_iff c q H).
    destruct (Z.ltb_spec 0 (bufsize c - 1 - zlen q)).
    + destruct (Z.eqb_spec (zlen q) (bufsize c - 1)); [lia|]. cbn [negb fst snd].
      destruct (store_ring c q F [a] HR) as (b & Eb & Hc).
      { rewrite (full_iff c q H). lia. }
      { unfold zlen; cbn; lia. } { unfold zlen in *; cbn [length]; lia. } { unfold zlen in *; cbn [length]; lia. }
      cbv zeta in Hc. destruct Hc as (Ht' & Hb' & Hc).
      replace (zset (buffer c) (head c) a) with (Done b).
      * cbn [obind]. eexists; split; [reflexivity|]. unfold ring_put, related. cbn [content free at_].
        change (zlen [a]) with 1 in *. split; [|congruence].
        destruct (Z.ltb_spec 1 (zlen F)); [exact Hc|lia].
      * rewrite zset_ok by lia. rewrite zwrite_ok in Eb by (unfold zlen in *; cbn [length]; lia).
        rewrite <- Eb. f_equal.
        assert (Hn : (Z.to_nat (head c) < length (buffer c))%nat) by (unfold zlen in *; lia).
        revert Hn. generalize (Z.to_nat (head c)). generalize (buffer c).
        clear. intros l; induction l; intros m Hm; cbn in Hm; [lia|].
        destruct m; cbn; [reflexivity|]. f_equal. apply IHl. lia.
    + destruct (Z.eqb_spec (zlen q) (bufsize c - 1)); [|lia]. cbn. exists c. split; [reflexivity|split; assumption].
  - pose proof (getc_ok c q H) as P. destruct q as [|a q'].
    + rewrite P. cbn [obind fst snd]. exists c. split; [reflexivity|split; assumption].
    + destruct P as (c' & E & R & B).
      assert (Ec : c' = with_tail c ((tail c + 1) mod bufsize c)).
      { unfold circular_buf_getc in E. rewrite (empty_iff c _ H) in E.
        assert (Hz : zlen (a :: q') =? 0 = false) by (unfold zlen; cbn [length]; lia). rewrite Hz in E.
        destruct (zget (buffer c) (tail c)); cbn [obind] in E; try discriminate. injection E as <- _.
        unfold retreat_pointer, INT_MAX in *. change (wrap 64 1) with 1. now rewrite wrap64_small by lia. }
      rewrite E. cbn [obind fst snd]. exists c'. split; [reflexivity|]. subst c'.
      apply (take_related c t (a :: q') F 1 HR Ht); unfold zlen in *; cbn [length] in *; lia.
  - eexists. split; [reflexivity|]. cbn [fst]. split; cbn [content free at_]; [|reflexivity].
    assert (Hk : (Z.to_nat (Z.of_nat (length (q ++ F)) - t) <= length (q ++ F))%nat) by lia.
    constructor.
    + eapply reset_ok; eassumption.
    + cbn [bufsize circular_buf_reset]. rewrite zlen_app. unfold zlen at 1 2 3.
      rewrite skipn_length, firstn_length. cbn [length]. lia.
    + cbn [circular_buf_reset buffer bufsize tail app].
      pose proof (window_rotate (buffer c) (bufsize c) (tail c) (q ++ F) _ ltac:(lia) Hwin Hlen Hk) as HW.
      replace ((tail c + Z.of_nat (Z.to_nat (Z.of_nat (length (q ++ F)) - t))) mod bufsize c) with 0 in HW; [exact HW|].
      replace (tail c + Z.of_nat (Z.to_nat (Z.of_nat (length (q ++ F)) - t))) with (bufsize c) by lia.
      symmetry. apply Z.mod_same. lia.
  - rewrite (empty_iff c q H). exists c. unfold b2z. split; [reflexivity|split; assumption].
  - rewrite (full_iff c q H), Hroom. exists c. cbn [snd fst]. unfold b2z. split; [|split; assumption].
    do 3 f_equal. destruct (Z.eqb_spec (zlen q) (bufsize c - 1)), (Z.eqb_spec (bufsize c - 1 - zlen q) 0); lia.
  - rewrite capacity_ok by auto. exists c. rewrite Hlen. split; [reflexivity|split; assumption].
  - rewrite (size_ok c q H). exists c. cbn [fst snd]. split; [|split; assumption].
    unfold readable. rewrite Hroom. cbn [content free].
    destruct (Z.eqb_spec (zlen q) (bufsize c - 1)), (Z.eqb_spec (bufsize c - 1 - zlen q) 0); try lia;
      [rewrite Hlen|]; reflexivity.
  - destruct Hleg as [Hl1 Hdata]. rewrite Hroom.
    destruct (puts_ring c q F data len HR Hl1) as (c' & E & R & B & T); [unfold zlen; lia|].
    rewrite E. cbn [obind]. exists c'. unfold put_ring, puts_count in *.
    assert (Ed : puts_defect c q len = (0 <? bufsize c - 1 - zlen q) && (len =? bufsize c - 1 - zlen q + 1) && (2 <=? t)).
    { unfold puts_defect. rewrite Ht. do 2 f_equal. lia. }
    rewrite <- Ed. destruct (puts_defect c q len); cbn [fst snd].
    + split; [reflexivity|]. split; [exact R|]. cbn [at_]. congruence.
    + split; [reflexivity|]. unfold ring_put, related. cbn [content free at_]. split; [|congruence].
      rewrite firstn_length. replace (Nat.min _ _) with (Z.to_nat (Z.min len (bufsize c - 1 - zlen q))) by lia.
      exact R.
  - destruct (get_ring c q F (wrap 64 len) HR (Hwpos len)) as (Hk & E1 & E2).
    unfold circular_buf_gets. rewrite E1. eexists. cbn [fst snd]. rewrite taken_read.
    pose proof (take_related c t q F _ HR Ht Hk (Hall _)) as HT. revert HT.
    rewrite (taken_count c q F t len HR Hleg), Nat2Z.id. intros HT. split; [reflexivity|exact HT].
  - destruct (get_ring c q F (wrap 64 len) HR (Hwpos len)) as (Hk & E1 & E2).
    unfold circular_buf_peek. rewrite E2. eexists. cbn [fst snd]. rewrite taken_read.
    rewrite (taken_count c q F t len HR Hleg), Nat2Z.id. split; [reflexivity|]. split; assumption.
  - destruct (get_ring c q F (wrap 64 len) HR (Hwpos len)) as (Hk & E1 & E2).
    unfold circular_buf_drop. rewrite E1. eexists. cbn [fst snd].
    pose proof (take_related c t q F _ HR Ht Hk (Hall _)) as HT. revert HT.
    rewrite (taken_count c q F t len HR Hleg), Nat2Z.id. intros HT. split; [reflexivity|exact HT].
Qed.

Lemma run_exact : forall ops c s, related c s -> Forall legal ops ->
  exists c', cbuf_run c ops = Done (c', exact_run s ops).
Proof.
  induction ops as [|o ops IH]; intros c s H HF; cbn [cbuf_run exact_run]; [eauto|].
  apply Forall_cons_iff in HF as [Ho HF].
  destruct (step_exact c s o H Ho) as (c' & E & H'). rewrite E. cbn [obind].
  destruct (exact_step s o) as [s' r]. cbn [fst snd] in *.
  destruct (IH c' s' H' HF) as (c'' & E'). rewrite E'. cbn [obind]. eauto.
Qed.

Lemma history_exact_l : forall (region : list A) ops,
  1 <= zlen region <= INT_MAX -> Forall legal ops ->
  exists c0 c', circular_buf_init region (zlen region) = Some c0 /\
    cbuf_run c0 ops = Done (c', exact_run (mkRing 0 [] region) ops).
Proof.
  intros region ops Hn HF. destruct (init_ok region (zlen region) eq_refl Hn) as (c0 & E & R & B).
  assert (HR : related c0 (mkRing 0 [] region)).
  { unfold circular_buf_init in E. destruct (Z.leb_spec (zlen region) 0); [lia|]. injection E as <-.
    split; [|reflexivity]. cbn [content free]. constructor; [exact R| |].
    - cbn [bufsize circular_buf_reset]. unfold zlen. cbn [length]. lia.
    - cbn [circular_buf_reset buffer bufsize tail app]. intros i Hi. f_equal.
      unfold zlen. rewrite Z.mod_small by lia. lia. }
  destruct (run_exact ops c0 _ HR HF) as (c' & E'). eauto.
Qed.

End CbufExact.
