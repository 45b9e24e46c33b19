From Coq Require Import ZifyBool ZifyNat.
From Verif Require Import Base BaseLemmas CbufModel CbufSpec CbufSystem CbufProofs PutsConcModel.

Section PutsConcProofs.
Context {A : Type}.

(** Without consumer steps [puts_iter] is the loop of [circular_buf_puts]. *)
Lemma iter_matches : forall fuel (c : cbuf A) h t data len w c' r,
  puts_loop fuel c h t data len w = Done (c', r) ->
  exists k l', puts_sched c (mkPuts h t data len w None) (repeat true k) = Done (c', l') /\ lret l' = Some r.
Proof.
  induction fuel; intros c h t data len w c' r E; cbn [puts_loop] in E.
  - exists 1%nat. cbn [repeat puts_sched puts_iter lret llen].
    destruct (negb (is_circular_buf_full c) && (0 <? len)) eqn:Ec; [discriminate|].
    inversion E; subst. cbn [obind]. eexists; split; reflexivity.
  - destruct (negb (is_circular_buf_full c) && (0 <? len)) eqn:Ec.
    + match type of E with context [zread data 0 (swrap 32 ?x)] => set (chunk := swrap 32 x) in * end.
      destruct (zread data 0 chunk) as [src| | |] eqn:E1; cbn [obind] in E; try discriminate.
      destruct (zwrite (buffer c) h src) as [b| | |] eqn:E2; cbn [obind] in E; try discriminate.
      destruct (IHfuel _ _ _ _ _ _ _ _ E) as (k & l' & Ek & Er).
      exists (S k), l'. split; [|exact Er]. cbn [repeat puts_sched puts_iter lret llen].
      rewrite Ec. cbn [lhead ltail ldata llen lwritten]. fold chunk. rewrite E1. cbn [obind].
      rewrite E2. cbn [obind]. exact Ek.
    + exists 1%nat. cbn [repeat puts_sched puts_iter lret llen]. rewrite Ec.
      inversion E; subst. cbn [obind]. eexists; split; reflexivity.
Qed.

(** States in which the producer can never make progress: stale tail 0, head on the last
    cell, the consumer has moved on. *)
Record stuck (c : cbuf A) (l : puts_local A) : Prop := mkStuck {
  s_wf : wf c;
  s_n : 2 <= bufsize c;
  s_head : head c = bufsize c - 1;
  s_tail : 1 <= tail c;
  s_lhead : lhead l = bufsize c - 1;
  s_ltail : ltail l = 0;
  s_len : 0 < llen l < 2 ^ 64;
  s_w : 0 <= lwritten l <= INT_MAX;
  s_ret : lret l = None }.

Lemma stuck_iter : forall c l, stuck c l -> puts_iter c l = Done (c, l).
Proof.
  intros c l [[Hl Hs Hh Ht] Hn Hhd Htl Hlh Hlt Hlen Hw Hr]. unfold puts_iter. rewrite Hr.
  unfold INT_MAX in *.
  assert (Hf : is_circular_buf_full c = false).
  { unfold is_circular_buf_full. rewrite wrap64_small by lia. rewrite Hhd.
    replace (bufsize c - 1 + 1) with (bufsize c) by lia. rewrite Z_mod_same_full. lia. }
  rewrite Hf. destruct (Z.ltb_spec 0 (llen l)); [|lia]. cbn [negb andb].
  rewrite Hlh, Hlt. destruct (Z.leb_spec 0 (bufsize c - 1)); [|lia].
  rewrite Z.eqb_refl. rewrite (wrap64_small (bufsize c - (bufsize c - 1))) by lia.
  rewrite (wrap64_small (bufsize c - (bufsize c - 1) - 1)) by lia.
  replace (bufsize c - (bufsize c - 1) - 1) with 0 by lia.
  destruct (Z.ltb_spec 0 (llen l)); [|lia].
  rewrite (swrap32_small 0) by lia.
  rewrite zread_ok by (try lia; pose proof (zlen_nonneg A (ldata l)); lia).
  cbn [Z.to_nat firstn skipn obind].
  rewrite zwrite_ok by (unfold zlen in *; cbn [length]; lia). cbn [obind length app].
  rewrite Nat.add_0_r, firstn_skipn.
  assert (Ec : with_buffer c (buffer c) = c) by (destruct c; reflexivity). rewrite Ec.
  unfold advance_pointer. rewrite Hf. cbn [orb Z.eqb].
  rewrite (wrap64_small 0), Z.sub_0_r, Z.add_0_r by lia.
  rewrite (wrap64_small (llen l)) by lia. rewrite swrap32_small by lia. rewrite Hhd.
  do 2 f_equal. destruct l; cbn in *. subst. reflexivity.
Qed.

Lemma stuck_getc : forall c l c' x, stuck c l -> circular_buf_getc c = Done (c', x) -> stuck c' l.
Proof.
  intros c l c' x [[Hl Hs Hh Ht] Hn Hhd Htl Hlh Hlt Hlen Hw Hr] E. unfold circular_buf_getc in E.
  unfold INT_MAX in *.
  destruct (is_circular_buf_empty c) eqn:Ee.
  - inversion E; subst. constructor; auto; constructor; unfold INT_MAX; auto.
  - unfold is_circular_buf_empty in Ee.
    destruct (zget (buffer c) (tail c)) as [a| | |]; cbn [obind] in E; try discriminate.
    inversion E; subst. unfold retreat_pointer. rewrite (wrap64_small 1) by lia.
    rewrite wrap64_small by lia. rewrite Z.mod_small by lia.
    constructor; cbn; unfold INT_MAX; auto; try lia. constructor; cbn; unfold INT_MAX; auto; lia.
Qed.

Lemma stuck_getc_done : forall c l, stuck c l -> exists c' x, circular_buf_getc c = Done (c', x).
Proof.
  intros c l [[Hl Hs Hh Ht] Hn Hhd Htl Hlh Hlt Hlen Hw Hr]. unfold circular_buf_getc.
  destruct (is_circular_buf_empty c); [eauto|].
  destruct (buffer c) as [|d0 b0] eqn:Eb; [unfold zlen in Hl; cbn in Hl; lia|].
  rewrite (zget_ok A (d0 :: b0) (tail c) d0) by lia. cbn [obind]. eauto.
Qed.

Lemma stuck_forever : forall sch c l, stuck c l ->
  exists c' l', puts_sched c l sch = Done (c', l') /\ lret l' = None.
Proof.
  induction sch as [|b sch IH]; intros c l H.
  - exists c, l. split; [reflexivity|apply H].
  - destruct b; cbn [puts_sched].
    + rewrite (stuck_iter c l H). cbn [obind]. apply IH, H.
    + destruct (stuck_getc_done c l H) as (c' & x & E). rewrite E. cbn [obind].
      destruct x. apply IH. eapply stuck_getc; eauto.
Qed.

Lemma run_rep : forall ops (c : cbuf A) q c' outs, rep c q -> Forall legal ops ->
  cbuf_run c ops = Done (c', outs) -> exists q', rep c' q'.
Proof.
  induction ops as [|o ops IH]; intros c q c' outs R HF E.
  - inversion E; subst. eauto.
  - inversion HF as [|? ? Ho Hrest]; subst.
    destruct (step_safe c q o R Ho) as (c1 & q1 & r & d & E1 & R1 & _ & _).
    cbn [cbuf_run] in E. rewrite E1 in E. cbn [obind] in E.
    destruct (cbuf_run c1 ops) as [[c2 rs]| | |] eqn:E2; cbn [obind] in E; try discriminate.
    inversion E; subst. eapply IH; eauto.
Qed.

Lemma puts_alone_terminates_l : forall (region : list A) c0 ops c outs data len,
  1 <= zlen region <= INT_MAX -> circular_buf_init region (zlen region) = Some c0 ->
  Forall legal ops -> cbuf_run c0 ops = Done (c, outs) ->
  0 <= len < 2 ^ 64 -> len <= zlen data ->
  exists k c' l' r, puts_sched c (puts_start c data len) (repeat true k) = Done (c', l') /\ lret l' = Some r.
Proof.
  intros region c0 ops c outs data len Hn E HF Er Hlen Hd.
  destruct (init_ok region (zlen region) eq_refl Hn) as (c0' & E0 & R0 & _).
  assert (c0' = c0) by congruence. subst c0'.
  destruct (run_rep ops c0 [] c outs R0 HF Er) as [q R].
  destruct (puts_ok c q data len R Hlen Hd) as (c' & E' & _). unfold circular_buf_puts in E'.
  destruct (iter_matches _ _ _ _ _ _ _ _ _ E') as (k & l' & Ek & Er').
  exists k, c', l', (puts_count c q len). auto.
Qed.

End PutsConcProofs.
