From Coq Require Import ZifyBool.
From Verif Require Import Base BaseLemmas CbufModel CbufSpec CbufSystem CbufNullModel CbufNullSpec CbufNullSystem.

Section CbufNullProofs.
Context {A : Type}.
Implicit Types (p : option (raw A)) (c : cbuf A).

Lemma null_l : forall o : op A, n_step None (Call o) = Done (None, null_answer o).
Proof. intros []; reflexivity. Qed.

Lemma bad_init_l : forall p (b : option (list A)) n, starts (Init b n) = false -> n_step p (Init b n) = Done (p, (1, [])).
Proof.
  intros p [b|] n H; [|reflexivity]. cbn [starts] in H. cbn [n_step n_init]. replace (n <=? 0) with true by lia. reflexivity.
Qed.

Lemma body_attach : forall c, body (attach c) = c.
Proof. intros []. reflexivity. Qed.

Lemma null_run_l : forall h : list (nop A), (forall o, In o h -> starts o = false) -> n_run None h = Done (None, map null_reply h).
Proof.
  induction h as [|o h IH]; intros N; [reflexivity|]. cbn [n_run map].
  assert (E : n_step None o = Done (None, null_reply o)).
  { destruct o as [b n|o]; [apply bad_init_l, N; now left|apply null_l]. }
  rewrite E. cbn [obind]. rewrite IH by (intros x Hx; apply N; now right). reflexivity.
Qed.

(** A call does not change the size. *)
Lemma advance_size : forall c n, bufsize (advance_pointer c n) = bufsize c.
Proof. intros c n. unfold advance_pointer. destruct (_ || _); reflexivity. Qed.

Lemma puts_size : forall fuel c h t data len w c' r, puts_loop fuel c h t data len w = Done (c', r) -> bufsize c' = bufsize c.
Proof.
  induction fuel as [|fuel IH]; intros c h t data len w c' r H; cbn [puts_loop] in H; destruct (negb _ && _); try discriminate; try (injection H as <- _; reflexivity).
  destruct (zread data 0 _); try discriminate. cbn [obind] in H. destruct (zwrite _ _ _); try discriminate. cbn [obind] in H.
  apply IH in H. rewrite H, advance_size. reflexivity.
Qed.

Lemma get_size : forall fuel c h t len pr co acc rd c' r, get_loop fuel c h t len pr co acc rd = Done (c', r) -> bufsize c' = bufsize c.
Proof.
  induction fuel as [|fuel IH]; intros c h t len pr co acc rd c' r H; cbn [get_loop] in H; destruct (0 <? len); try discriminate; try (injection H as <- _; reflexivity).
  destruct (if pr then _ else _); try discriminate. cbn [obind] in H. destruct co; apply IH in H; exact H.
Qed.

Lemma step_size : forall c (o : op A) c' r, cbuf_step c o = Done (c', r) -> bufsize c' = bufsize c.
Proof.
  intros c o c' r H. destruct o; cbn [cbuf_step] in H; unfold pure_res in H; try (injection H as <- _; reflexivity).
  - unfold circular_buf_putc in H. destruct (negb _); [|injection H as <- _; reflexivity]. destruct (zset _ _ _); try discriminate. cbn [obind] in H.
    injection H as <- _. rewrite advance_size. reflexivity.
  - unfold circular_buf_getc in H. destruct (is_circular_buf_empty c); [injection H as <- _; reflexivity|]. destruct (zget _ _); try discriminate. cbn [obind] in H.
    injection H as <- _. reflexivity.
  - unfold circular_buf_puts in H. destruct (puts_loop _ _ _ _ _ _ _) as [[c2 w]| | |] eqn:E; try discriminate. cbn [obind] in H. injection H as <- _. exact (puts_size _ _ _ _ _ _ _ _ _ E).
  - exact (get_size _ _ _ _ _ _ _ _ _ _ _ H).
  - exact (get_size _ _ _ _ _ _ _ _ _ _ _ H).
  - exact (get_size _ _ _ _ _ _ _ _ _ _ _ H).
Qed.

(** On a structure with a buffer the calls are those of [CbufModel]. *)
Lemma attached_l : forall c (o : op A), bufsize c <> 0 -> n_step (Some (attach c)) (Call o) = (do (c', r) <- cbuf_step c o; Done (Some (attach c'), r)).
Proof.
  intros c o Hc.
  assert (Hf : n_full (Some (attach c)) = Done (is_circular_buf_full c)).
  { unfold n_full. rewrite body_attach. change (r_bufsize (attach c)) with (bufsize c). destruct (Z.eqb_spec (bufsize c) 0); [contradiction|reflexivity]. }
  assert (Hs : n_size (Some (attach c)) = Done (circular_buf_size c)) by (unfold n_size; rewrite Hf, body_attach; reflexivity).
  destruct o; cbn [n_step cbuf_step]; unfold pure_res.
  - unfold n_putc. rewrite Hf. cbn [absent attach r_buffer obind present_]. fold (attach c). rewrite body_attach. destruct (circular_buf_putc c a) as [[? ?]| | |]; reflexivity.
  - unfold n_getc. cbn [absent attach r_buffer]. fold (attach c). unfold n_empty. rewrite body_attach. destruct (is_circular_buf_empty c) eqn:E.
    + unfold circular_buf_getc. rewrite E. reflexivity.
    + cbn [attach r_bufsize]. destruct (Z.eqb_spec (bufsize c) 0); [contradiction|]. unfold present_. fold (attach c). rewrite body_attach.
      destruct (circular_buf_getc c) as [[? [? ?]]| | |]; reflexivity.
  - reflexivity.
  - unfold n_empty. rewrite body_attach. reflexivity.
  - rewrite Hf. reflexivity.
  - unfold n_capacity. rewrite body_attach. reflexivity.
  - rewrite Hs. reflexivity.
  - unfold n_puts. rewrite Hf. cbn [absent attach r_buffer obind present_]. fold (attach c). rewrite body_attach. destruct (circular_buf_puts c data len) as [[? ?]| | |]; reflexivity.
  - unfold n_gets, n_get. rewrite Hs. cbn [absent attach r_buffer obind present_]. fold (attach c). rewrite body_attach. reflexivity.
  - unfold n_peek, n_get. rewrite Hs. cbn [absent attach r_buffer obind present_]. fold (attach c). rewrite body_attach. reflexivity.
  - unfold n_drop, n_get. rewrite Hs. cbn [absent attach r_buffer obind present_]. fold (attach c). rewrite body_attach. reflexivity.
Qed.

Lemma blank_l : forall o : op A, n_step (Some raw_zero) (Call o) = match blank_answer o with Some r => Done (Some raw_zero, r) | None => Undef end.
Proof. intros []; reflexivity. Qed.

Definition stands (p : option (raw A)) (c : option (cbuf A)) : Prop :=
  match c with
  | None => p = Some raw_zero
  | Some c => p = Some (attach c) /\ bufsize c <> 0
  end.

Lemma stands_step : forall p (oc : option (cbuf A)) o, stands p oc ->
  match life_step oc o with
  | Done (c', r) => exists p', n_step p o = Done (p', r) /\ stands p' c'
  | Undef => n_step p o = Undef
  | Abort => n_step p o = Abort
  | Timeout => n_step p o = Timeout
  end.
Proof.
  intros p c o S.
  assert (HS : exists r, p = Some r) by (destruct c as [c|]; cbn [stands] in S; [destruct S as [-> _]|rewrite S]; eauto).
  destruct o as [b n|o].
  - destruct b as [b|]; cbn [life_step]; [|exists p; auto]. unfold circular_buf_init. cbn [n_step n_init]. destruct (Z.leb_spec n 0); [exists p; auto|].
    destruct HS as [r ->]. cbn. eexists. split; [reflexivity|]. split; [reflexivity|]. cbn. lia.
  - destruct c as [c|].
    + destruct S as [-> Hc]. cbn [life_step]. pose proof (attached_l c o Hc) as E. rewrite E.
      destruct (cbuf_step c o) as [[c' r]| | |] eqn:Es; cbn [obind]; try reflexivity. eexists. split; [reflexivity|]. split; [reflexivity|]. rewrite (step_size _ _ _ _ Es). exact Hc.
    + cbn [stands] in S. subst p. cbn [life_step]. pose proof (blank_l o) as E. rewrite E. destruct (blank_answer o); [|reflexivity]. eexists. split; reflexivity.
Qed.

Lemma life_l : forall h p (oc : option (cbuf A)), stands p oc -> (do (_, rs) <- n_run p h; Done rs) = life oc h.
Proof.
  induction h as [|o h IH]; intros p c S; [reflexivity|]. cbn [n_run life]. pose proof (stands_step p c o S) as H.
  destruct (life_step c o) as [[c' r]| | |]; [destruct H as (p' & -> & S')|rewrite H; reflexivity..]. cbn [obind].
  rewrite <- (IH p' c' S'). destruct (n_run p' h) as [[? ?]| | |]; reflexivity.
Qed.

(** Careful callers get an answer to every call up to the first successful initialisation. *)
Lemma careful_l : forall h : list (nop A), careful h -> (forall o, In o h -> starts o = false) -> exists rs, life None h = Done rs.
Proof.
  induction h as [|o h IH]; intros C N; [exists []; reflexivity|]. pose proof (N o (or_introl eq_refl)) as No.
  assert (N' : forall o, In o h -> starts o = false) by (intros x Hx; apply N; now right).
  destruct o as [b n|o]; cbn [careful] in C.
  - rewrite No in C. destruct (IH C N') as [rs E]. exists ((1, []) :: rs). cbn [life].
    assert (L : life_step None (Init b n) = Done (None, (1, []))).
    { destruct b as [b|]; [|reflexivity]. cbn [starts] in No. cbn [life_step]. unfold circular_buf_init. replace (n <=? 0) with true by lia. reflexivity. }
    rewrite L. cbn [obind]. rewrite E. reflexivity.
  - destruct C as [C1 C2]. destruct (IH C2 N') as [rs E]. cbn [life life_step]. destruct (blank_answer o) as [r|]; [|now destruct C1]. cbn [obind]. rewrite E. eexists. reflexivity.
Qed.

End CbufNullProofs.
