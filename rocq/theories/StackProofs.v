(** Proofs about the stack model. *)
From Verif Require Import Base BaseLemmas StackModel StackSpec StackSystem.

Section StackProofs.
Context {A : Type}.

Record srep (cap : Z) (s : stack A) (l : list A) : Prop := {
  s_cap : zlen (sitems s) = cap;
  s_idx : idx s = zlen l;
  s_le : zlen l <= cap;
  s_cells : forall j a, nth_error (rev l) j = Some a -> nth_error (sitems s) j = Some a
}.

Lemma shift_loop_ok : forall fuel i bound (its : list A),
  0 <= i -> bound - i <= Z.of_nat fuel -> bound < zlen its \/ bound <= i ->
  exists its', shift_loop fuel i bound its = Done its' /\ zlen its' = zlen its /\
    forall j, nth_error its' j =
      if (Z.to_nat i <=? j)%nat && (Z.of_nat j <? bound) then nth_error its (S j) else nth_error its j.
Proof.
  induction fuel as [|fuel IH]; intros i bound its Hi Hf Hb; cbn [shift_loop].
  - destruct (Z.ltb_spec i bound); [lia|].
    exists its. repeat split; auto. intros j.
    destruct (Nat.leb_spec (Z.to_nat i) j); cbn [andb]; auto.
    destruct (Z.ltb_spec (Z.of_nat j) bound); auto. lia.
  - destruct (Z.ltb_spec i bound).
    + destruct (nth_error its (Z.to_nat (i + 1))) as [a|] eqn:Ea.
      2:{ apply nth_error_None in Ea. unfold zlen in *; lia. }
      assert (Hg : zget its (i + 1) = Done a).
      { unfold zget. destruct (Z.ltb_spec (i + 1) 0); [lia|]. now rewrite Ea. }
      rewrite Hg. cbn [obind]. rewrite zset_ok by lia. cbn [obind].
      destruct (IH (i + 1) bound (upd its (Z.to_nat i) a)) as (its' & E & Hl & Hn); try lia.
      { rewrite zlen_upd; lia. }
      exists its'. split; [exact E|]. split; [now rewrite Hl, zlen_upd|].
      intros j. rewrite Hn.
      destruct (Nat.leb_spec (Z.to_nat (i + 1)) j); cbn [andb].
      * destruct (Nat.leb_spec (Z.to_nat i) j); [|lia]. cbn [andb].
        destruct (Z.ltb_spec (Z.of_nat j) bound); rewrite nth_error_upd_neq by lia; auto.
      * destruct (Nat.leb_spec (Z.to_nat i) j); cbn [andb].
        -- assert (j = Z.to_nat i) by lia. subst j.
           destruct (Z.ltb_spec (Z.of_nat (Z.to_nat i)) bound); [|lia].
           rewrite nth_error_upd_eq by (unfold zlen in *; lia).
           rewrite <- Ea. f_equal. lia.
        -- apply nth_error_upd_neq. lia.
    + exists its. repeat split; auto. intros j.
      destruct (Nat.leb_spec (Z.to_nat i) j); cbn [andb]; auto.
      destruct (Z.ltb_spec (Z.of_nat j) bound); auto. lia.
Qed.

Lemma rev_removelast : forall (l : list A), rev (removelast l) = tl (rev l).
Proof.
  intros l. destruct l as [|x l] using rev_ind; [reflexivity|].
  rewrite removelast_last, rev_app_distr. reflexivity.
Qed.

Lemma sstep_rep : forall cap s l o,
  cap <= 65535 -> srep cap s l ->
  exists s', stack_step s o = Done (s', snd (sspec_step cap l o)) /\
    srep cap s' (fst (sspec_step cap l o)).
Proof.
  intros cap s l o Hc Hs. destruct Hs. pose proof (zlen_nonneg _ l) as Hl.
  destruct s as [ix its]; cbn [idx sitems] in *. subst ix.
  destruct o; cbn -[wrap Z.add Z.sub]; fold (zlen l).
  - unfold stack_push, scapacity; cbn [idx sitems]. rewrite s_cap0.
    destruct (Z.eqb_spec (zlen l) cap).
    + destruct (Z.ltb_spec (zlen l) cap); [lia|]. eexists. split; [reflexivity|]. constructor; auto.
    + destruct (Z.ltb_spec (zlen l) cap); [|lia].
      rewrite zset_ok by lia. cbn [obind]. eexists. split; [reflexivity|].
      rewrite wrap16_small by lia.
      constructor; cbn [idx sitems fst].
      * now rewrite zlen_upd.
      * unfold zlen; cbn [length]; lia.
      * unfold zlen in *; cbn [length]; lia.
      * cbn [rev]. intros j b Hj. rewrite nth_error_app, rev_length in Hj.
        destruct (Nat.ltb_spec j (length l)).
        -- rewrite nth_error_upd_neq; auto. unfold zlen; lia.
        -- destruct (j - length l)%nat eqn:Ej; cbn in Hj; [|destruct n0; discriminate].
           injection Hj as <-. replace (Z.to_nat (zlen l)) with j by (unfold zlen; lia).
           apply nth_error_upd_eq. unfold zlen in *; lia.
  - unfold stack_pop; cbn [idx sitems]. destruct l as [|x l'].
    + cbn. eexists. split; [reflexivity|]. constructor; auto.
    + destruct (Z.eqb_spec (zlen (x :: l')) 0) as [E|E]; [unfold zlen in E; cbn in E; lia|].
      assert (Hx : nth_error its (length l') = Some x).
      { apply s_cells0. cbn [rev]. rewrite nth_error_app2; rewrite rev_length; auto.
        now rewrite Nat.sub_diag. }
      assert (Hg : zget its (zlen (x :: l') - 1) = Done x).
      { unfold zget, zlen. cbn [length].
        destruct (Z.ltb_spec (Z.of_nat (S (length l')) - 1) 0); [lia|].
        replace (Z.to_nat (Z.of_nat (S (length l')) - 1)) with (length l') by lia. now rewrite Hx. }
      rewrite Hg. cbn [obind oitem]. eexists. split; [reflexivity|].
      rewrite wrap16_small by (unfold zlen in *; cbn [length] in *; lia).
      constructor; cbn [idx sitems fst]; auto; try (unfold zlen in *; cbn [length] in *; lia).
      intros j b Hj. apply s_cells0. cbn [rev]. rewrite nth_error_app1; auto.
      apply nth_error_Some. congruence.
  - unfold stack_pop; cbn [idx sitems]. destruct l as [|x l'].
    + cbn. eexists. split; [reflexivity|]. constructor; auto.
    + destruct (Z.eqb_spec (zlen (x :: l')) 0) as [E|E]; [unfold zlen in E; cbn in E; lia|].
      cbn [obind oitem]. eexists. split; [reflexivity|].
      rewrite wrap16_small by (unfold zlen in *; cbn [length] in *; lia).
      constructor; cbn [idx sitems fst]; auto; try (unfold zlen in *; cbn [length] in *; lia).
      intros j b Hj. apply s_cells0. cbn [rev]. rewrite nth_error_app1; auto.
      apply nth_error_Some. congruence.
  - unfold stack_dequeue; cbn [idx sitems].
    destruct (Z.ltb_spec 0 (zlen l)).
    + destruct (shift_loop_ok (Z.to_nat (zlen l)) 0 (zlen l - 1) its) as (its' & E & Hle & Hn); try lia.
      rewrite E. cbn [obind]. eexists. split; [reflexivity|].
      rewrite wrap16_small by lia.
      assert (Hlen : zlen (removelast l) = zlen l - 1).
      { unfold zlen in *. destruct l as [|x l] using rev_ind; [cbn in *; lia|].
        rewrite removelast_last, app_length. cbn [length]. lia. }
      constructor; cbn [idx sitems]; try lia.
      intros j b Hj. rewrite rev_removelast in Hj.
      assert (Hj' : nth_error (rev l) (S j) = Some b) by (destruct (rev l); [destruct j; discriminate|exact Hj]).
      assert (Hlt : (S j < length (rev l))%nat) by (apply nth_error_Some; congruence).
      rewrite rev_length in Hlt. rewrite Hn. cbn [Z.to_nat Nat.leb andb].
      destruct (Z.ltb_spec (Z.of_nat j) (zlen l - 1)); [|unfold zlen in *; lia].
      now apply s_cells0.
    + assert (l = []) by (destruct l; auto; unfold zlen in *; cbn in *; lia). subst l.
      cbn. eexists. split; [reflexivity|]. constructor; auto.
  - unfold stack_is_empty; cbn [idx]. eexists. split; [reflexivity|]. constructor; auto.
  - unfold stack_is_full, scapacity; cbn [idx sitems]. rewrite s_cap0.
    eexists. split; [reflexivity|]. constructor; auto.
Qed.

Lemma srun_rep : forall ops cap s l,
  cap <= 65535 -> srep cap s l ->
  exists s', stack_run s ops = Done (s', snd (sspec_run cap l ops)) /\
    srep cap s' (fst (sspec_run cap l ops)).
Proof.
  induction ops as [|o ops IH]; intros cap s l Hc Hs.
  - cbn. eauto.
  - destruct (sstep_rep cap s l o Hc Hs) as (s1 & E1 & H1).
    cbn [stack_run sspec_run]. rewrite E1. cbn [obind].
    destruct (sspec_step cap l o) as [l1 r1]; cbn [fst snd] in *.
    destruct (IH _ _ _ Hc H1) as (s2 & E2 & H2). rewrite E2. cbn [obind].
    destruct (sspec_run cap l1 ops) as [l2 rs2]; cbn [fst snd] in *. eauto.
Qed.

Lemma sinit_rep : forall s, srep (zlen (sitems s)) (stack_init s) ([] : list A).
Proof.
  intros. constructor; cbn; auto; try apply zlen_nonneg. intros j a H; destruct j; discriminate.
Qed.

Lemma stack_lifo_l : forall (s : stack A) ops,
  zlen (sitems s) <= 65535 ->
  exists s', stack_run (stack_init s) ops = Done (s', snd (sspec_run (zlen (sitems s)) [] ops)).
Proof.
  intros s ops Hc. destruct (srun_rep ops _ _ _ Hc (sinit_rep s)) as (s' & E & _). eauto.
Qed.

Lemma stack_peek_partial_l : forall (s : stack A) ops,
  zlen (sitems s) <= 65535 ->
  let cap := zlen (sitems s) in
  let l := fst (sspec_run cap [] ops) in
  exists s', stack_run (stack_init s) ops = Done (s', snd (sspec_run cap [] ops)) /\
    (l = [] -> stack_peek s' true = Done (1, None)) /\
    (l <> [] -> zlen l < cap -> exists x, stack_peek s' true = Done (0, Some x)) /\
    (l <> [] -> zlen l = cap -> stack_peek s' true = Undef) /\
    stack_peek s' false = Done (fst (peek_spec l), None).
Proof.
  intros s ops Hc cap l. destruct (srun_rep ops _ _ _ Hc (sinit_rep s)) as (s' & E & H).
  exists s'. split; [exact E|]. fold cap l in H. destruct H.
  unfold stack_peek. rewrite s_idx0. pose proof (zlen_nonneg _ l).
  split; [|split; [|split]].
  - intros ->. reflexivity.
  - intros Hne Hlt. destruct (Z.eqb_spec (zlen l) 0) as [E0|E0].
    + destruct l; [congruence|unfold zlen in E0; cbn in E0; lia].
    + destruct (nth_error (sitems s') (Z.to_nat (zlen l))) as [x|] eqn:Ex.
      * exists x. unfold zget. destruct (Z.ltb_spec (zlen l) 0); [lia|]. now rewrite Ex.
      * apply nth_error_None in Ex. unfold zlen in *; lia.
  - intros Hne Hlt. destruct (Z.eqb_spec (zlen l) 0) as [E0|E0].
    + destruct l; [congruence|unfold zlen in E0; cbn in E0; lia].
    + unfold zget. destruct (Z.ltb_spec (zlen l) 0); [lia|].
      replace (nth_error (sitems s') (Z.to_nat (zlen l))) with (@None A); [reflexivity|].
      symmetry. apply nth_error_None. unfold zlen in *; lia.
  - destruct l as [|x l']; [reflexivity|]. destruct (Z.eqb_spec (zlen (x :: l')) 0) as [E0|E0]; [|reflexivity].
    unfold zlen in E0; cbn in E0; lia.
Qed.

Lemma stack_run_app : forall ops1 ops2 (s : stack A),
  stack_run s (ops1 ++ ops2) =
  do (s', rs) <- stack_run s ops1; do (s'', rs') <- stack_run s' ops2; Done (s'', rs ++ rs').
Proof.
  induction ops1 as [|o ops1 IH]; intros ops2 s; cbn [app stack_run obind].
  - destruct (stack_run s ops2) as [[s' rs]| | |]; reflexivity.
  - destruct (stack_step s o) as [[s1 r1]| | |]; cbn [obind]; auto.
    rewrite IH. destruct (stack_run s1 ops1) as [[s2 rs2]| | |]; cbn [obind]; auto.
    destruct (stack_run s2 ops2) as [[s3 rs3]| | |]; reflexivity.
Qed.

Lemma stack_peek_stale_l : forall (s : stack A) ops a b l,
  zlen (sitems s) <= 65535 ->
  fst (sspec_run (zlen (sitems s)) [] ops) = a :: b :: l ->
  exists s' rs, stack_run (stack_init s) (ops ++ [Pop]) = Done (s', rs) /\
    stack_peek s' true = Done (0, Some a).
Proof.
  intros s ops a b l Hc Hl. destruct (srun_rep ops _ _ _ Hc (sinit_rep s)) as (s' & E & H).
  rewrite stack_run_app, E. cbn [obind stack_run stack_step]. rewrite Hl in H. destruct H.
  assert (Ha : nth_error (sitems s') (S (length l)) = Some a).
  { apply s_cells0. cbn [rev]. rewrite nth_error_app2; rewrite app_length, rev_length; cbn [length]; [|lia].
    replace (S (length l) - (length l + 1))%nat with O by lia. reflexivity. }
  unfold zlen in *. cbn [length] in *.
  unfold stack_pop. rewrite s_idx0.
  destruct (Z.eqb_spec (Z.of_nat (S (S (length l)))) 0); [lia|].
  assert (Hg : zget (sitems s') (Z.of_nat (S (S (length l))) - 1) = Done a).
  { unfold zget. destruct (Z.ltb_spec (Z.of_nat (S (S (length l))) - 1) 0); [lia|].
    replace (Z.to_nat (Z.of_nat (S (S (length l))) - 1)) with (S (length l)) by lia. now rewrite Ha. }
  rewrite Hg. cbn [obind]. do 2 eexists. split; [reflexivity|].
  unfold stack_peek; cbn [idx sitems]. rewrite wrap16_small by lia.
  destruct (Z.eqb_spec (Z.of_nat (S (S (length l))) - 1) 0); [lia|].
  rewrite Hg. reflexivity.
Qed.

Lemma sspec_pushes : forall n cap (l : list A) a,
  zlen l + Z.of_nat n <= cap ->
  fst (sspec_run cap l (repeat (Push a) n)) = repeat a n ++ l.
Proof.
  induction n as [|n IH]; intros cap l a H; [reflexivity|].
  cbn [repeat sspec_run sspec_step]. unfold zlen in *.
  destruct (Z.ltb_spec (Z.of_nat (length l)) cap); [|lia].
  specialize (IH cap (a :: l) a). cbn [length] in IH.
  destruct (sspec_run cap (a :: l) (repeat (Push a) n)) as [l2 rs2]. cbn [fst] in *.
  rewrite IH by lia. change (a :: l) with ([a] ++ l). rewrite app_assoc.
  rewrite <- repeat_cons. reflexivity.
Qed.

Lemma stack_peek_refuted_l : forall (s : stack A) (a : A),
  1 <= zlen (sitems s) <= 65535 ->
  exists ops s' rs, stack_run (stack_init s) ops = Done (s', rs) /\
    (exists l, fst (sspec_run (zlen (sitems s)) [] ops) = a :: l) /\
    stack_peek s' true = Undef.
Proof.
  intros s a Hc. set (cap := zlen (sitems s)) in *.
  exists (repeat (Push a) (Z.to_nat cap)).
  destruct (stack_peek_partial_l s (repeat (Push a) (Z.to_nat cap))) as (s' & E & _ & _ & H & _); [unfold cap in Hc; lia|].
  pose proof (sspec_pushes (Z.to_nat cap) cap [] a) as HP.
  fold cap in E, H. rewrite HP in H by (unfold zlen; cbn [length]; lia).
  rewrite HP by (unfold zlen; cbn [length]; lia).
  destruct (Z.to_nat cap) as [|n] eqn:En; [lia|].
  do 2 eexists. split; [exact E|]. split; [cbn [repeat app]; eauto|].
  apply H; [discriminate|]. unfold zlen. rewrite app_nil_r, repeat_length. lia.
Qed.

End StackProofs.
