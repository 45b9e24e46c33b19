(** Latency in a table with several keys: while a key is concerned, the table is that key. *)
From Coq Require Import ZifyBool.
From Verif Require Import Base KeypadModel KeypadSpec KeypadSystem KeypadProofs KeyLateSpec KeyLateProofs KeypadTableProofs KeyTabLateSpec.

Section P.
Variables click longclick period J : Z.
Variable bs : list Z.
Local Notation step := (kstep click longclick period).
Local Notation prun := (pad_run click longclick period bs).
Local Notation ktr := (ktrace click longclick period).

Lemma prun_app : forall h1 h2 p, snd (prun p (h1 ++ h2)) = snd (prun p h1) ++ snd (prun (fst (prun p h1)) h2).
Proof.
  induction h1 as [|[[t b]|] h1 IH]; intros h2 p; [reflexivity|..]; cbn [app pad_run].
  - destruct (pad_call click longclick period bs p t b) as [p1 o]. specialize (IH h2 p1).
    destruct (prun p1 (h1 ++ h2)) as [a x]. destruct (prun p1 h1) as [b' y]. cbn [fst snd app] in *. now rewrite IH.
  - specialize (IH h2 pad0). destruct (prun pad0 (h1 ++ h2)) as [a x]. destruct (prun pad0 h1) as [b' y]. cbn [fst snd app] in *. now rewrite IH.
Qed.

Lemma prun_length : forall h p, length (snd (prun p h)) = length h.
Proof.
  induction h as [|[[t b]|] h IH]; intros p; [reflexivity|..]; cbn [pad_run].
  - destruct (pad_call click longclick period bs p t b) as [p1 o]. specialize (IH p1). destruct (prun p1 h). cbn in *. now rewrite IH.
  - specialize (IH pad0). destruct (prun pad0 h). cbn in *. now rewrite IH.
Qed.

Lemma last_key_nth : forall bits l i, last_key bits l = Some i -> nth i l 0 = bits.
Proof.
  intros bits. induction l as [|b l IH]; intros i H; [discriminate|]. cbn [last_key] in H. destruct (last_key bits l) as [k|].
  - injection H as <-. cbn. now apply IH.
  - destruct (Z.eqb_spec b bits); [|discriminate]. injection H as <-. cbn. assumption.
Qed.

Lemma to_idle : forall s t d e, step s t d = (Idle, e) -> e = Release \/ (s = Idle /\ d = false).
Proof.
  intros s t d e H. destruct s; cbn in H; destruct d; cbn in H; repeat (match type of H with context [if ?c then _ else _] => destruct c end); try discriminate; injection H as <-; auto.
Qed.

Lemma stay : forall seg p i s t0 b0 h2, concerned bs p b0 = Some (i, s) -> (s = Idle -> (nth i bs 0 =? b0) = true) ->
  exists n, (1 <= n <= length ((t0, b0) :: seg))%nat /\
    firstn n (snd (prun p (map Some ((t0, b0) :: seg) ++ h2))) =
      map (fun x => Some (Some (i, snd x))) (ktr s (seen (nth i bs 0) (firstn n ((t0, b0) :: seg)))) /\
    (n = length ((t0, b0) :: seg) \/ exists tr y, ktr s (seen (nth i bs 0) (firstn n ((t0, b0) :: seg))) = tr ++ [(y, Release)]).
Proof.
  induction seg as [|[t1 b1] seg IH]; intros p i s t0 b0 h2 Hc Hi.
  - exists 1%nat. split; [cbn; lia|]. split; [|left; reflexivity]. cbn [map app pad_run]. unfold pad_call. rewrite Hc.
    cbn [firstn seen map ktrace fst snd]. destruct (step s t0 (nth i bs 0 =? b0)) as [s' e].
    match goal with |- context [prun ?q h2] => destruct (prun q h2) end. reflexivity.
  - destruct (step s t0 (nth i bs 0 =? b0)) as [s' e] eqn:E.
    assert (D : s' = Idle \/ s' <> Idle) by (destruct s'; auto; right; discriminate). destruct D as [->|D].
    + exists 1%nat. split; [cbn; lia|]. assert (e = Release) as -> by (destruct (to_idle _ _ _ _ E) as [X|[X Y]]; [exact X|rewrite (Hi X) in Y; discriminate]).
      split.
      * cbn [map app pad_run]. unfold pad_call at 1. rewrite Hc, E.
        match goal with |- context [let (_, _) := ?q in _] => destruct q end. cbn [firstn seen map ktrace fst snd]. rewrite E. reflexivity.
      * right. exists [], (t0, nth i bs 0 =? b0). cbn [firstn seen map ktrace fst snd]. rewrite E. reflexivity.
    + set (p' := mkPad (Some (i, s')) (fun j => if (j =? i)%nat then nth i bs 0 =? b0 else if (j <? i)%nat && (nth j bs 0 =? b0) then true else shown p j)).
      assert (EP : pad_call click longclick period bs p t0 b0 = (p', Some (i, e))).
      { unfold pad_call. rewrite Hc, E. unfold p'. destruct s'; [contradiction|reflexivity..]. }
      destruct (IH p' i s' t1 b1 h2) as (n & Hn & F & L); [reflexivity|intros X; contradiction|].
      exists (S n). split; [cbn in *; lia|]. split.
      * change (map Some ((t0, b0) :: (t1, b1) :: seg) ++ h2) with (Some (t0, b0) :: (map Some ((t1, b1) :: seg) ++ h2)). cbn [pad_run]. rewrite EP.
        destruct (prun p' (map Some ((t1, b1) :: seg) ++ h2)) as [q os]. cbn [snd] in *.
        change (firstn (S n) ((t0, b0) :: (t1, b1) :: seg)) with ((t0, b0) :: firstn n ((t1, b1) :: seg)). cbn [firstn seen map ktrace fst snd] in *.
        rewrite E. cbn [fst snd]. f_equal. exact F.
      * change (firstn (S n) ((t0, b0) :: (t1, b1) :: seg)) with ((t0, b0) :: firstn n ((t1, b1) :: seg)). cbn [seen map ktrace fst snd]. rewrite E. cbn [fst snd].
        destruct L as [->|(tr & y & L)]; [left; reflexivity|]. right. exists ((t0, nth i bs 0 =? b0, e) :: tr), y. cbn [app]. f_equal. exact L.
Qed.

Lemma paced_suffix : forall h1 h G l, paced G l (h1 ++ h) -> exists l', paced G l' h.
Proof.
  induction h1 as [|[[t b]|] h1 IH]; intros h G l H; [now exists l|..]; cbn [app paced] in H.
  - destruct H as [_ H]. exact (IH _ _ _ H).
  - exact (IH _ _ _ H).
Qed.

Lemma paced_adv : forall seg h G l b', paced G l (map Some seg ++ h) -> forall n, advancing G (seen b' (firstn n seg)).
Proof.
  induction seg as [|[t b] seg IH]; intros h G l b' H n; [destruct n; exact Logic.I|].
  destruct n as [|n]; [exact Logic.I|]. cbn [map app paced] in H. destruct H as [_ H].
  destruct seg as [|[t1 b1] seg]; [destruct n; exact Logic.I|]. destruct n as [|n]; [exact Logic.I|].
  cbn [firstn seen map fst snd advancing]. split; [cbn in H; apply H|]. exact (IH h G (Some t) b' H (S n)).
Qed.

Lemma ktr_trace : forall h s, ktr s h = trace h (map snd (ktr s h)).
Proof. induction h as [|[t d] h IH]; intros s; [reflexivity|]. cbn [ktrace map trace combine snd]. f_equal. apply IH. Qed.

Lemma ktr_length : forall h s, length (ktr s h) = length h.
Proof. induction h as [|[t d] h IH]; intros s; [reflexivity|]. cbn. now rewrite IH. Qed.

Lemma not_idle : forall h q j, (forall j, current q <> Some (j, Idle)) -> current (fst (prun q h)) <> Some (j, Idle).
Proof.
  induction h as [|[[t b]|] h IH]; intros q j Hq; [apply Hq|..]; cbn [pad_run].
  - destruct (pad_call click longclick period bs q t b) as [q1 o] eqn:E.
    assert (H1 : forall j, current q1 <> Some (j, Idle)).
    { unfold pad_call in E. destruct (concerned bs q b) as [[i s]|]; [|injection E as <- _; exact Hq].
      destruct (step s t (nth i bs 0 =? b)) as [s' e]. injection E as <- _. intros k. cbn [current]. destruct s'; discriminate. }
    specialize (IH q1 j H1). destruct (prun q1 h). exact IH.
  - specialize (IH pad0 j ltac:(discriminate)). destruct (prun pad0 h). exact IH.
Qed.

Lemma window_l : forall h1 seg h2 i e0, 0 <= click <= longclick -> 0 <= period -> 0 <= J ->
  paced (J + 1) None (h1 ++ map Some seg ++ h2) -> seg <> [] ->
  nth_error (snd (prun pad0 (h1 ++ map Some seg ++ h2))) (length h1) = Some (Some (Some (i, e0))) ->
  exists es, (1 <= length es <= length seg)%nat /\
    firstn (length es) (skipn (length h1) (snd (prun pad0 (h1 ++ map Some seg ++ h2)))) = map (fun e => Some (Some (i, e))) es /\
    (length es = length seg \/ last es Nothing = Release) /\
    let tr := trace (seen (nth i bs 0) (firstn (length es) seg)) es in
    click_prompt click J tr /\ longclick_prompt click longclick J tr /\ repeat_prompt period J tr /\ release_prompt click J tr.
Proof.
  intros h1 seg h2 i e0 Hc Hp HJ HP Hs Hn. rewrite prun_app in *.
  set (p := fst (prun pad0 h1)) in *. rewrite nth_error_app2 in Hn by (rewrite prun_length; lia). rewrite prun_length, Nat.sub_diag in Hn.
  rewrite skipn_app, prun_length, Nat.sub_diag. rewrite (skipn_all2 (snd (prun pad0 h1))) by (rewrite prun_length; lia). cbn [app].
  change (skipn 0 (snd (prun p (map Some seg ++ h2)))) with (snd (prun p (map Some seg ++ h2))).
  destruct seg as [|[t0 b0] seg]; [contradiction|].
  assert (C : exists s, concerned bs p b0 = Some (i, s) /\ (s = Idle -> (nth i bs 0 =? b0) = true)).
  { cbn [map app pad_run] in Hn. unfold pad_call in Hn. destruct (concerned bs p b0) as [[i' s]|] eqn:E.
    - destruct (step s t0 (nth i' bs 0 =? b0)) as [s' e]. match type of Hn with context [let (_, _) := ?q in _] => destruct q end.
      cbn in Hn. injection Hn as -> _. exists s. split; [reflexivity|]. intros ->. unfold concerned in E. destruct (current p) as [[i2 s2]|] eqn:EC.
      + exfalso. injection E as -> ->. exact (not_idle h1 pad0 i (fun _ => ltac:(discriminate)) EC).
      + destruct (last_key b0 bs) as [k|] eqn:EL; [|discriminate]. injection E as <-. apply Z.eqb_eq. exact (last_key_nth _ _ _ EL).
    - match type of Hn with context [let (_, _) := ?q in _] => destruct q end. cbn in Hn. discriminate. }
  destruct C as (s & C1 & C2). destruct (stay seg p i s t0 b0 h2 C1 C2) as (n & N1 & N2 & N3).
  set (full := (t0, b0) :: seg) in *. exists (map snd (ktr s (seen (nth i bs 0) (firstn n full)))).
  assert (LN : length (map snd (ktr s (seen (nth i bs 0) (firstn n full)))) = n) by (rewrite map_length, ktr_length; unfold seen; rewrite map_length, firstn_length; lia).
  rewrite LN. split; [exact N1|]. split; [rewrite N2, map_map; reflexivity|]. split.
  - destruct N3 as [N3|(tr & y & N3)]; [left; exact N3|right]. rewrite N3, map_app. cbn [map snd]. apply last_last.
  - cbv zeta. rewrite <- ktr_trace. destruct (paced_suffix _ _ _ _ HP) as (l & HP'). apply prompt_l; [exact Hc|exact Hp|].
    exact (paced_adv _ _ _ _ _ HP' n).
Qed.
End P.
