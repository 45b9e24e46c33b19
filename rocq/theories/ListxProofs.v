From Verif Require Import Base BaseLemmas ListxModel ListxSpec ListxSystem.

Definition nx (h : heap) (a : Z) : option Z := option_map fst (h a).
Definition pv (h : heap) (a : Z) : option Z := option_map snd (h a).

Lemma linked_nx : forall h a b, linked h a b <-> nx h a = Some b /\ pv h b = Some a.
Proof.
  intros h a b. unfold linked, nx, pv. split.
  - intros [[p ->] [n ->]]. split; reflexivity.
  - intros [H1 H2]. destruct (h a) as [[n1 p1]|]; [|discriminate]. destruct (h b) as [[n2 p2]|]; [|discriminate].
    cbn in *. injection H1 as ->. injection H2 as ->. split; eexists; reflexivity.
Qed.

Lemma chain_join : forall h s1 p s2, chain h (s1 ++ p :: s2) <-> chain h (s1 ++ [p]) /\ chain h (p :: s2).
Proof.
  intros h. induction s1 as [|a s1 IH]; intros p s2; cbn [app].
  - cbn. tauto.
  - destruct s1 as [|b s1]; cbn [app] in *.
    + cbn [chain]. tauto.
    + cbn [chain] in *. specialize (IH p s2). tauto.
Qed.

Lemma chain_frame : forall h h' s, NoDup s -> chain h s ->
  (forall s' e, s = s' ++ [e] -> forall x, In x s' -> nx h' x = nx h x) ->
  (forall b s', s = b :: s' -> forall y, In y s' -> pv h' y = pv h y) -> chain h' s.
Proof.
  intros h h'. induction s as [|a s IH]; intros Hn Hc H1 H2; [exact I|].
  destruct s as [|b s]; [exact I|]. cbn [chain] in *. destruct Hc as [Hl Hc]. split.
  - apply linked_nx in Hl. apply linked_nx. destruct Hl as [L1 L2]. rewrite <- L1, <- L2. split.
    + destruct (@exists_last _ (b :: s)) as (s' & e & E); [discriminate|]. apply (H1 (a :: s') e); [cbn; now rewrite <- E|now left].
    + apply (H2 a (b :: s)); [reflexivity|now left].
  - apply IH; [now inversion Hn|exact Hc| |].
    + intros s' e E x Hx. apply (H1 (a :: s') e); [cbn; now rewrite <- E|now right].
    + intros b' s' E y Hy. injection E as <- <-. apply (H2 a (b :: s)); [reflexivity|now right].
Qed.

(** The node before and the node after a cut between [l1] and [l2]. *)
Definition left_of (head : Z) (l1 : list Z) : Z := last l1 head.
Definition right_of (head : Z) (l2 : list Z) : Z := hd head l2.

Lemma left_split : forall head l1, exists s, head :: l1 = s ++ [left_of head l1].
Proof.
  intros head l1. destruct (exists_last (l := head :: l1)) as (s & e & E); [discriminate|]. exists s. rewrite E. f_equal. f_equal.
  assert (H : last (head :: l1) 0 = e) by (rewrite E; apply last_last). unfold left_of. rewrite <- H.
  clear. revert head. induction l1 as [|a l IH]; intros head; [reflexivity|]. change (last (head :: a :: l) 0) with (last (a :: l) 0).
  rewrite (IH a). destruct l; [reflexivity|]. clear. revert head a z. induction l as [|b l IH]; intros; [reflexivity|].
  change (last (a :: z :: b :: l) head) with (last (z :: b :: l) head). change (last (z :: b :: l) a) with (last (b :: l) a).
  change (last (z :: b :: l) head) with (last (b :: l) head). clear. revert b. induction l as [|c l IH]; intros b; [reflexivity|]. apply (IH c).
Qed.

Lemma right_split : forall head l2, exists s, l2 ++ [head] = right_of head l2 :: s.
Proof. intros head [|a l2]; eexists; reflexivity. Qed.

Lemma nodup_cut : forall (head : Z) (l1 l2 : list Z), NoDup (head :: l1 ++ l2) -> NoDup (head :: l1) /\ NoDup (l2 ++ [head]).
Proof.
  intros head l1 l2 H. split.
  - change (head :: l1 ++ l2) with ((head :: l1) ++ l2) in H. clear - H. induction (head :: l1) as [|a l IH]; [constructor|].
    inversion H; subst. constructor; [|auto]. intros Hi. apply H2. apply in_or_app. now left.
  - assert (H' : NoDup (head :: l2)).
    { clear - H. inversion H as [|? ? H1 H2]; subst. constructor.
      - intros Hi. apply H1. apply in_or_app. now right.
      - clear H1 H. induction l1 as [|a l IH]; [exact H2|]. inversion H2; subst. auto. }
    apply NoDup_cons_iff in H'. destruct H' as [H1 H2]. clear H. induction l2 as [|a l IH]; cbn [app].
    + constructor; [intros []|constructor].
    + inversion H2; subst. constructor.
      * intros Hi. apply in_app_or in Hi. destruct Hi as [Hi|[->|[]]]; [contradiction|]. apply H1. now left.
      * apply IH; [|assumption]. intros Hi. apply H1. now right.
Qed.

(** A heap that differs only in the next of the left node and the prev of the right node (and in
    nodes that are not in the list) keeps the two halves. *)
Lemma halves : forall h h' head l1 l2, NoDup (head :: l1 ++ l2) ->
  chain h (head :: l1) -> chain h (l2 ++ [head]) ->
  (forall x, In x (head :: l1 ++ l2) -> x <> left_of head l1 -> nx h' x = nx h x) ->
  (forall y, In y (head :: l1 ++ l2) -> y <> right_of head l2 -> pv h' y = pv h y) ->
  linked h' (left_of head l1) (right_of head l2) ->
  chain h' (head :: (l1 ++ l2) ++ [head]).
Proof.
  intros h h' head l1 l2 Hnd C1 C2 Hx Hy Hl.
  destruct (nodup_cut _ _ _ Hnd) as [N1 N2].
  assert (Hdisj : forall x, In x (head :: l1) -> In x l2 -> False).
  { change (head :: l1 ++ l2) with ((head :: l1) ++ l2) in Hnd. clear - Hnd. induction (head :: l1) as [|a l IH]; intros x [] H2.
    - subst. inversion Hnd; subst. apply H1. apply in_or_app. now right.
    - inversion Hnd; subst. now apply (IH H4 x). }
  assert (D1 : chain h' (head :: l1)).
  { destruct (left_split head l1) as [s Es]. apply (chain_frame h h'); [exact N1|exact C1| |].
    - intros s' e E x Hi. rewrite Es in E. apply app_inj_tail in E. destruct E as [<- <-]. apply Hx.
      + change (head :: l1 ++ l2) with ((head :: l1) ++ l2). rewrite Es. apply in_or_app. left. apply in_or_app. now left.
      + intros ->. rewrite Es in N1. clear - N1 Hi. apply NoDup_remove_2 in N1. apply N1. rewrite app_nil_r. exact Hi.
    - intros b s' E y Hi. injection E as <- <-. apply Hy; [right; apply in_or_app; now left|]. intros ->.
      unfold right_of in Hi. destruct l2 as [|a l2]; cbn [hd] in Hi.
      + inversion N1; contradiction.
      + apply (Hdisj a); [now right|now left]. }
  assert (D2 : chain h' (l2 ++ [head])).
  { destruct (right_split head l2) as [s Es]. apply (chain_frame h h'); [exact N2|exact C2| |].
    - intros s' e E x Hi. apply app_inj_tail in E. destruct E as [<- <-]. apply Hx; [right; apply in_or_app; now right|].
      intros ->. apply (Hdisj (left_of head l1)); [|exact Hi]. destruct (left_split head l1) as [s1 E1]. rewrite E1. apply in_or_app. right. now left.
    - intros b s' E y Hi. rewrite Es in E. injection E as <- <-. apply Hy.
      + assert (Hin : In y (l2 ++ [head])) by (rewrite Es; now right). apply in_app_or in Hin. destruct Hin as [Hin|[->|[]]]; [|now left].
        right. apply in_or_app. now right.
      + intros ->. rewrite Es in N2. now inversion N2. }
  destruct (left_split head l1) as [s1 E1]. destruct (right_split head l2) as [s2 E2].
  rewrite <- app_assoc. rewrite E2. change (head :: l1 ++ right_of head l2 :: s2) with ((head :: l1) ++ right_of head l2 :: s2).
  rewrite E1, <- app_assoc. cbn [app]. apply chain_join. rewrite <- E1. split; [exact D1|]. split; [exact Hl|].
  change (chain h' (right_of head l2 :: s2)). rewrite <- E2. exact D2.
Qed.

Lemma cut : forall h head l1 l2, chain h (head :: (l1 ++ l2) ++ [head]) ->
  chain h (head :: l1) /\ linked h (left_of head l1) (right_of head l2) /\ chain h (l2 ++ [head]).
Proof.
  intros h head l1 l2 H. destruct (left_split head l1) as [s1 E1]. destruct (right_split head l2) as [s2 E2].
  rewrite <- app_assoc in H. rewrite E2 in H.
  change (head :: l1 ++ right_of head l2 :: s2) with ((head :: l1) ++ right_of head l2 :: s2) in H.
  rewrite E1, <- app_assoc in H. cbn [app] in H. apply chain_join in H. rewrite <- E1 in H. destruct H as [H1 H2].
  destruct H2 as [H2 H3]. rewrite E2. split; [exact H1|]. split; [exact H2|exact H3].
Qed.

Lemma put_same : forall h a v, put h a v a = Some v.
Proof. intros. unfold put. now rewrite Z.eqb_refl. Qed.
Lemma put_other : forall h a v x, x <> a -> put h a v x = h x.
Proof. intros. unfold put. destruct (Z.eqb_spec x a); [contradiction|reflexivity]. Qed.

(** What the two writes do, field by field. *)
Lemma set_next_ok : forall h a v, h a <> None -> exists h', set_next h a v = Done h' /\
  nx h' a = Some v /\ (forall x, pv h' x = pv h x) /\ (forall x, x <> a -> h' x = h x) /\ (forall x, h x <> None -> h' x <> None).
Proof.
  intros h a v H. unfold set_next. destruct (h a) as [[n p]|] eqn:E; [|contradiction]. eexists. split; [reflexivity|].
  split; [unfold nx; now rewrite put_same|]. split; [|split].
  - intros x. unfold pv. destruct (Z.eq_dec x a) as [->|Hx]; [now rewrite put_same, E|now rewrite put_other].
  - intros x Hx. now apply put_other.
  - intros x Hx. destruct (Z.eq_dec x a) as [->|Hn]; [now rewrite put_same|now rewrite put_other].
Qed.

Lemma set_prev_ok : forall h a v, h a <> None -> exists h', set_prev h a v = Done h' /\
  pv h' a = Some v /\ (forall x, nx h' x = nx h x) /\ (forall x, x <> a -> h' x = h x) /\ (forall x, h x <> None -> h' x <> None).
Proof.
  intros h a v H. unfold set_prev. destruct (h a) as [[n p]|] eqn:E; [|contradiction]. eexists. split; [reflexivity|].
  split; [unfold pv; now rewrite put_same|]. split; [|split].
  - intros x. unfold nx. destruct (Z.eq_dec x a) as [->|Hx]; [now rewrite put_same, E|now rewrite put_other].
  - intros x Hx. now apply put_other.
  - intros x Hx. destruct (Z.eq_dec x a) as [->|Hn]; [now rewrite put_same|now rewrite put_other].
Qed.

Lemma nx_ext : forall h h' x, h' x = h x -> nx h' x = nx h x.
Proof. intros h h' x H. unfold nx. now rewrite H. Qed.
Lemma pv_ext : forall h h' x, h' x = h x -> pv h' x = pv h x.
Proof. intros h h' x H. unfold pv. now rewrite H. Qed.

Lemma linked_mapped : forall h a b, linked h a b -> h a <> None /\ h b <> None.
Proof. intros h a b [[p ->] [n ->]]. split; discriminate. Qed.

Lemma left_in : forall head l1 l2, In (left_of head l1) (head :: l1 ++ l2).
Proof.
  intros head l1 l2. destruct (left_split head l1) as [s E]. change (head :: l1 ++ l2) with ((head :: l1) ++ l2). rewrite E.
  apply in_or_app. left. apply in_or_app. right. now left.
Qed.
Lemma right_in : forall head l1 l2, In (right_of head l2) (head :: l1 ++ l2).
Proof. intros head l1 [|a l2]; cbn; [now left|]. right. apply in_or_app. right. now left. Qed.

Lemma insert_l : forall h head l1 l2 new, holds h head (l1 ++ l2) -> ~ In new (head :: l1 ++ l2) -> h new <> None ->
  exists h', list_add_ h new (left_of head l1) (right_of head l2) = Done h' /\
    holds h' head (l1 ++ new :: l2) /\ same_outside (new :: head :: l1 ++ l2) h h' /\
    (forall x, h x <> None -> h' x <> None).
Proof.
  intros h head l1 l2 new [Hnd Hc] Hnew Hm. destruct (cut _ _ _ _ Hc) as (C1 & Hl & C2).
  pose proof (linked_mapped _ _ _ Hl) as [Mp Mn].
  set (p := left_of head l1) in *. set (n := right_of head l2) in *.
  assert (Hpn : p <> new) by (intros E; apply Hnew; rewrite <- E; apply left_in).
  assert (Hnn : n <> new) by (intros E; apply Hnew; rewrite <- E; apply right_in).
  unfold list_add_.
  destruct (set_prev_ok h n new Mn) as (h1 & -> & V1 & X1 & F1 & M1). cbn [obind].
  destruct (set_next_ok h1 new n (M1 _ Hm)) as (h2 & -> & V2 & X2 & F2 & M2). cbn [obind].
  destruct (set_prev_ok h2 new p (M2 _ (M1 _ Hm))) as (h3 & -> & V3 & X3 & F3 & M3). cbn [obind].
  destruct (set_next_ok h3 p new (M3 _ (M2 _ (M1 _ Mp)))) as (h4 & -> & V4 & X4 & F4 & M4).
  exists h4. split; [reflexivity|].
  assert (Hnx : forall x, x <> p -> x <> new -> nx h4 x = nx h x).
  { intros x Hx1 Hx2. rewrite (nx_ext h3 h4) by (now apply F4). rewrite X3. rewrite (nx_ext h1 h2) by (now apply F2). apply X1. }
  assert (Hpv : forall x, x <> n -> x <> new -> pv h4 x = pv h x).
  { intros x Hx1 Hx2. rewrite X4. rewrite (pv_ext h2 h3) by (now apply F3). rewrite X2. apply pv_ext. now apply F1. }
  assert (Lp : linked h4 p new).
  { apply linked_nx. split; [exact V4|]. rewrite X4. exact V3. }
  assert (Ln : linked h4 new n).
  { apply linked_nx. split.
    - rewrite (nx_ext h3 h4) by (apply F4; congruence). rewrite X3. exact V2.
    - rewrite X4. rewrite (pv_ext h2 h3) by (now apply F3). rewrite X2. exact V1. }
  assert (Hnd' : NoDup (head :: l1 ++ new :: l2)).
  { apply (NoDup_Add (a := new) (l := head :: l1 ++ l2)); [|split; [exact Hnd|exact Hnew]].
    change (Add new ((head :: l1) ++ l2) ((head :: l1) ++ new :: l2)). apply Add_app. }
  split; [|split].
  - split; [exact Hnd'|].
    (* cut after new: left half head::l1++[new], right half l2 *)
    replace (l1 ++ new :: l2) with ((l1 ++ [new]) ++ l2) by (rewrite <- app_assoc; reflexivity).
    assert (Cn : chain h4 (head :: (l1 ++ l2) ++ [head]) -> True) by auto. clear Cn.
    assert (D1 : chain h4 (head :: l1)).
    { destruct (nodup_cut _ _ _ Hnd) as [N1 _]. destruct (left_split head l1) as [s Es]. fold p in Es. apply (chain_frame h h4); [exact N1|exact C1| |].
      - intros s' e E x Hi. rewrite Es in E. apply app_inj_tail in E. destruct E as [<- <-]. apply Hnx.
        + intros ->. rewrite Es in N1. apply NoDup_remove_2 in N1. apply N1. rewrite app_nil_r. exact Hi.
        + intros ->. apply Hnew. change (head :: l1 ++ l2) with ((head :: l1) ++ l2). rewrite Es. apply in_or_app. left. apply in_or_app. now left.
      - intros b s' E y Hi. injection E as <- <-. apply Hpv.
        + intros ->. unfold n, right_of in Hi. destruct l2 as [|a l2]; cbn [hd] in Hi; [inversion N1; contradiction|].
          inversion Hnd as [|? ? _ Hnd1]; subst. apply NoDup_remove_2 in Hnd1. apply Hnd1. apply in_or_app. now left.
        + intros ->. apply Hnew. right. apply in_or_app. now left. }
    assert (D2 : chain h4 (l2 ++ [head])).
    { destruct (nodup_cut _ _ _ Hnd) as [_ N2]. destruct (right_split head l2) as [s Es]. fold n in Es. apply (chain_frame h h4); [exact N2|exact C2| |].
      - intros s' e E x Hi. apply app_inj_tail in E. destruct E as [<- <-]. apply Hnx.
        + intros ->. unfold p in Hi. destruct (left_split head l1) as [s1 E1]. change (head :: l1 ++ l2) with ((head :: l1) ++ l2) in Hnd.
          rewrite E1 in Hnd. rewrite <- app_assoc in Hnd. cbn [app] in Hnd. apply NoDup_remove_2 in Hnd. apply Hnd. apply in_or_app. now right.
        + intros ->. apply Hnew. right. apply in_or_app. now right.
      - intros b s' E y Hi. rewrite Es in E. injection E as <- <-.
        assert (Hin : In y (l2 ++ [head])) by (rewrite Es; now right). apply Hpv.
        + intros ->. rewrite Es in N2. now inversion N2.
        + intros ->. apply Hnew. apply in_app_or in Hin. destruct Hin as [Hin|[->|[]]]; [|now left]. right. apply in_or_app. now right. }
    destruct (left_split head l1) as [s1 E1]. fold p in E1. destruct (right_split head l2) as [s2 E2]. fold n in E2.
    rewrite <- !app_assoc. cbn [app]. rewrite E2. change (head :: l1 ++ new :: n :: s2) with ((head :: l1) ++ new :: n :: s2).
    rewrite E1, <- app_assoc. cbn [app]. apply chain_join. rewrite <- E1. split; [exact D1|]. split; [exact Lp|].
    split; [exact Ln|]. change (chain h4 (n :: s2)). rewrite <- E2. exact D2.
  - intros a Ha. assert (a <> p) by (intros ->; apply Ha; right; apply left_in). assert (a <> n) by (intros ->; apply Ha; right; apply right_in).
    assert (a <> new) by (intros ->; apply Ha; now left). rewrite F4, F3, F2, F1 by assumption. reflexivity.
  - auto.
Qed.

Lemma delete_l : forall h head l1 e l2, holds h head (l1 ++ e :: l2) ->
  exists h', list_del h e = Done h' /\ holds h' head (l1 ++ l2) /\ same_outside (head :: l1 ++ l2) h h' /\
    (forall x, h x <> None -> h' x <> None).
Proof.
  intros h head l1 e l2 [Hnd Hc].
  assert (Hnd0 : NoDup (head :: l1 ++ l2) /\ ~ In e (head :: l1 ++ l2)).
  { change (head :: l1 ++ e :: l2) with ((head :: l1) ++ e :: l2) in Hnd. split; [now apply NoDup_remove_1 in Hnd|now apply NoDup_remove_2 in Hnd]. }
  destruct Hnd0 as [Hnd0 He].
  destruct (cut _ _ _ _ Hc) as (C1 & L1 & C2). cbn [right_of hd] in L1.
  replace (l1 ++ e :: l2) with ((l1 ++ [e]) ++ l2) in Hc by (rewrite <- app_assoc; reflexivity).
  destruct (cut _ _ _ _ Hc) as (_ & L2 & C3). unfold left_of in L2 at 1. rewrite last_last in L2.
  set (p := left_of head l1) in *. set (n := right_of head l2) in *.
  pose proof (linked_mapped _ _ _ L1) as [Mp Me]. pose proof (linked_mapped _ _ _ L2) as [_ Mn].
  unfold list_del, get_prev, get_next.
  assert (Eh : h e = Some (n, p)).
  { destruct L1 as [_ [n' E1]]. destruct L2 as [[p' E2] _]. congruence. }
  rewrite Eh. cbn [obind]. unfold list_del_.
  destruct (set_prev_ok h n p Mn) as (h1 & -> & V1 & X1 & F1 & M1). cbn [obind].
  destruct (set_next_ok h1 p n (M1 _ Mp)) as (h2 & -> & V2 & X2 & F2 & M2).
  exists h2. split; [reflexivity|]. split; [|split].
  - split; [exact Hnd0|]. apply (halves h h2); try assumption.
    + intros x _ Hx. rewrite (nx_ext h1 h2) by (now apply F2). apply X1.
    + intros y _ Hy. rewrite X2. apply pv_ext. now apply F1.
    + apply linked_nx. split; [exact V2|]. rewrite X2. exact V1.
  - intros a Ha. rewrite F2, F1; [reflexivity| |]; intros ->; apply Ha; [apply right_in|apply left_in].
  - auto.
Qed.

Lemma init_l : forall h head, h head <> None -> exists h', INIT_LIST_HEAD h head = Done h' /\ holds h' head [] /\ same_outside [head] h h'.
Proof.
  intros h head Hm. unfold INIT_LIST_HEAD.
  destruct (set_next_ok h head head Hm) as (h1 & -> & V1 & X1 & F1 & M1). cbn [obind].
  destruct (set_prev_ok h1 head head (M1 _ Hm)) as (h2 & -> & V2 & X2 & F2 & M2). exists h2. split; [reflexivity|]. split.
  - split; [constructor; [intros []|constructor]|]. cbn. split; [|exact I]. apply linked_nx. split; [rewrite X2; exact V1|exact V2].
  - intros a Ha. assert (a <> head) by (intros ->; apply Ha; now left). now rewrite F2, F1.
Qed.

Lemma ends : forall h head l, holds h head l -> h head = Some (right_of head l, left_of head l).
Proof.
  intros h head l [_ Hc].
  destruct (cut h head [] l) as (_ & [[p E1] _] & _); [exact Hc|]. cbn [left_of last] in E1.
  destruct (cut h head l []) as (_ & [_ [n E2]] & _); [rewrite app_nil_r; exact Hc|]. cbn [right_of hd] in E2. change (left_of head []) with head in E1. change (right_of head []) with head in E2. congruence.
Qed.

Lemma node : forall h head l1 e l2, holds h head (l1 ++ e :: l2) -> h e = Some (right_of head l2, left_of head l1).
Proof.
  intros h head l1 e l2 [_ Hc]. destruct (cut _ _ _ _ Hc) as (_ & [_ [n E1]] & _). cbn [right_of hd] in E1.
  replace (l1 ++ e :: l2) with ((l1 ++ [e]) ++ l2) in Hc by (rewrite <- app_assoc; reflexivity).
  destruct (cut _ _ _ _ Hc) as (_ & [[p E2] _] & _). unfold left_of in E2. rewrite last_last in E2. unfold left_of in *. congruence.
Qed.

(** Lists live on as long as nothing changes at their own nodes. *)
Lemma holds_same : forall h h' head l, holds h head l -> (forall a, In a (head :: l) -> h' a = h a) -> holds h' head l.
Proof.
  intros h h' head l [Hnd Hc] H. split; [exact Hnd|].
  assert (G : forall s, (forall a, In a s -> h' a = h a) -> chain h s -> chain h' s).
  { induction s as [|a s IH]; intros Hs C; [exact I|]. destruct s as [|b s]; [exact I|]. cbn [chain] in *. destruct C as [C1 C2]. split.
    - unfold linked in *. rewrite !Hs; [exact C1|right; now left|now left].
    - apply IH; [intros x Hx; apply Hs; now right|exact C2]. }
  apply G; [|exact Hc]. intros a [Ha|Ha]; apply H; [now left|]. apply in_app_or in Ha. destruct Ha as [Ha|[Ha|[]]]; [now right|now left].
Qed.

(** * Traversals *)
Lemma walk_next_l : forall f head l2 l1 h fuel,
  holds h head (filter (fun x => negb (f x)) l1 ++ l2) -> NoDup (head :: l1 ++ l2) -> (length l2 < fuel)%nat ->
  exists h', walk (remover f) get_next fuel h (right_of head l2) head = Done (h', l2) /\
    holds h' head (filter (fun x => negb (f x)) (l1 ++ l2)) /\ same_outside (head :: l1 ++ l2) h h'.
Proof.
  intros f head. induction l2 as [|x l2 IH]; intros l1 h fuel Hh Hnd Hf; (destruct fuel as [|fuel]; [cbn in Hf; lia|]).
  - cbn [right_of hd walk]. rewrite Z.eqb_refl. exists h. rewrite !app_nil_r in *. split; [reflexivity|]. split; [exact Hh|]. intros a _. reflexivity.
  - cbn [right_of hd walk]. destruct (Z.eqb_spec x head) as [->|Hx].
    { inversion Hnd as [|? ? H1 _]; subst. exfalso. apply H1. apply in_or_app. right. now left. }
    set (keep := fun x => negb (f x)) in *.
    assert (Hstep : exists h1, remover f h x = Done h1 /\ get_next h1 x = Done (right_of head l2) /\
              holds h1 head (filter keep (l1 ++ [x]) ++ l2) /\ same_outside (head :: l1 ++ x :: l2) h h1).
    { pose proof (node _ _ _ _ _ Hh) as Hn. unfold remover. rewrite filter_app. cbn [filter]. unfold keep at 2. destruct (f x); cbn [negb].
      - destruct (delete_l _ _ _ _ _ Hh) as (h1 & E & Hh1 & Hs & _). exists h1. split; [exact E|].
        assert (Hex : h1 x = h x).
        { apply Hs. destruct Hh as [Hnd1 _]. change (head :: filter keep l1 ++ x :: l2) with ((head :: filter keep l1) ++ x :: l2) in Hnd1.
          now apply NoDup_remove_2 in Hnd1. }
        split; [unfold get_next; now rewrite Hex, Hn|]. split; [now rewrite app_nil_r|].
        intros a Ha. apply Hs. intros Hi. apply Ha. destruct Hi as [Hi|Hi]; [now left|]. right. apply in_app_or in Hi. apply in_or_app.
        destruct Hi as [Hi|Hi]; [left; now apply filter_In in Hi|right; now right].
      - exists h. split; [reflexivity|]. split; [unfold get_next; now rewrite Hn|]. split; [now rewrite <- app_assoc|]. intros a _. reflexivity. }
    destruct Hstep as (h1 & E1 & E2 & Hh1 & Hs1). rewrite E1. cbn [obind]. rewrite E2. cbn [obind].
    destruct (IH (l1 ++ [x]) h1 fuel Hh1) as (h' & E & Hh' & Hs').
    { rewrite <- app_assoc. exact Hnd. }
    { cbn [length] in Hf. lia. }
    rewrite E. cbn [obind]. exists h'. split; [reflexivity|]. rewrite <- app_assoc in Hh', Hs'. split; [exact Hh'|].
    intros a Ha. rewrite (Hs' a Ha). now apply Hs1.
Qed.

Lemma left_snoc : forall head l x, left_of head (l ++ [x]) = x.
Proof. intros. unfold left_of. apply last_last. Qed.

Lemma walk_prev_l : forall f head l1 l2 h fuel,
  holds h head (l1 ++ filter (fun x => negb (f x)) l2) -> NoDup (head :: l1 ++ l2) -> (length l1 < fuel)%nat ->
  exists h', walk (remover f) get_prev fuel h (left_of head l1) head = Done (h', rev l1) /\
    holds h' head (filter (fun x => negb (f x)) (l1 ++ l2)) /\ same_outside (head :: l1 ++ l2) h h'.
Proof.
  intros f head l1. induction l1 as [|x l1 IH] using rev_ind; intros l2 h fuel Hh Hnd Hf; (destruct fuel as [|fuel]; [cbn in Hf; lia|]).
  - cbn [left_of last walk]. rewrite Z.eqb_refl. exists h. cbn [app] in *. split; [reflexivity|]. split; [exact Hh|]. intros a _. reflexivity.
  - rewrite left_snoc. cbn [walk]. rewrite <- app_assoc in *. cbn [app] in *. destruct (Z.eqb_spec x head) as [->|Hx].
    { inversion Hnd as [|? ? H1 _]; subst. exfalso. apply H1. apply in_or_app. right. now left. }
    set (keep := fun x => negb (f x)) in *.
    assert (Hstep : exists h1, remover f h x = Done h1 /\ get_prev h1 x = Done (left_of head l1) /\
              holds h1 head (l1 ++ filter keep (x :: l2)) /\ same_outside (head :: l1 ++ x :: l2) h h1).
    { pose proof (node _ _ _ _ _ Hh) as Hn. unfold remover. cbn [filter]. unfold keep at 1. destruct (f x); cbn [negb].
      - destruct (delete_l _ _ _ _ _ Hh) as (h1 & E & Hh1 & Hs & _). exists h1. split; [exact E|].
        assert (Hex : h1 x = h x).
        { apply Hs. destruct Hh as [Hnd1 _]. change (head :: l1 ++ x :: filter keep l2) with ((head :: l1) ++ x :: filter keep l2) in Hnd1.
          now apply NoDup_remove_2 in Hnd1. }
        split; [unfold get_prev; now rewrite Hex, Hn|]. split; [exact Hh1|].
        intros a Ha. apply Hs. intros Hi. apply Ha. destruct Hi as [Hi|Hi]; [now left|]. right. apply in_app_or in Hi. apply in_or_app.
        destruct Hi as [Hi|Hi]; [now left|right; right; now apply filter_In in Hi].
      - exists h. split; [reflexivity|]. split; [unfold get_prev; now rewrite Hn|]. split; [exact Hh|]. intros a _. reflexivity. }
    destruct Hstep as (h1 & E1 & E2 & Hh1 & Hs1). rewrite E1. cbn [obind]. rewrite E2. cbn [obind].
    destruct (IH (x :: l2) h1 fuel Hh1 Hnd) as (h' & E & Hh' & Hs').
    { rewrite app_length in Hf. cbn [length] in Hf. lia. }
    rewrite E. cbn [obind]. exists h'. rewrite rev_app_distr. cbn [rev app]. split; [reflexivity|]. split; [exact Hh'|].
    intros a Ha. rewrite (Hs' a Ha). now apply Hs1.
Qed.

(** The entry loops are the plain loops on addresses shifted by the offset. *)
Lemma walk_entry_l : forall body step off fuel h pos head,
  walk_entry body step off fuel h (container_of pos off) head =
  obind (walk (fun h p => body h (container_of p off)) step fuel h pos head)
        (fun r => Done (fst r, map (fun p => container_of p off) (snd r))).
Proof.
  intros body step off. induction fuel as [|fuel IH]; intros h pos head; [reflexivity|].
  cbn [walk_entry walk]. unfold container_of at 1 3. replace (pos - off + off) with pos by lia.
  destruct (pos =? head); [reflexivity|]. unfold container_of at 1. change (pos - off) with (container_of pos off).
  destruct (body h (container_of pos off)) as [h1| | |]; cbn [obind]; try reflexivity.
  destruct (step h1 pos) as [p1| | |]; cbn [obind]; try reflexivity. rewrite IH.
  destruct (walk _ step fuel h1 p1 head) as [[h2 seen]| | |]; reflexivity.
Qed.
