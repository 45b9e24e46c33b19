(** Proofs about any number of lists, stale removals and undone removals. *)
From Verif Require Import Base BaseLemmas ListxModel ListxSpec ListxSystem ListxProofs ListxWorldSpec ListxWorldSystem.
From Coq Require Import Permutation.

(** * Worlds *)

Lemma everything_app : forall v w, everything (v ++ w) = everything v ++ everything w.
Proof. intros. unfold everything. now rewrite map_app, concat_app. Qed.

Lemma everything_cons : forall x w, everything (x :: w) = fst x :: snd x ++ everything w.
Proof. reflexivity. Qed.

Lemma in_everything : forall a w, In a (everything w) <-> exists x, In x w /\ In a (fst x :: snd x).
Proof.
  intros a w. unfold everything. rewrite in_concat. split.
  - intros (s & Hs & Ha). apply in_map_iff in Hs as (x & <- & Hx). eauto.
  - intros (x & Hx & Ha). exists (fst x :: snd x). split; [|exact Ha]. apply in_map_iff. eauto.
Qed.

Lemma in_nodes : forall a w, In a (nodes w) <-> exists x, In x w /\ In a (snd x).
Proof.
  intros a w. unfold nodes. rewrite in_concat. split.
  - intros (s & Hs & Ha). apply in_map_iff in Hs as (x & <- & Hx). eauto.
  - intros (x & Hx & Ha). exists (snd x). split; [|exact Ha]. apply in_map_iff. eauto.
Qed.

Lemma nodup_app : forall (l1 l2 : list Z), NoDup (l1 ++ l2) <-> NoDup l1 /\ NoDup l2 /\ (forall a, In a l1 -> ~ In a l2).
Proof.
  induction l1 as [|x l1 IH]; intros l2; cbn [app].
  - split; [intros H; repeat split; [constructor|exact H|intros a []]|tauto].
  - rewrite !NoDup_cons_iff, IH, in_app_iff. cbn [In]. split.
    + intros (H1 & H2 & H3 & H4). repeat split; try tauto. intros a [<-|Ha]; [tauto|auto].
    + intros ((H1 & H2) & H3 & H4). repeat split; try tauto; [|intros a Ha; apply H4; now right]. intros [H|H]; [tauto|]. exact (H4 x (or_introl eq_refl) H).
Qed.

(** One list is replaced, at places that belong to no other list. *)
Lemma replace_one : forall h h' s pre x x' post, holds_all h (pre ++ x :: post) -> same_outside s h h' ->
  (forall a, In a s -> ~ In a (everything pre) /\ ~ In a (everything post)) ->
  holds h' (fst x') (snd x') -> NoDup (everything (pre ++ x' :: post)) -> holds_all h' (pre ++ x' :: post).
Proof.
  intros h h' s pre x x' post [_ F] S A Hx ND. split; [exact ND|]. apply Forall_app in F as [F1 F2]. apply Forall_cons_iff in F2 as [_ F3].
  assert (G : forall w, (forall a, In a s -> ~ In a (everything w)) -> Forall (fun x => holds h (fst x) (snd x)) w -> Forall (fun x => holds h' (fst x) (snd x)) w).
  { intros w Hw F. rewrite Forall_forall in *. intros y Hy. apply (holds_same h h'); [now apply F|]. intros a Ha. apply S. intros Hs.
    apply (Hw a Hs). apply in_everything. eauto. }
  apply Forall_app. split; [apply G; [intros a Ha; now apply A|exact F1]|]. constructor; [exact Hx|]. apply G; [intros a Ha; now apply A|exact F3].
Qed.

(** The nodes of a list are not those of another. *)
Lemma own : forall pre x post a, NoDup (everything (pre ++ x :: post)) -> In a (fst x :: snd x) -> ~ In a (everything pre) /\ ~ In a (everything post).
Proof.
  intros pre x post a ND Ha. rewrite everything_app, everything_cons in ND. apply nodup_app in ND as (_ & N2 & N3).
  split; [intros H; apply (N3 a H); change (fst x :: snd x ++ everything post) with ((fst x :: snd x) ++ everything post); apply in_or_app; now left|].
  change (fst x :: snd x ++ everything post) with ((fst x :: snd x) ++ everything post) in N2. apply nodup_app in N2 as (_ & _ & N4). now apply N4.
Qed.

(** A node put into one list. *)
Lemma nodup_put : forall pre head l1 l2 post new, NoDup (everything (pre ++ (head, l1 ++ l2) :: post)) ->
  ~ In new (everything (pre ++ (head, l1 ++ l2) :: post)) -> NoDup (everything (pre ++ (head, l1 ++ new :: l2) :: post)).
Proof.
  intros pre head l1 l2 post new ND Hn. apply (Permutation_NoDup (l := new :: everything (pre ++ (head, l1 ++ l2) :: post))).
  - rewrite !everything_app, !everything_cons. cbn [fst snd].
    replace (everything pre ++ head :: (l1 ++ l2) ++ everything post) with ((everything pre ++ head :: l1) ++ l2 ++ everything post) by (rewrite <- !app_assoc; cbn [app]; rewrite <- ?app_assoc; reflexivity).
    replace (everything pre ++ head :: (l1 ++ new :: l2) ++ everything post) with ((everything pre ++ head :: l1) ++ new :: l2 ++ everything post) by (rewrite <- !app_assoc; cbn [app]; rewrite <- ?app_assoc; reflexivity).
    apply Permutation_middle.
  - now constructor.
Qed.

(** A node taken out of one list. *)
Lemma nodup_take : forall pre head l1 e l2 post, NoDup (everything (pre ++ (head, l1 ++ e :: l2) :: post)) -> NoDup (everything (pre ++ (head, l1 ++ l2) :: post)).
Proof.
  intros pre head l1 e l2 post ND. rewrite !everything_app, !everything_cons in *. cbn [fst snd] in *.
  replace (everything pre ++ head :: (l1 ++ l2) ++ everything post) with ((everything pre ++ head :: l1) ++ l2 ++ everything post) by (rewrite <- !app_assoc; cbn [app]; rewrite <- ?app_assoc; reflexivity).
  replace (everything pre ++ head :: (l1 ++ e :: l2) ++ everything post) with ((everything pre ++ head :: l1) ++ e :: l2 ++ everything post) in ND by (rewrite <- !app_assoc; cbn [app]; rewrite <- ?app_assoc; reflexivity).
  now apply NoDup_remove_1 in ND.
Qed.

Lemma find_list : forall a w, In a (everything w) -> exists pre head l post, w = pre ++ (head, l) :: post /\ In a (head :: l).
Proof. intros a w H. apply in_everything in H as ([head l] & Hx & Ha). apply in_split in Hx as (pre & post & ->). eauto 8. Qed.

Lemma map_id_in : forall A (f : A -> A) l, (forall x, In x l -> f x = x) -> map f l = l.
Proof. intros A f l H. rewrite <- (map_id l) at 2. now apply map_ext_in. Qed.

Lemma flat_id : forall (g : Z -> list Z) l, (forall y, In y l -> g y = [y]) -> flat_map g l = l.
Proof. intros g. induction l as [|y l IH]; intros H; [reflexivity|]. cbn [flat_map]. rewrite (H y (or_introl eq_refl)), IH; [reflexivity|]. intros z Hz. apply H. now right. Qed.

(** Adding at a place: the calls and what becomes of the world. *)
Lemma add_split : forall w new at_ h, holds_all h w -> In at_ (everything w) ->
  exists pre head l1 l2 post, w = pre ++ (head, l1 ++ l2) :: post /\ map (behind new at_) w = pre ++ (head, l1 ++ new :: l2) :: post /\
    at_ = left_of head l1 /\ get_next h at_ = Done (right_of head l2).
Proof.
  intros w new at_ h [ND F] Ha. destruct (find_list _ _ Ha) as (pre & head & l & post & -> & Hl).
  assert (Q : forall v, ~ In at_ (everything v) -> map (behind new at_) v = v).
  { intros v Hv. apply map_id_in. intros [hd_ q] Hx. unfold behind. cbn [fst snd].
    destruct (Z.eqb_spec at_ hd_) as [->|]; [exfalso; apply Hv; apply in_everything; exists (hd_, q); split; [exact Hx|now left]|].
    rewrite flat_id; [reflexivity|]. intros y Hy. destruct (Z.eqb_spec y at_) as [->|]; [|reflexivity].
    exfalso. apply Hv. apply in_everything. exists (hd_, q). split; [exact Hx|now right]. }
  destruct (own pre (head, l) post at_ ND Hl) as [O1 O2].
  assert (Hh : holds h head l) by (apply Forall_app in F as [_ F]; now apply Forall_cons_iff in F as [F _]).
  rewrite map_app. cbn [map]. rewrite (Q pre O1), (Q post O2). unfold behind at 1. cbn [fst snd].
  destruct (Z.eqb_spec at_ head) as [->|Hne].
  - exists pre, head, [], l, post. split; [reflexivity|]. split; [reflexivity|]. split; [reflexivity|]. unfold get_next. now rewrite (ends _ _ _ Hh).
  - destruct Hl as [E|Hl]; [now elim Hne|]. apply in_split in Hl as (a & b & ->).
    exists pre, head, (a ++ [at_]), b, post. split; [now rewrite <- app_assoc|].
    destruct Hh as [Hnd Hc]. inversion Hnd as [|? ? _ Hn2]; subst. apply NoDup_remove_2 in Hn2.
    rewrite flat_map_app. cbn [flat_map]. rewrite Z.eqb_refl, !flat_id.
    + split; [rewrite <- app_assoc; reflexivity|]. split; [unfold left_of; now rewrite last_last|].
      unfold get_next. rewrite (node h head a at_ b); [reflexivity|split; assumption].
    + intros y Hy. destruct (Z.eqb_spec y at_) as [->|]; [|reflexivity]. exfalso. apply Hn2, in_or_app. now right.
    + intros y Hy. destruct (Z.eqb_spec y at_) as [->|]; [|reflexivity]. exfalso. apply Hn2, in_or_app. now left.
Qed.

Lemma tail_split : forall w new at_ h, holds_all h w -> In at_ (everything w) ->
  exists pre head l1 l2 post, w = pre ++ (head, l1 ++ l2) :: post /\ map (ahead_of new at_) w = pre ++ (head, l1 ++ new :: l2) :: post /\
    at_ = right_of head l2 /\ get_prev h at_ = Done (left_of head l1).
Proof.
  intros w new at_ h [ND F] Ha. destruct (find_list _ _ Ha) as (pre & head & l & post & -> & Hl).
  assert (Q : forall v, ~ In at_ (everything v) -> map (ahead_of new at_) v = v).
  { intros v Hv. apply map_id_in. intros [hd_ q] Hx. unfold ahead_of. cbn [fst snd].
    destruct (Z.eqb_spec at_ hd_) as [->|]; [exfalso; apply Hv; apply in_everything; exists (hd_, q); split; [exact Hx|now left]|].
    rewrite flat_id; [reflexivity|]. intros y Hy. destruct (Z.eqb_spec y at_) as [->|]; [|reflexivity].
    exfalso. apply Hv. apply in_everything. exists (hd_, q). split; [exact Hx|now right]. }
  destruct (own pre (head, l) post at_ ND Hl) as [O1 O2].
  assert (Hh : holds h head l) by (apply Forall_app in F as [_ F]; now apply Forall_cons_iff in F as [F _]).
  rewrite map_app. cbn [map]. rewrite (Q pre O1), (Q post O2). unfold ahead_of at 1. cbn [fst snd].
  destruct (Z.eqb_spec at_ head) as [->|Hne].
  - exists pre, head, l, [], post. rewrite app_nil_r. split; [reflexivity|]. split; [reflexivity|]. split; [reflexivity|]. unfold get_prev. now rewrite (ends _ _ _ Hh).
  - destruct Hl as [E|Hl]; [now elim Hne|]. apply in_split in Hl as (a & b & ->).
    exists pre, head, a, (at_ :: b), post. split; [reflexivity|].
    destruct Hh as [Hnd Hc]. inversion Hnd as [|? ? _ Hn2]; subst. apply NoDup_remove_2 in Hn2.
    rewrite flat_map_app. cbn [flat_map]. rewrite Z.eqb_refl, !flat_id.
    + split; [reflexivity|]. split; [reflexivity|]. unfold get_prev. rewrite (node h head a at_ b); [reflexivity|split; assumption].
    + intros y Hy. destruct (Z.eqb_spec y at_) as [->|]; [|reflexivity]. exfalso. apply Hn2, in_or_app. now right.
    + intros y Hy. destruct (Z.eqb_spec y at_) as [->|]; [|reflexivity]. exfalso. apply Hn2, in_or_app. now left.
Qed.

Lemma put_one : forall h pre head l1 l2 post new, holds_all h (pre ++ (head, l1 ++ l2) :: post) -> ~ In new (everything (pre ++ (head, l1 ++ l2) :: post)) -> h new <> None ->
  exists h', list_add_ h new (left_of head l1) (right_of head l2) = Done h' /\ holds_all h' (pre ++ (head, l1 ++ new :: l2) :: post) /\
    (forall x, h x <> None -> h' x <> None).
Proof.
  intros h pre head l1 l2 post new HA Hn Hm. pose proof HA as [ND F].
  assert (Hh : holds h head (l1 ++ l2)) by (apply Forall_app in F as [_ F]; now apply Forall_cons_iff in F as [F _]).
  assert (Hn' : ~ In new (head :: l1 ++ l2)) by (intros H; apply Hn; apply in_everything; exists (head, l1 ++ l2); split; [apply in_or_app; right; now left|exact H]).
  destruct (insert_l h head l1 l2 new Hh Hn' Hm) as (h' & E & H1 & H2 & H3). exists h'. split; [exact E|]. split; [|exact H3].
  refine (replace_one h h' (new :: head :: l1 ++ l2) pre (head, l1 ++ l2) (head, l1 ++ new :: l2) post HA H2 _ H1 (nodup_put _ _ _ _ _ _ ND Hn)).
  intros a [<-|Ha]; [|exact (own pre (head, l1 ++ l2) post a ND Ha)].
  rewrite everything_app, everything_cons in Hn. split; intros H; apply Hn; apply in_or_app; [now left|right; right; apply in_or_app; now right].
Qed.

Lemma step_l : forall h w o, holds_all h w -> wlegal1 w o -> (forall a, In a (brings o) -> h a <> None) ->
  exists h', lcall_run h o = Done h' /\ holds_all h' (wstep w o) /\ (forall x, h x <> None -> h' x <> None).
Proof.
  intros h w o HA L M. pose proof HA as [ND F]. destruct o as [head|new at_|new at_|e]; cbn [lcall_run wstep wlegal1 brings] in *.
  - assert (Hm : h head <> None) by (apply M; now left). destruct (init_l h head Hm) as (h' & E & H1 & H2). exists h'. split; [exact E|].
    split; [|intros x Hx; destruct (Z.eq_dec x head) as [->|Hne]; [now rewrite (ends _ _ _ H1)|rewrite (H2 x); [exact Hx|intros [X|[]]; congruence]]].
    destruct (existsb (Z.eqb head) (map fst w)) eqn:Ex.
    + apply existsb_exists in Ex as (y & Hy & Ey). apply Z.eqb_eq in Ey. subst y. apply in_map_iff in Hy as ([h0 l] & Eh & Hx). cbn [fst] in Eh. subst h0.
      apply in_split in Hx as (pre & post & ->).
      assert (Q : forall v, ~ In head (everything v) -> map (fun x : Z * list Z => if fst x =? head then (head, []) else x) v = v).
      { intros v Hv. apply map_id_in. intros [k q] Hx. cbn [fst]. destruct (Z.eqb_spec k head) as [->|]; [|reflexivity].
        exfalso. apply Hv, in_everything. exists (head, q). split; [exact Hx|now left]. }
      destruct (own pre (head, l) post head ND (or_introl eq_refl)) as [O1 O2].
      rewrite map_app. cbn [map fst]. rewrite Z.eqb_refl, (Q pre O1), (Q post O2).
      refine (replace_one h h' [head] pre (head, l) (head, []) post HA H2 _ H1 _); [intros a [<-|[]]; auto|].
      rewrite everything_app, everything_cons in *. cbn [fst snd] in *. apply nodup_app in ND as (N1 & N2 & N3). apply nodup_app. split; [exact N1|].
      inversion N2 as [|? ? N4 N5]; subst. apply nodup_app in N5 as (_ & N6 & _). split; [constructor; [exact O2|exact N6]|].
      intros a Ha [<-|Hb]; [now apply (N3 head Ha (or_introl eq_refl))|]. apply (N3 a Ha). right. apply in_or_app. now right.
    + assert (Hf : ~ In head (everything w)).
      { intros H. apply in_everything in H as ([k q] & Hx & [Hk|Hq]); cbn [fst snd] in *.
        - subst k. assert (existsb (Z.eqb head) (map fst w) = true); [|congruence]. apply existsb_exists. exists head. split; [apply in_map_iff; now exists (head, q)|apply Z.eqb_refl].
        - apply L, in_nodes. now exists (k, q). }
      split.
      * rewrite everything_app. apply nodup_app. split; [exact ND|]. cbn. split; [repeat constructor; intros []|]. intros a Ha [<-|[]]. contradiction.
      * apply Forall_app. split; [|constructor; [exact H1|constructor]]. rewrite Forall_forall in *. intros y Hy. apply (holds_same h h'); [now apply F|].
        intros a Ha. apply H2. intros [<-|[]]. apply Hf, in_everything. eauto.
  - destruct L as [L1 L2]. destruct (add_split w new at_ h HA L2) as (pre & head & l1 & l2 & post & -> & E & Ea & G). rewrite E. unfold list_add. rewrite G. cbn [obind]. rewrite Ea.
    apply put_one; [exact HA|exact L1|]. apply M. now left.
  - destruct L as [L1 L2]. destruct (tail_split w new at_ h HA L2) as (pre & head & l1 & l2 & post & -> & E & Ea & G). rewrite E. unfold list_add_tail. rewrite G. cbn [obind]. rewrite Ea.
    apply put_one; [exact HA|exact L1|]. apply M. now left.
  - apply in_nodes in L as ([head l] & Hx & He). cbn [snd] in He. apply in_split in Hx as (pre & post & ->). apply in_split in He as (l1 & l2 & ->).
    assert (Hh : holds h head (l1 ++ e :: l2)) by (apply Forall_app in F as [_ F]; now apply Forall_cons_iff in F as [F _]).
    destruct (delete_l h head l1 e l2 Hh) as (h' & E & H1 & H2 & H3). exists h'. split; [exact E|]. split; [|exact H3].
    assert (He : In e (head :: l1 ++ e :: l2)) by (right; apply in_or_app; right; now left).
    destruct (own pre (head, l1 ++ e :: l2) post e ND He) as [O1 O2].
    assert (K : forall q, ~ In e q -> filter (fun y => negb (y =? e)) q = q).
    { intros q. induction q as [|y q IH]; intros Hq; [reflexivity|]. cbn [filter]. destruct (Z.eqb_spec y e) as [->|]; [exfalso; apply Hq; now left|].
      cbn [negb]. rewrite IH; [reflexivity|]. intros H. apply Hq. now right. }
    assert (Q : forall v, ~ In e (everything v) -> map (fun x : Z * list Z => (fst x, filter (fun y => negb (y =? e)) (snd x))) v = v).
    { intros v Hv. apply map_id_in. intros [k q] Hx. cbn [fst snd]. rewrite K; [reflexivity|]. intros Hq. apply Hv, in_everything. exists (k, q). split; [exact Hx|now right]. }
    assert (Hnd : NoDup (l1 ++ e :: l2)) by (destruct Hh as [Hnd _]; now inversion Hnd). pose proof (NoDup_remove_2 _ _ _ Hnd) as Hn2.
    rewrite map_app. cbn [map fst snd]. rewrite (Q pre O1), (Q post O2), filter_app. cbn [filter]. rewrite Z.eqb_refl. cbn [negb].
    rewrite !K by (intros H; apply Hn2; apply in_or_app; tauto).
    refine (replace_one h h' (head :: l1 ++ l2) pre (head, l1 ++ e :: l2) (head, l1 ++ l2) post HA H2 _ H1 (nodup_take _ _ _ _ _ _ ND)).
    intros a Ha. apply (own pre (head, l1 ++ e :: l2) post a ND). cbn [fst snd]. destruct Ha as [<-|Ha]; [now left|]. right. apply in_app_or in Ha. apply in_or_app. cbn [In]. tauto.
Qed.

Lemma runs_l : forall ops h w, holds_all h w -> wlegal w ops -> (forall o a, In o ops -> In a (brings o) -> h a <> None) ->
  exists h', lruns h ops = Done h' /\ holds_all h' (wrun w ops).
Proof.
  induction ops as [|o ops IH]; intros h w HA L M; cbn [lruns wrun wlegal] in *.
  - eauto.
  - destruct L as [L1 L2]. destruct (step_l h w o HA L1) as (h1 & E & H1 & H2); [intros a Ha; apply (M o a); [now left|exact Ha]|].
    rewrite E. cbn [obind]. apply IH; [exact H1|exact L2|]. intros o' a Ho Ha. apply H2. apply (M o' a); [now right|exact Ha].
Qed.

(** * Removing a node that is not on the list any more *)

Lemma stale_l : forall h head l1 mid l2 e, holds h head (l1 ++ mid ++ l2) -> h e = Some (right_of head l2, left_of head l1) ->
  exists h', list_del h e = Done h' /\ holds h' head (l1 ++ l2) /\ same_outside (head :: l1 ++ l2) h h'.
Proof.
  intros h head l1 mid l2 e [Hnd Hc] He. unfold list_del, get_prev, get_next, list_del_. rewrite He. cbn [obind].
  destruct (cut h head l1 (mid ++ l2) Hc) as (C1 & Lk1 & _). rewrite app_assoc in Hc. destruct (cut h head (l1 ++ mid) l2 Hc) as (_ & Lk2 & C2).
  assert (Mr : h (right_of head l2) <> None) by (apply (linked_mapped _ _ _ Lk2)).
  assert (Ml : h (left_of head l1) <> None) by (apply (linked_mapped _ _ _ Lk1)).
  destruct (set_prev_ok h (right_of head l2) (left_of head l1) Mr) as (h1 & -> & V1 & X1 & F1 & M1). cbn [obind].
  destruct (set_next_ok h1 (left_of head l1) (right_of head l2) (M1 _ Ml)) as (h2 & -> & V2 & X2 & F2 & M2). exists h2. split; [reflexivity|].
  assert (ND : NoDup (head :: l1 ++ l2)).
  { change (head :: l1 ++ mid ++ l2) with ((head :: l1) ++ mid ++ l2) in Hnd. change (head :: l1 ++ l2) with ((head :: l1) ++ l2).
    apply nodup_app in Hnd as (A1 & A2 & A3). apply nodup_app in A2 as (_ & A4 & _). apply nodup_app. split; [exact A1|]. split; [exact A4|].
    intros a Ha Hb. apply (A3 a Ha). apply in_or_app. now right. }
  split.
  - split; [exact ND|]. apply (halves h h2 head l1 l2 ND C1 C2).
    + intros x _ Hx. rewrite <- (X1 x). apply nx_ext. now apply F2.
    + intros y _ Hy. rewrite X2. apply pv_ext. now apply F1.
    + apply linked_nx. split; [exact V2|]. rewrite X2. exact V1.
  - intros a Ha. rewrite F2, F1; [reflexivity| |]; intros ->; apply Ha; [apply right_in|apply left_in].
Qed.

(** * Removals undone *)

Lemma del_put : forall h h1 h2 head l1 e l2, holds h head (l1 ++ e :: l2) -> list_del h e = Done h1 -> (forall a, h2 a = h1 a) ->
  exists h3, put_back h2 e = Done h3 /\ forall a, h3 a = h a.
Proof.
  intros h h1 h2 head l1 e l2 Hh E S. pose proof (node _ _ _ _ _ Hh) as He. destruct Hh as [Hnd Hc].
  set (p := left_of head l1) in *. set (n := right_of head l2) in *.
  assert (Hin : ~ In e (head :: l1 ++ l2)) by (change (head :: l1 ++ e :: l2) with ((head :: l1) ++ e :: l2) in Hnd; now apply NoDup_remove_2 in Hnd).
  assert (Pe : p <> e) by (intros X; apply Hin; rewrite <- X; apply left_in).
  assert (Ne : n <> e) by (intros X; apply Hin; rewrite <- X; apply right_in).
  destruct (cut h head l1 (e :: l2) Hc) as (_ & [[pp Hp] _] & _).
  replace (l1 ++ e :: l2) with ((l1 ++ [e]) ++ l2) in Hc by (rewrite <- app_assoc; reflexivity).
  destruct (cut h head (l1 ++ [e]) l2 Hc) as (_ & [_ [nn Hn]] & _). unfold left_of at 1 in Hn. rewrite last_last in Hn. fold n in Hn. fold p in Hp. cbn [right_of hd] in Hp.
  clearbody p n. clear Hin Hnd Hc.
  unfold list_del, list_del_, get_prev, get_next in E. rewrite He in E. cbn [obind] in E. unfold set_prev at 1 in E. rewrite Hn in E. cbn [obind] in E.
  assert (P1 : exists q, put h n (nn, p) p = Some q /\ snd q = if p =? n then p else pp).
  { unfold put. destruct (Z.eqb_spec p n) as [->|]; eexists; (split; [reflexivity || exact Hp|reflexivity]). }
  destruct P1 as ([q1 q2] & P1 & P2). cbn [snd] in P2. unfold set_next in E. rewrite P1 in E. injection E as <-.
  unfold put_back, list_add_, get_prev, get_next.
  assert (H2e : h2 e = Some (n, p)). { rewrite S. unfold put. destruct (Z.eqb_spec e p); [congruence|]. destruct (Z.eqb_spec e n); [congruence|]. exact He. }
  assert (H2n : exists t, h2 n = Some (t, p) /\ (n = p \/ t = nn)).
  { rewrite S. unfold put. destruct (Z.eqb_spec n p) as [->|]; [rewrite Z.eqb_refl in P2; subst q2; eauto|]. rewrite Z.eqb_refl. eauto. }
  destruct H2n as (t & H2n & Ht). rewrite H2e. cbn [obind]. unfold set_prev at 1. rewrite H2n. cbn [obind].
  unfold set_next at 1. unfold put at 1. destruct (Z.eqb_spec e n) as [|_]; [congruence|]. rewrite H2e. cbn [obind].
  unfold set_prev at 1. rewrite put_same. cbn [obind].
  unfold set_next. rewrite put_other by congruence. rewrite put_other by congruence.
  destruct (Z.eq_dec p n) as [->|Hpn].
  - rewrite put_same. eexists. split; [reflexivity|]. intros a. rewrite Hn in Hp. injection Hp as Y1 Y2.
    destruct (Z.eq_dec a n) as [->|A1]; [rewrite put_same; congruence|]. rewrite put_other by exact A1.
    destruct (Z.eq_dec a e) as [Ae|A2]; [subst a; rewrite put_same; congruence|]. rewrite !put_other by assumption. rewrite S. now rewrite !put_other.
  - rewrite put_other by exact Hpn. rewrite S. rewrite put_same. eexists. split; [reflexivity|]. intros a.
    destruct (Z.eqb_spec p n) as [|_] in P2; [contradiction|]. subst q2. destruct Ht as [Ht| ->]; [congruence|].
    destruct (Z.eq_dec a p) as [->|A1]; [now rewrite put_same|]. rewrite put_other by exact A1.
    destruct (Z.eq_dec a e) as [->|A2]; [now rewrite put_same|]. rewrite !put_other by assumption.
    destruct (Z.eq_dec a n) as [->|A3]; [now rewrite put_same|]. rewrite !put_other by assumption. rewrite S. now rewrite !put_other.
Qed.

Lemma put_back_app : forall es fs h, put_back_all h (es ++ fs) = do h <- put_back_all h es; put_back_all h fs.
Proof. induction es as [|e es IH]; intros fs h; cbn [app put_back_all obind]; [reflexivity|]. destruct (put_back h e); cbn [obind]; auto. Qed.

Lemma undo_l : forall es h head l, holds h head l -> NoDup es -> incl es l ->
  exists h1 h2, lruns h (map LDel es) = Done h1 /\ holds h1 head (filter (fun x => negb (existsb (Z.eqb x) es)) l) /\
    put_back_all h1 (rev es) = Done h2 /\ forall a, h2 a = h a.
Proof.
  induction es as [|e es IH]; intros h head l Hh ND I.
  - exists h, h. cbn [map lruns rev put_back_all existsb negb]. split; [reflexivity|]. split; [|split; reflexivity].
    replace (filter (fun _ => true) l) with l; [exact Hh|]. clear. induction l as [|x l IH]; cbn; congruence.
  - inversion ND as [|? ? N1 N2]; subst. assert (He : In e l) by (apply I; now left). apply in_split in He as (l1 & l2 & ->).
    destruct (delete_l h head l1 e l2 Hh) as (ha & E & H1 & _). cbn [map lruns lcall_run]. rewrite E. cbn [obind].
    assert (Hn2 : ~ In e (l1 ++ l2)) by (destruct Hh as [Hnd _]; inversion Hnd; subst; now apply NoDup_remove_2 in H3).
    destruct (IH ha head (l1 ++ l2) H1 N2) as (h1 & h2 & R1 & R2 & R3 & R4).
    { intros x Hx. specialize (I x (or_intror Hx)). apply in_app_or in I. apply in_or_app. destruct I as [I|[I|I]]; [now left|subst; contradiction|now right]. }
    destruct (del_put h ha h2 head l1 e l2 Hh E R4) as (h3 & P1 & P2). exists h1, h3. split; [exact R1|]. split.
    + replace (filter (fun x => negb (existsb (Z.eqb x) (e :: es))) (l1 ++ e :: l2)) with (filter (fun x => negb (existsb (Z.eqb x) es)) (l1 ++ l2)); [exact R2|].
      rewrite !filter_app. cbn [filter existsb]. rewrite Z.eqb_refl. cbn [orb negb].
      assert (K : forall q, ~ In e q -> filter (fun x => negb (existsb (Z.eqb x) es)) q = filter (fun x => negb ((x =? e) || existsb (Z.eqb x) es)) q).
      { intros q Hq. apply filter_ext_in. intros x Hx. destruct (Z.eqb_spec x e) as [->|]; [contradiction|reflexivity]. }
      rewrite !K by (intros H; apply Hn2; apply in_or_app; tauto). reflexivity.
    + cbn [rev]. rewrite put_back_app, R3. cbn [obind put_back_all]. rewrite P1. cbn [obind]. auto.
Qed.
