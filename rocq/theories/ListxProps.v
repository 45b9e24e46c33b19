(** Properties C13-C15 and C100: intrusive lists. *)
From Verif Require Import Base BaseLemmas ListxModel ListxSpec ListxSystem ListxProofs.

(** C13: initialisation, insertion at both ends, removal of any node.  [same_outside] says that no node
    outside of the list (and the new one) changes, so that other lists live on (see [listx_others]). *)
Theorem listx_init : forall h head, h head <> None ->
  exists h', INIT_LIST_HEAD h head = Done h' /\ holds h' head [] /\ same_outside [head] h h'.
Proof. exact init_l. Qed.
Print Assumptions listx_init.

Theorem listx_add : forall h head l new, holds h head l -> ~ In new (head :: l) -> h new <> None ->
  exists h', list_add h new head = Done h' /\ holds h' head (new :: l) /\ same_outside (new :: head :: l) h h'.
Proof.
  intros h head l new Hh Hn Hm. unfold list_add, get_next. rewrite (ends _ _ _ Hh). cbn [obind].
  destruct (insert_l h head [] l new Hh Hn Hm) as (h' & E & H1 & H2 & _). exists h'. auto.
Qed.
Print Assumptions listx_add.

Theorem listx_add_tail : forall h head l new, holds h head l -> ~ In new (head :: l) -> h new <> None ->
  exists h', list_add_tail h new head = Done h' /\ holds h' head (l ++ [new]) /\ same_outside (new :: head :: l) h h'.
Proof.
  intros h head l new Hh Hn Hm. unfold list_add_tail, get_prev. rewrite (ends _ _ _ Hh). cbn [obind].
  destruct (insert_l h head l [] new) as (h' & E & H1 & H2 & _); [now rewrite app_nil_r|now rewrite app_nil_r|exact Hm|].
  exists h'. rewrite app_nil_r in H2. auto.
Qed.
Print Assumptions listx_add_tail.

(** Insertion between any two neighbours with __list_add. *)
Theorem listx_insert : forall h head l1 l2 new, holds h head (l1 ++ l2) -> ~ In new (head :: l1 ++ l2) -> h new <> None ->
  exists h', list_add_ h new (last l1 head) (hd head l2) = Done h' /\
    holds h' head (l1 ++ new :: l2) /\ same_outside (new :: head :: l1 ++ l2) h h'.
Proof.
  intros h head l1 l2 new Hh Hn Hm. destruct (insert_l h head l1 l2 new Hh Hn Hm) as (h' & E & H1 & H2 & _). exists h'. auto.
Qed.
Print Assumptions listx_insert.

(** The removed node itself keeps its stale links. *)
Theorem listx_del : forall h head l1 e l2, holds h head (l1 ++ e :: l2) ->
  exists h', list_del h e = Done h' /\ holds h' head (l1 ++ l2) /\ same_outside (head :: l1 ++ l2) h h' /\ h' e = h e.
Proof.
  intros h head l1 e l2 Hh. destruct (delete_l h head l1 e l2 Hh) as (h' & E & H1 & H2 & _). exists h'.
  split; [exact E|]. split; [exact H1|]. split; [exact H2|]. apply H2. destruct Hh as [Hnd _].
  change (head :: l1 ++ e :: l2) with ((head :: l1) ++ e :: l2) in Hnd. now apply NoDup_remove_2 in Hnd.
Qed.
Print Assumptions listx_del.

(** Any list whose nodes are not among those an operation works on survives it. *)
Theorem listx_others : forall h h' s head l, same_outside s h h' -> holds h head l ->
  (forall a, In a (head :: l) -> ~ In a s) -> holds h' head l.
Proof. intros h h' s head l Hs Hh Hd. apply (holds_same h h' head l Hh). intros a Ha. apply Hs. now apply Hd. Qed.
Print Assumptions listx_others.

(** The contents of a heap are determined: no heap holds two lists under one head. *)
Theorem listx_unique : forall h head l l', holds h head l -> holds h head l' -> l = l'.
Proof.
  intros h head l l' H1 H2.
  destruct (walk_next_l (fun _ => false) head l [] h (S (length l + length l'))) as (h1 & E1 & _); [exact H1|exact (proj1 H1)|lia|].
  destruct (walk_next_l (fun _ => false) head l' [] h (S (length l + length l'))) as (h2 & E2 & _); [exact H2|exact (proj1 H2)|lia|].
  pose proof (ends _ _ _ H1) as D1. pose proof (ends _ _ _ H2) as D2. rewrite D1 in D2. injection D2 as D3 _.
  rewrite D3 in E1. rewrite E1 in E2. now injection E2.
Qed.
Print Assumptions listx_unique.

(** C14: both directions, plain and entry loops, any body that does not touch the heap. *)
Theorem listx_traverse : forall h head l off fuel, holds h head l -> (length l < fuel)%nat ->
  list_for_each reader fuel h head = Done (h, l) /\
  list_for_each_prev reader fuel h head = Done (h, rev l) /\
  list_for_each_entry reader off fuel h head = Done (h, map (fun a => a - off) l) /\
  list_for_each_entry_reverse reader off fuel h head = Done (h, map (fun a => a - off) (rev l)).
Proof.
  intros h head l off fuel Hh Hf.
  assert (G : forall step pos n fuel' hh r, walk (remover (fun _ => false)) step fuel' hh pos n = Done r ->
             fst r = hh /\ walk reader step fuel' hh pos n = Done r).
  { intros step pos n fuel'. revert pos. induction fuel' as [|fuel' IH]; intros pos hh r H; [discriminate|]. cbn [walk] in *.
    destruct (pos =? n); [injection H as <-; auto|]. unfold remover at 1 in H. unfold reader at 1. cbn [obind] in *.
    destruct (step hh pos) as [p'| | |]; try discriminate. cbn [obind] in *.
    destruct (walk (remover (fun _ => false)) step fuel' hh p' n) as [r'| | |] eqn:E; try discriminate.
    destruct (IH _ _ _ E) as [F1 F2]. destruct r' as [h' seen]. cbn [fst obind] in *. subst h'.
    injection H as <-. rewrite F2. auto. }
  assert (W1 : walk reader get_next fuel h (right_of head l) head = Done (h, l)).
  { destruct (walk_next_l (fun _ => false) head l [] h fuel Hh (proj1 Hh) Hf) as (h' & E & _).
    destruct (G _ _ _ _ _ _ E) as [F1 F2]. cbn in F1. subst. exact F2. }
  assert (W2 : walk reader get_prev fuel h (left_of head l) head = Done (h, rev l)).
  { destruct (walk_prev_l (fun _ => false) head l [] h fuel) as (h' & E & _); [cbn [filter]; now rewrite app_nil_r|rewrite app_nil_r; exact (proj1 Hh)|exact Hf|].
    destruct (G _ _ _ _ _ _ E) as [F1 F2]. cbn in F1. subst. exact F2. }
  unfold list_for_each, list_for_each_prev, list_for_each_entry, list_for_each_entry_reverse, get_next at 1, get_next at 2, get_prev at 1, get_prev at 2.
  rewrite (ends _ _ _ Hh). cbn [obind]. split; [exact W1|]. split; [exact W2|].
  rewrite !walk_entry_l. change (fun (h : heap) (p : Z) => reader h (container_of p off)) with reader.
  rewrite W1, W2. cbn [obind fst snd]. split; reflexivity.
Qed.
Print Assumptions listx_traverse.

(** C100: the body may remove the node it is looking at: every node is still visited once, in order, and the
    list is left with the nodes that were not removed. *)
Theorem listx_remove_while_traversing : forall f h head l off fuel, holds h head l -> (length l < fuel)%nat ->
  let kept := filter (fun a => negb (f a)) l in
  (exists h', list_for_each (remover f) fuel h head = Done (h', l) /\ holds h' head kept /\ same_outside (head :: l) h h') /\
  (exists h', list_for_each_prev (remover f) fuel h head = Done (h', rev l) /\ holds h' head kept /\ same_outside (head :: l) h h') /\
  (exists h', list_for_each_entry (entry_remover f off) off fuel h head = Done (h', map (fun a => a - off) l) /\
     holds h' head kept /\ same_outside (head :: l) h h').
Proof.
  intros f h head l off fuel Hh Hf kept.
  unfold list_for_each, list_for_each_prev, list_for_each_entry, get_next at 1, get_next at 2, get_prev at 1.
  rewrite (ends _ _ _ Hh). cbn [obind].
  destruct (walk_next_l f head l [] h fuel Hh (proj1 Hh) Hf) as (h1 & E1 & H1 & S1).
  destruct (walk_prev_l f head l [] h fuel) as (h2 & E2 & H2 & S2); [cbn [filter]; now rewrite app_nil_r|rewrite app_nil_r; exact (proj1 Hh)|exact Hf|].
  rewrite app_nil_r in H2, S2. split; [exists h1; auto|]. split; [exists h2; auto|]. exists h1. split; [|auto].
  rewrite walk_entry_l.
  assert (G : forall fuel' hh pos, walk (fun h p => entry_remover f off h (container_of p off)) get_next fuel' hh pos head =
              walk (remover f) get_next fuel' hh pos head).
  { induction fuel' as [|fuel' IH]; intros hh pos; [reflexivity|]. cbn [walk]. unfold entry_remover at 1, container_of at 1.
    replace (pos - off + off) with pos by lia. destruct (pos =? head); [reflexivity|].
    destruct (remover f hh pos) as [h'| | |]; cbn [obind]; try reflexivity.
    destruct (get_next h' pos) as [p'| | |]; cbn [obind]; try reflexivity. now rewrite IH. }
  rewrite G, E1. reflexivity.
Qed.
Print Assumptions listx_remove_while_traversing.

(** C15: queries; the sentinel counts as the neighbour of the first and the last node. *)
Theorem listx_head_queries : forall h head l, holds h head l ->
  list_empty h head = Done (match l with [] => 1 | _ => 0 end) /\
  list_next h head = Done (match l with [] => 0 | x :: _ => x end) /\
  list_prev h head = Done (match l with [] => 0 | _ => last l head end).
Proof.
  intros h head l Hh. unfold list_next, list_prev, list_empty, get_next, get_prev. rewrite (ends _ _ _ Hh). cbn [obind].
  destruct l as [|x l]; cbn [right_of hd].
  - rewrite Z.eqb_refl. cbn. auto.
  - destruct (Z.eqb_spec x head) as [->|Hx]; [destruct Hh as [Hnd _]; inversion Hnd as [|? ? H _]; exfalso; apply H; now left|].
    cbn [Z.eqb]. auto.
Qed.
Print Assumptions listx_head_queries.

Theorem listx_node_queries : forall h head l1 e l2, holds h head (l1 ++ e :: l2) ->
  list_is_last h e head = Done (match l2 with [] => 1 | _ => 0 end) /\
  list_empty h e = Done 0 /\
  list_next h e = Done (match l2 with [] => head | x :: _ => x end) /\
  list_prev h e = Done (last l1 head).
Proof.
  intros h head l1 e l2 Hh. unfold list_next, list_prev, list_is_last, list_empty, get_next, get_prev. rewrite (node _ _ _ _ _ Hh). cbn [obind].
  destruct Hh as [Hnd _]. inversion Hnd as [|? ? Hn1 Hn2]; subst. apply NoDup_remove_2 in Hn2.
  assert (He : right_of head l2 <> e).
  { destruct l2 as [|x l2]; cbn [right_of hd]; intros ->.
    - apply Hn1. apply in_or_app. right. now left.
    - apply Hn2. apply in_or_app. right. now left. }
  destruct (Z.eqb_spec (right_of head l2) e) as [|_]; [contradiction|]. cbn [Z.eqb].
  destruct l2 as [|x l2]; cbn [right_of hd].
  - rewrite Z.eqb_refl. auto.
  - destruct (Z.eqb_spec x head) as [->|_]; [exfalso; apply Hn1; apply in_or_app; right; right; now left|]. auto.
Qed.
Print Assumptions listx_node_queries.

(** Two lists in one heap: 100 -> 10, 20, 30 and the empty 200; node 40 is free. *)
Definition lx_heap : heap := fun a =>
  if a =? 100 then Some (10, 30) else if a =? 10 then Some (20, 100) else if a =? 20 then Some (30, 10) else
  if a =? 30 then Some (100, 20) else if a =? 200 then Some (200, 200) else if a =? 40 then Some (0, 0) else None.

Example listx_example : holds lx_heap 100 [10; 20; 30] /\ holds lx_heap 200 [] /\ lx_heap 40 <> None /\ ~ In 40 [100; 10; 20; 30] /\
  exists h1 h2 h3, list_add_tail lx_heap 40 100 = Done h1 /\ list_del h1 20 = Done h2 /\ list_add h2 20 200 = Done h3 /\
    list_for_each reader 9 h3 100 = Done (h3, [10; 30; 40]) /\ list_for_each_prev reader 9 h3 200 = Done (h3, [20]).
Proof.
  split; [|split; [|split; [|split]]].
  - split; [repeat constructor; cbn; intuition discriminate|]. cbn. repeat split; eexists; reflexivity.
  - split; [repeat constructor; cbn; intuition discriminate|]. cbn. repeat split; eexists; reflexivity.
  - discriminate.
  - cbn. intuition discriminate.
  - do 3 eexists. split; [reflexivity|]. split; [reflexivity|]. split; [reflexivity|]. split; reflexivity.
Qed.
