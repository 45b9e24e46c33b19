(** Many lists at once, stale removals and undone removals: theorems for C188, C189 and C190. *)
From Verif Require Import Base ListxModel ListxSpec ListxSystem ListxProofs ListxWorldSpec ListxWorldSystem ListxWorldProofs.

(** Nine structures, not initialised. *)
Definition nine : heap := fun a => if (1 <=? a) && (a <=? 9) then Some (0, 0) else None.

(** * C188: any calls on any number of lists, nodes moving between them, leave exactly the lists of the specification. *)
Theorem listx_worlds : forall ops h w, holds_all h w -> wlegal w ops -> (forall o a, In o ops -> In a (brings o) -> h a <> None) ->
  exists h', lruns h ops = Done h' /\ holds_all h' (wrun w ops).
Proof. exact runs_l. Qed.
Print Assumptions listx_worlds.

(** Two lists; 4 is inserted before 3, 5 behind 3, 3 moves to the other list, the first head is used again. *)
Definition calls : list lcall :=
  [LInit 1; LInit 2; LAdd 3 1; LAddTail 4 3; LAdd 5 3; LAddTail 6 2; LDel 3; LAddTail 3 2; LInit 1; LAdd 4 1].
Example listx_worlds_case :
  holds_all nine [] /\ wlegal [] calls /\ (forall o a, In o calls -> In a (brings o) -> nine a <> None) /\
  wrun [] (firstn 5 calls) = [(1, [4; 3; 5]); (2, [])] /\ wrun [] (firstn 8 calls) = [(1, [4; 5]); (2, [6; 3])] /\
  wrun [] calls = [(1, [4]); (2, [6; 3])] /\
  (do h <- lruns nine calls; do r <- list_for_each reader 9 h 2; Done (snd r)) = Done [6; 3].
Proof.
  split; [split; constructor|]. split; [cbn; repeat split; intuition discriminate|].
  split; [|repeat split; vm_compute; reflexivity].
  intros o a Ho Ha. unfold calls in Ho. cbn [In] in Ho. repeat (destruct Ho as [<-|Ho]; [cbn in Ha; intuition subst; discriminate|]). contradiction.
Qed.

(** * C189: removing a node that is on no list changes no list.  Refuted: removed twice, with another node added between. *)
Theorem listx_del_again_refuted : exists h ops e h1 h2, lruns h ops = Done h1 /\ wlegal [] ops /\ ~ In e (everything (wrun [] ops)) /\
  holds h1 1 [3] /\ list_del h1 e = Done h2 /\ holds h2 1 [].
Proof.
  set (ops := [LInit 1; LAdd 2 1; LDel 2; LAdd 3 1]).
  destruct (listx_worlds ops nine []) as (h1 & R1 & A1); [split; constructor|cbn; repeat split; intuition discriminate| |].
  { intros o a Ho Ha. unfold ops in Ho. cbn [In] in Ho. repeat (destruct Ho as [<-|Ho]; [cbn in Ha; intuition subst; discriminate|]). contradiction. }
  assert (H1 : holds h1 1 [3]) by (destruct A1 as [_ A1]; exact (Forall_inv A1)).
  assert (E2 : h1 2 = Some (1, 1)) by (unfold ops in R1; cbn in R1; injection R1 as <-; reflexivity).
  destruct (stale_l h1 1 [] [3] [] 2 H1 E2) as (h2 & R2 & A2 & _).
  exists nine, ops, 2, h1, h2. split; [exact R1|]. split; [cbn; repeat split; intuition discriminate|]. split; [cbn; intuition discriminate|]. auto.
Qed.
Print Assumptions listx_del_again_refuted.

(** What happens: the nodes that came between its former neighbours get lost, none if there are none.  Missing: former
    neighbours that are not on one list in the same order any more. *)
Theorem listx_del_again_partial : forall h head l1 mid l2 e, holds h head (l1 ++ mid ++ l2) ->
  h e = Some (hd head l2, last l1 head) ->
  exists h', list_del h e = Done h' /\ holds h' head (l1 ++ l2) /\ same_outside (head :: l1 ++ l2) h h'.
Proof. exact stale_l. Qed.
Print Assumptions listx_del_again_partial.

Example listx_del_again_case :
  (do h <- lruns nine [LInit 1; LAddTail 2 1; LAddTail 3 1; LAddTail 4 1; LDel 3]; Done (h 3)) = Done (Some (hd 1 [4], last [2] 1)) /\
  (do h <- lruns nine [LInit 1; LAddTail 2 1; LAddTail 3 1; LAddTail 4 1; LDel 3; LDel 3]; do r <- list_for_each reader 9 h 1; Done (snd r)) = Done [2; 4] /\
  (do h <- lruns nine [LInit 1; LAddTail 2 1; LAddTail 3 1; LAddTail 4 1; LDel 3; LAdd 5 2; LAdd 6 5; LDel 3]; do r <- list_for_each reader 9 h 1; Done (snd r)) = Done [2; 4].
Proof. repeat split; vm_compute; reflexivity. Qed.

(** * C190: removals are undone in reverse order by putting each node back between the neighbours it remembers; every
      structure is as before. *)
Theorem listx_undo : forall es h head l, holds h head l -> NoDup es -> incl es l ->
  exists h1 h2, lruns h (map LDel es) = Done h1 /\ holds h1 head (filter (fun x => negb (existsb (Z.eqb x) es)) l) /\
    put_back_all h1 (rev es) = Done h2 /\ forall a, h2 a = h a.
Proof. exact undo_l. Qed.
Print Assumptions listx_undo.

(** 3 and 4 of 2, 3, 4, 5. *)
Example listx_undo_case :
  let start := [LInit 1; LAddTail 2 1; LAddTail 3 1; LAddTail 4 1; LAddTail 5 1] in
  (do h <- lruns nine start; do h <- lruns h (map LDel [3; 4]); do r <- list_for_each reader 9 h 1; Done (snd r)) = Done [2; 5] /\
  (do h <- lruns nine start; do h <- lruns h (map LDel [3; 4]); do h <- put_back_all h [4; 3]; do r <- list_for_each reader 9 h 1; Done (snd r)) = Done [2; 3; 4; 5].
Proof. repeat split; vm_compute; reflexivity. Qed.
