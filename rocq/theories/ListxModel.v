(** Model of gel/collections/listx.h.

    The heap maps the address of every existing list_head to its two fields; 0 is NULL and reading or
    writing an address that is not mapped is undefined. *)
From Verif Require Import Base.

(** listx.h:56-58: [Some (next, prev)]. *)
Definition heap : Type := Z -> option (Z * Z).

Definition put (h : heap) (a : Z) (v : Z * Z) : heap := fun x => if x =? a then Some v else h x.

Definition get_next (h : heap) (a : Z) : outcome Z := match h a with Some (n, _) => Done n | None => Undef end.
Definition get_prev (h : heap) (a : Z) : outcome Z := match h a with Some (_, p) => Done p | None => Undef end.
Definition set_next (h : heap) (a v : Z) : outcome heap := match h a with Some (_, p) => Done (put h a (v, p)) | None => Undef end.
Definition set_prev (h : heap) (a v : Z) : outcome heap := match h a with Some (n, _) => Done (put h a (n, v)) | None => Undef end.

(** listx.h:92-96; also LIST_HEAD_INIT and LIST_HEAD (70-79). *)
Definition INIT_LIST_HEAD (h : heap) (list : Z) : outcome heap :=
  do h <- set_next h list list; set_prev h list list.

(** listx.h:105-113. *)
Definition list_add_ (h : heap) (new prev next : Z) : outcome heap :=
  do h <- set_prev h next new;
  do h <- set_next h new next;
  do h <- set_prev h new prev;
  set_next h prev new.

(** listx.h:123-126. *)
Definition list_add (h : heap) (new head : Z) : outcome heap :=
  do n <- get_next h head; list_add_ h new head n.

(** listx.h:136-139. *)
Definition list_add_tail (h : heap) (new head : Z) : outcome heap :=
  do p <- get_prev h head; list_add_ h new p head.

(** listx.h:149-153. *)
Definition list_del_ (h : heap) (prev next : Z) : outcome heap :=
  do h <- set_prev h next prev; set_next h prev next.

(** listx.h:162-165. *)
Definition list_del (h : heap) (entry : Z) : outcome heap :=
  do p <- get_prev h entry; do n <- get_next h entry; list_del_ h p n.

(** listx.h:175-179. *)
Definition list_is_last (h : heap) (list head : Z) : outcome Z :=
  do n <- get_next h list; Done (if n =? head then 1 else 0).

(** listx.h:188-191. *)
Definition list_empty (h : heap) (head : Z) : outcome Z :=
  do n <- get_next h head; Done (if n =? head then 1 else 0).

(** listx.h:201-207. *)
Definition list_next (h : heap) (current : Z) : outcome Z :=
  do e <- list_empty h current; if e =? 0 then get_next h current else Done 0.

(** listx.h:217-223. *)
Definition list_prev (h : heap) (current : Z) : outcome Z :=
  do e <- list_empty h current; if e =? 0 then get_prev h current else Done 0.

Section Loops.
(** The body of the loop: reads [pos], may change the heap. *)
Variable body : heap -> Z -> outcome heap.

(** The loop of list_for_each and list_for_each_prev; collects the values of [pos] the body sees. *)
Fixpoint walk (step : heap -> Z -> outcome Z) (fuel : nat) (h : heap) (pos head : Z) : outcome (heap * list Z) :=
  match fuel with
  | O => Timeout
  | S fuel =>
      if pos =? head then Done (h, []) else
      do h <- body h pos;
      do pos' <- step h pos;
      do (h, seen) <- walk step fuel h pos' head;
      Done (h, pos :: seen)
  end.

(** listx.h:242-243. *)
Definition list_for_each (fuel : nat) (h : heap) (head : Z) : outcome (heap * list Z) :=
  do pos <- get_next h head; walk get_next fuel h pos head.

(** listx.h:251-252. *)
Definition list_for_each_prev (fuel : nat) (h : heap) (head : Z) : outcome (heap * list Z) :=
  do pos <- get_prev h head; walk get_prev fuel h pos head.

(** listx.h:29-31 with the offset of the member; addresses do not wrap. *)
Definition container_of (ptr offset : Z) : Z := ptr - offset.

(** The loop of the two entry macros: [pos] is the address of the structure, &pos->member is
    [pos + offset].  The body gets the structure. *)
Fixpoint walk_entry (step : heap -> Z -> outcome Z) (offset : Z) (fuel : nat) (h : heap) (pos head : Z)
  : outcome (heap * list Z) :=
  match fuel with
  | O => Timeout
  | S fuel =>
      if pos + offset =? head then Done (h, []) else
      do h <- body h pos;
      do pos' <- step h (pos + offset);
      do (h, seen) <- walk_entry step offset fuel h (container_of pos' offset) head;
      Done (h, pos :: seen)
  end.

(** listx.h:263-266. *)
Definition list_for_each_entry (offset : Z) (fuel : nat) (h : heap) (head : Z) : outcome (heap * list Z) :=
  do pos <- get_next h head; walk_entry get_next offset fuel h (container_of pos offset) head.

(** listx.h:275-278. *)
Definition list_for_each_entry_reverse (offset : Z) (fuel : nat) (h : heap) (head : Z) : outcome (heap * list Z) :=
  do pos <- get_prev h head; walk_entry get_prev offset fuel h (container_of pos offset) head.

End Loops.
