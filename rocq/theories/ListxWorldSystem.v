(** Histories of calls on any number of lists; removals and their undoing. *)
From Verif Require Import Base ListxModel ListxWorldSpec.

Definition lcall_run (h : heap) (o : lcall) : outcome heap :=
  match o with
  | LInit head => INIT_LIST_HEAD h head
  | LAdd new at_ => list_add h new at_
  | LAddTail new at_ => list_add_tail h new at_
  | LDel e => list_del h e
  end.

Fixpoint lruns (h : heap) (ops : list lcall) : outcome heap :=
  match ops with [] => Done h | o :: ops' => do h <- lcall_run h o; lruns h ops' end.

(** A removed node put back between the neighbours it remembers: __list_add(e, e->prev, e->next). *)
Definition put_back (h : heap) (e : Z) : outcome heap :=
  do p <- get_prev h e; do n <- get_next h e; list_add_ h e p n.

Fixpoint put_back_all (h : heap) (es : list Z) : outcome heap :=
  match es with [] => Done h | e :: es' => do h <- put_back h e; put_back_all h es' end.
