(** The queries of gel/collections/circular_buffer.c (lines 90-124, "ALWAYS THREAD SAFE") made while the producer and the
    consumer of [SpscModel] run.

    A query is modelled by the values its loads of head and tail return; every load may happen at any moment of the
    call, in any order (C leaves the order of evaluation open and the members are not volatile).  [bufsize] never changes.
    size_t is 64 bits, int 32 bits. *)
From Verif Require Import Base CbufModel SpscModel.

(** circular_buffer.c:93-98. *)
Definition observed_empty (h t : Z) : bool := h =? t.

(** circular_buffer.c:100-105. *)
Definition observed_full (n h t : Z) : bool := (wrap 64 (h + 1)) mod n =? t.

(** circular_buffer.c:107-124: tail and head copied into ints, then the loads of is_circular_buf_full. *)
Definition observed_size (n t h h' t' : Z) : Z :=
  let t := swrap 32 t in
  let h := swrap 32 h in
  if negb (observed_full n h' t') then
    if t <=? h then wrap 64 (h - t)
    else wrap 64 (n + h - t)
  else n.

Section Runs.
Context {A : Type}.

(** Consecutive states. *)
Fixpoint run_of (R : sys A -> sys A -> Prop) (s : sys A) (l : list (sys A)) : Prop :=
  match l with [] => True | s' :: l' => R s s' /\ run_of R s' l' end.

(** Both threads run. *)
Definition both (s s' : sys A) : Prop := pstep s s' \/ cstep s s'.
End Runs.
