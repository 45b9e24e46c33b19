(** Properties C11-C12: the typed stack. *)
From Verif Require Import Base StackModel StackSpec StackSystem StackProofs.

(** C11: every history after init behaves like a list used as a stack whose bottom can
    be removed, bounded by the number of cells. *)
Theorem stack_lifo : forall (A : Type) (s : stack A) (ops : list (sop A)),
  zlen (sitems s) <= 65535 ->
  exists s', stack_run (stack_init s) ops = Done (s', snd (sspec_run (zlen (sitems s)) [] ops)).
Proof. exact @stack_lifo_l. Qed.
Print Assumptions stack_lifo.

Example stack_lifo_example :
  zlen (sitems (mkStack 77 [0; 0; 0])) <= 65535 /\
  snd (sspec_run (zlen [0; 0; 0]) [] [Push 1; Push 2; Push 3; Push 4; IsFull; Dequeue; Pop; Pop; Pop; IsEmpty])
  = [(0, []); (0, []); (0, []); (1, []); (1, []); (0, []); (0, [3]); (0, [2]); (1, []); (1, [])].
Proof. split; [discriminate|reflexivity]. Qed.

(** C12 refuted, for every capacity: on a full stack peek reads outside the array. *)
Theorem stack_peek_refuted : forall (A : Type) (s : stack A) (a : A),
  1 <= zlen (sitems s) <= 65535 ->
  exists ops s' rs, stack_run (stack_init s) ops = Done (s', rs) /\
    (exists l, fst (sspec_run (zlen (sitems s)) [] ops) = a :: l) /\
    stack_peek s' true = Undef.
Proof. exact @stack_peek_refuted_l. Qed.
Print Assumptions stack_peek_refuted.

(** C12 refuted without leaving the array: after push 1, push 2, pop, peek answers 2
    although the top is 1. *)
Theorem stack_peek_wrong_refuted :
  exists (s s' : stack Z) ops rs,
    stack_run (stack_init s) ops = Done (s', rs) /\
    fst (sspec_run (zlen (sitems s)) [] ops) = [1] /\
    stack_peek s' true = Done (0, Some 2).
Proof.
  exists (mkStack 0 [0; 0; 0]), (mkStack 1 [1; 2; 0]), [Push 1; Push 2; Pop]. eexists.
  split; [vm_compute; reflexivity|]. split; reflexivity.
Qed.
Print Assumptions stack_peek_wrong_refuted.

(** C12, what holds: the returned code is right on every non-full stack, and the stack is
    not modified ([stack_peek] returns no new state).  With a NULL destination the code is
    right on every stack, full or not.  Missing: the delivered item. *)
Theorem stack_peek_code_partial : forall (A : Type) (s : stack A) (ops : list (sop A)),
  zlen (sitems s) <= 65535 ->
  let cap := zlen (sitems s) in
  let l := fst (sspec_run cap [] ops) in
  exists s', stack_run (stack_init s) ops = Done (s', snd (sspec_run cap [] ops)) /\
    (l = [] -> stack_peek s' true = Done (1, None)) /\
    (l <> [] -> zlen l < cap -> exists x, stack_peek s' true = Done (0, Some x)) /\
    (l <> [] -> zlen l = cap -> stack_peek s' true = Undef) /\
    stack_peek s' false = Done (fst (peek_spec l), None).
Proof. exact @stack_peek_partial_l. Qed.
Print Assumptions stack_peek_code_partial.

(** C12: right after a pop that leaves the stack non-empty, peek shows the item just
    removed instead of the new top. *)
Theorem stack_peek_stale_partial : forall (A : Type) (s : stack A) ops a b l,
  zlen (sitems s) <= 65535 ->
  fst (sspec_run (zlen (sitems s)) [] ops) = a :: b :: l ->
  exists s' rs, stack_run (stack_init s) (ops ++ [Pop]) = Done (s', rs) /\
    stack_peek s' true = Done (0, Some a).
Proof. exact @stack_peek_stale_l. Qed.
Print Assumptions stack_peek_stale_partial.
