(** Model of gel/collections/stack.h (the functions generated by STACK_DEFINITION).

    Simplifications: ITEM_TYPE is a type parameter; [items] is a list of NUM_ITEMS
    cells; the struct's unused field [num] is dropped; size_t is 64 bits, int 32. *)
From Verif Require Import Base.

Section Stack.
Context {A : Type}.

(** stack.h:19-22. *)
Record stack := mkStack { idx : Z; sitems : list A }.

(** stack.h:16, ARRAY_LENGTH. *)
Definition scapacity (s : stack) : Z := zlen (sitems s).

(** stack.h:32-34. *)
Definition stack_init (s : stack) : stack := mkStack 0 (sitems s).

(** stack.h:36-44; PUSH_RESULT_SUCCESS is 0, PUSH_RESULT_FULL is 1. *)
Definition stack_push (s : stack) (new_item : A) : outcome (stack * Z) :=
  if idx s =? scapacity s then Done (s, 1)
  else
    do its <- zset (sitems s) (idx s) new_item;
    Done (mkStack (wrap 16 (idx s + 1)) its, 0).

(** stack.h:46-56; [present]: p_item_out non-NULL; POP_RESULT_EMPTY is 1. *)
Definition stack_pop (s : stack) (present : bool) : outcome (stack * (Z * option A)) :=
  if idx s =? 0 then Done (s, (1, None))
  else
    let s' := mkStack (wrap 16 (idx s - 1)) (sitems s) in
    if present then do a <- zget (sitems s) (idx s - 1); Done (s', (0, Some a))
    else Done (s', (0, None)).

(** stack.h:58-67. *)
Definition stack_peek (s : stack) (present : bool) : outcome (Z * option A) :=
  if idx s =? 0 then Done (1, None)
  else if present then do a <- zget (sitems s) (idx s); Done (0, Some a)
  else Done (0, None).

(** stack.h:71-73, the for loop, from [i] on; the fuel is the number of remaining
    iterations and always suffices. *)
Fixpoint shift_loop (fuel : nat) (i bound : Z) (its : list A) : outcome (list A) :=
  if i <? bound then
    match fuel with
    | O => Timeout
    | S fuel' =>
        do a <- zget its (i + 1);
        do its' <- zset its i a;
        shift_loop fuel' (i + 1) bound its'
    end
  else Done its.

(** stack.h:69-77. *)
Definition stack_dequeue (s : stack) : outcome stack :=
  if 0 <? idx s then
    do its <- shift_loop (Z.to_nat (idx s)) 0 (idx s - 1) (sitems s);
    Done (mkStack (wrap 16 (idx s - 1)) its)
  else Done s.

(** stack.h:79-81. *)
Definition stack_is_empty (s : stack) : bool := idx s =? 0.

(** stack.h:83-86. *)
Definition stack_is_full (s : stack) : bool := idx s =? scapacity s.

End Stack.
Arguments stack : clear implicits.
