(** Model of gel/collections/queue.h (the functions generated by QUEUE_DEFINITION).

    Simplifications: ITEM_TYPE is a type parameter; [items] is a list of NUM_ITEMS
    cells (arbitrary before init); NULL queue pointers are not modelled; size_t is
    64 bits, int 32 bits. *)
From Verif Require Import Base.

Section Queue.
Context {A : Type}.

(** queue.h:20-24. *)
Record queue := mkQueue { read_idx : Z; write_idx : Z; items : list A }.

(** queue.h:17, ARRAY_LENGTH. *)
Definition capacity (q : queue) : Z := zlen (items q).

(** queue.h:34-37. *)
Definition queue_init (q : queue) : queue := mkQueue 0 0 (items q).

(** queue.h:39-41: an int difference converted to size_t. *)
Definition queue_count (q : queue) : Z := wrap 64 (write_idx q - read_idx q).

(** queue.h:43-54; ENQUEUE_RESULT_SUCCESS is 0, ENQUEUE_RESULT_FULL is 1. *)
Definition queue_enqueue (q : queue) (new_item : A) : outcome (queue * Z) :=
  let elements_in := wrap 16 (write_idx q - read_idx q) in
  if elements_in =? capacity q then Done (q, 1)
  else
    let i := wrap 16 (Z.land (write_idx q) (wrap 64 (capacity q - 1))) in
    do its <- zset (items q) i new_item;
    Done (mkQueue (read_idx q) (wrap 16 (write_idx q + 1)) its, 0).

(** queue.h:56-69; [present] tells whether p_item_out is non-NULL;
    DEQUEUE_RESULT_SUCCESS is 0, DEQUEUE_RESULT_EMPTY is 1. *)
Definition queue_dequeue (q : queue) (present : bool) : outcome (queue * (Z * option A)) :=
  let elements_in := wrap 16 (write_idx q - read_idx q) in
  if elements_in =? 0 then Done (q, (1, None))
  else
    let i := wrap 16 (Z.land (read_idx q) (wrap 64 (capacity q - 1))) in
    let q' := mkQueue (wrap 16 (read_idx q + 1)) (write_idx q) (items q) in
    if present then do a <- zget (items q) i; Done (q', (0, Some a))
    else Done (q', (0, None)).

(** queue.h:71-73. *)
Definition queue_drop (q : queue) : outcome (queue * (Z * option A)) := queue_dequeue q false.

(** queue.h:75-77 (difference of ints, no wrap). *)
Definition queue_is_empty (q : queue) : bool := write_idx q - read_idx q =? 0.

(** queue.h:79-84. *)
Definition queue_is_full (q : queue) : bool :=
  wrap 16 (write_idx q - read_idx q) =? capacity q.

End Queue.
Arguments queue : clear implicits.
