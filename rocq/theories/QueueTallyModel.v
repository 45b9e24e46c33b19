(** count of gel/collections/queue.h (QUEUE_DEFINITION) called while the enqueuing and the dequeuing thread of
    [QueueConcModel] run: the values its two loads return, as in [QueueAskModel]. *)
From Verif Require Import Base.

(** queue.h:39-41: the subtraction is made in int and converted to size_t (64 bits). *)
Definition asked_count (w r : Z) : Z := wrap 64 (w - r).
