(** What two threads expect of a queue: the k-th removal returns the k-th accepted item. *)
From Verif Require Import Base.

Section QueueConcSpec.
Context {A : Type}.

(** Items of the calls of enqueue that returned success. *)
Definition accepted (calls : list (A * Z)) : list A := map fst (filter (fun c => snd c =? 0) calls).

(** What the calls of dequeue and drop that returned success delivered. *)
Definition removals (calls : list (Z * option A)) : list (option A) := map snd (filter (fun c => fst c =? 0) calls).

(** Every removal took the item at its place in the order of acceptance; a drop delivers nothing. *)
Definition faithful (acc : list A) (rem : list (option A)) : Prop :=
  forall k o, nth_error rem k = Some o -> exists a, nth_error acc k = Some a /\ (o = None \/ o = Some a).

(** Who can interrupt whom: threads, enqueue called in an interrupt handler (it runs to its end), dequeue so. *)
Inductive mode := Threads | EnqueueHandler | DequeueHandler.

End QueueConcSpec.
