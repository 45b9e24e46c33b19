(** What a user expects of the typed queue: a bounded FIFO, as the list of queued items,
    oldest first. *)
From Verif Require Import Base.

Section QueueSpec.
Context {A : Type}.

Inductive qop := Enqueue (a : A) | Dequeue | Drop | IsEmpty | IsFull.

Definition queued (q : list A) : Z := Z.of_nat (length q).

(** Result of a call: returned number and delivered items. *)
Definition qspec_step (cap : Z) (q : list A) (o : qop) : list A * (Z * list A) :=
  match o with
  | Enqueue a => if queued q <? cap then (q ++ [a], (0, [])) else (q, (1, []))
  | Dequeue => match q with [] => ([], (1, [])) | a :: q' => (q', (0, [a])) end
  | Drop => match q with [] => ([], (1, [])) | a :: q' => (q', (0, [])) end
  | IsEmpty => (q, (if queued q =? 0 then 1 else 0, []))
  | IsFull => (q, (if queued q =? cap then 1 else 0, []))
  end.

Fixpoint qspec_run (cap : Z) (q : list A) (ops : list qop) : list A * list (Z * list A) :=
  match ops with
  | [] => (q, [])
  | o :: rest =>
      let (q', r) := qspec_step cap q o in
      let (q'', rs) := qspec_run cap q' rest in (q'', r :: rs)
  end.

(** Number of items accepted and of items removed by a history, from its results. *)
Definition accepted (o : qop) (r : Z * list A) : Z :=
  match o with Enqueue _ => if fst r =? 0 then 1 else 0 | _ => 0 end.
Definition removed (o : qop) (r : Z * list A) : Z :=
  match o with Dequeue | Drop => if fst r =? 0 then 1 else 0 | _ => 0 end.
Fixpoint total (f : qop -> Z * list A -> Z) (ops : list qop) (rs : list (Z * list A)) : Z :=
  match ops, rs with
  | o :: ops', r :: rs' => f o r + total f ops' rs'
  | _, _ => 0
  end.

End QueueSpec.
Arguments qop : clear implicits.
