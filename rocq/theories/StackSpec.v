(** What a user expects of the typed stack: the list of stored items, top first. *)
From Verif Require Import Base.

Section StackSpec.
Context {A : Type}.

(** [Pop] asks for the item, [PopNull] passes a NULL output pointer. *)
Inductive sop := Push (a : A) | Pop | PopNull | Dequeue | IsEmpty | IsFull.

Definition sspec_step (cap : Z) (s : list A) (o : sop) : list A * (Z * list A) :=
  let n := Z.of_nat (length s) in
  match o with
  | Push a => if n <? cap then (a :: s, (0, [])) else (s, (1, []))
  | Pop => match s with [] => ([], (1, [])) | a :: s' => (s', (0, [a])) end
  | PopNull => match s with [] => ([], (1, [])) | a :: s' => (s', (0, [])) end
  | Dequeue => (removelast s, (0, []))
  | IsEmpty => (s, (if n =? 0 then 1 else 0, []))
  | IsFull => (s, (if n =? cap then 1 else 0, []))
  end.

Fixpoint sspec_run (cap : Z) (s : list A) (ops : list sop) : list A * list (Z * list A) :=
  match ops with
  | [] => (s, [])
  | o :: rest =>
      let (s', r) := sspec_step cap s o in
      let (s'', rs) := sspec_run cap s' rest in (s'', r :: rs)
  end.

(** What peek should answer. *)
Definition peek_spec (s : list A) : Z * option A :=
  match s with [] => (1, None) | a :: _ => (0, Some a) end.

End StackSpec.
Arguments sop : clear implicits.
