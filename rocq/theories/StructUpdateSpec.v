(** Specification of struct updates: the variables of the program, and for each update made so far what it holds, [None]
    once freed. *)
From Coq Require Import ZArith List Bool.
Import ListNotations.
Open Scope Z_scope.

Record state := mkState { vars : list Z; updates : list (option (Z * list Z)) }.

(** The history: [OMake off src n] makes an update for the field at [off] out of the [n] bytes at [src]; the others name
    an update by its number.  [OStore] is the program writing its own variables. *)
Inductive op :=
| OMake (off src n : Z)
| OApply (dest : Z) (i : nat)
| OFree (i : nat)
| OStore (a : Z) (d : list Z).

Definition read (v : list Z) (a n : Z) : list Z := firstn (Z.to_nat n) (skipn (Z.to_nat a) v).
Definition write (v : list Z) (a : Z) (d : list Z) : list Z := firstn (Z.to_nat a) v ++ d ++ skipn (Z.to_nat a + length d) v.

Definition within (v : list Z) (a n : Z) : Prop := 0 <= a /\ 0 <= n /\ a + n <= Z.of_nat (length v).

Fixpoint set_nth {A} (l : list A) (i : nat) (x : A) : list A :=
  match l, i with
  | [], _ => []
  | _ :: l', O => x :: l'
  | y :: l', S j => y :: set_nth l' j x
  end.

Definition step (s : state) (o : op) : state :=
  match o with
  | OMake off src n => mkState (vars s) (updates s ++ [Some (off, read (vars s) src n)])
  | OApply dest i =>
      match nth_error (updates s) i with
      | Some (Some (off, d)) => mkState (write (vars s) (dest + off) d) (updates s)
      | _ => s
      end
  | OFree i => mkState (vars s) (set_nth (updates s) i None)
  | OStore a d => mkState (write (vars s) a d) (updates s)
  end.

(** What a correct program may do: only live updates are used, all accesses are inside the variables, no update is empty. *)
Definition allowed (s : state) (o : op) : Prop :=
  match o with
  | OMake off src n => 0 < n /\ within (vars s) src n
  | OApply dest i => exists off d, nth_error (updates s) i = Some (Some (off, d)) /\ within (vars s) (dest + off) (Z.of_nat (length d))
  | OFree i => exists x, nth_error (updates s) i = Some (Some x)
  | OStore a d => within (vars s) a (Z.of_nat (length d))
  end.

Fixpoint steps (s : state) (ops : list op) : state :=
  match ops with [] => s | o :: ops' => steps (step s o) ops' end.
Fixpoint all_allowed (s : state) (ops : list op) : Prop :=
  match ops with [] => True | o :: ops' => allowed s o /\ all_allowed (step s o) ops' end.

Definition live (s : state) : nat := length (filter (fun u : option (Z * list Z) => match u with Some _ => true | None => false end) (updates s)).
