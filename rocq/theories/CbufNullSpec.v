(** What calls with NULL pointers and on structures that were never initialised are to answer. *)
From Verif Require Import Base CbufSpec.

Section CbufNullSpec.
Context {A : Type}.

(** A user's calls: an initialisation with a buffer ([None]: NULL) and a size, or another call. *)
Inductive nop := Init (b : option (list A)) (size : Z) | Call (o : op A).

(** Answers for a NULL [cbuf]: an empty buffer without capacity that is not full, errors otherwise. *)
Definition null_answer (o : op A) : out A :=
  match o with
  | Reset => (0, [])
  | IsEmpty => (1, [])
  | IsFull | Capacity | Size => (0, [])
  | Putc _ | Getc | Puts _ _ | Gets _ | Peek _ | Drop _ => (-1, [])
  end.

(** The same with initialisations, which all fail. *)
Definition null_reply (o : nop) : out A := match o with Init _ _ => (1, []) | Call o => null_answer o end.

(** Answers for a zeroed structure: errors; it counts as empty, and its capacity is 0 - 1 as a size_t.  [None]: no answer, the call divides by 0. *)
Definition blank_answer (o : op A) : option (out A) :=
  match o with
  | Reset => Some (0, [])
  | IsEmpty => Some (1, [])
  | Capacity => Some (2 ^ 64 - 1, [])
  | Putc _ | Getc | Puts _ _ => Some (-1, [])
  | IsFull | Size | Gets _ | Peek _ | Drop _ => None
  end.

Definition starts (o : nop) : bool := match o with Init (Some _) n => 0 <? n | _ => false end.

(** Calls that answer on a zeroed structure, until the first initialisation that succeeds. *)
Fixpoint careful (h : list nop) : Prop :=
  match h with
  | [] => True
  | Init b n :: h' => if starts (Init b n) then True else careful h'
  | Call o :: h' => blank_answer o <> None /\ careful h'
  end.

End CbufNullSpec.
Arguments nop : clear implicits.
