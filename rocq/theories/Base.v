(** Shared vocabulary of all models: outcomes of C code, machine integers and
    bounded memory regions. *)
From Coq Require Export ZArith List Bool Lia.
Export ListNotations.
Open Scope Z_scope.

(** Outcome of executing a piece of C code. *)
Inductive outcome (A : Type) : Type :=
| Done (a : A)   (* returned normally with result [a] *)
| Undef          (* executed something ISO C leaves undefined *)
| Abort          (* a failing [assert] *)
| Timeout.       (* loop fuel exhausted: says nothing about the program *)
Arguments Done {A} _.
Arguments Undef {A}.
Arguments Abort {A}.
Arguments Timeout {A}.

Definition obind {A B} (x : outcome A) (f : A -> outcome B) : outcome B :=
  match x with
  | Done a => f a
  | Undef => Undef
  | Abort => Abort
  | Timeout => Timeout
  end.

Notation "'do' x <- e ; f" := (obind e (fun x => f))
  (at level 200, x pattern, e at level 100, f at level 200, right associativity).

(** Conversion to an unsigned [w]-bit type (C: reduction modulo 2^w). *)
Definition wrap (w x : Z) : Z := x mod 2 ^ w.

(** Conversion to a signed [w]-bit two's complement type (gcc: reduction modulo 2^w). *)
Definition swrap (w x : Z) : Z :=
  let y := x mod 2 ^ w in if y <? 2 ^ (w - 1) then y else y - 2 ^ w.

Definition INT_MAX : Z := 2147483647.
Definition INT_MIN : Z := -2147483648.

(** Length of a memory region as a machine integer. *)
Definition zlen {A} (l : list A) : Z := Z.of_nat (length l).

(** Read of cell [i]; out of bounds is undefined. *)
Definition zget {A} (l : list A) (i : Z) : outcome A :=
  if (i <? 0) then Undef
  else match nth_error l (Z.to_nat i) with Some a => Done a | None => Undef end.

(** Replacement of cell [i] in a list; identity when [i] is past the end. *)
Fixpoint upd {A} (l : list A) (i : nat) (a : A) : list A :=
  match l, i with
  | [], _ => []
  | _ :: t, O => a :: t
  | h :: t, S j => h :: upd t j a
  end.

(** Write of cell [i]; out of bounds is undefined. *)
Definition zset {A} (l : list A) (i : Z) (a : A) : outcome (list A) :=
  if (i <? 0) || (zlen l <=? i) then Undef else Done (upd l (Z.to_nat i) a).

(** [memcpy] out of a region: [n] cells from [off]. *)
Definition zread {A} (l : list A) (off n : Z) : outcome (list A) :=
  if (off <? 0) || (n <? 0) || (zlen l <? off + n) then Undef
  else Done (firstn (Z.to_nat n) (skipn (Z.to_nat off) l)).

(** [memcpy] into a region: all cells of [d] at [off]. *)
Definition zwrite {A} (l : list A) (off : Z) (d : list A) : outcome (list A) :=
  if (off <? 0) || (zlen l <? off + zlen d) then Undef
  else Done (firstn (Z.to_nat off) l ++ d ++ skipn (Z.to_nat off + length d) l).

Definition b2z (b : bool) : Z := if b then 1 else 0.
