(** Model of gel/data_structures/struct_update.c and of the STRUCT_UPDATE_ARRAY macro.

    The memory is one region of bytes and pointers are offsets into it, the first [program] bytes being the
    variables of the program and the rest the heap; only variables and live blocks may be accessed.  What malloc
    answers is an argument: the block it returns, [None] for NULL (the code does not check). *)
From Verif Require Import Base.

(** struct_update.h:41-45. *)
Record struct_update := mkUpdate { offset : Z; data : Z; size : Z }.

Record memory := mkMemory { bytes : list Z; program : Z; blocks : list (Z * Z) }.

(** The [n] bytes from [a] lie in the variables or in one live block. *)
Definition accessible (m : memory) (a n : Z) : bool :=
  (0 <=? a) && (0 <=? n) &&
  ((a + n <=? program m) || existsb (fun '(p, k) => (p <=? a) && (a + n <=? p + k)) (blocks m)).

(** memcpy between two places of the memory; overlapping ones are undefined. *)
Definition memcpy (m : memory) (dst src n : Z) : outcome memory :=
  if negb (accessible m dst n) || negb (accessible m src n) then Undef
  else if (src <? dst + n) && (dst <? src + n) then Undef
  else do d <- zread (bytes m) src n; do b <- zwrite (bytes m) dst d; Done (mkMemory b (program m) (blocks m)).

Definition malloc (m : memory) (n p : Z) : memory := mkMemory (bytes m) (program m) ((p, n) :: blocks m).

Fixpoint release (p : Z) (l : list (Z * Z)) : outcome (list (Z * Z)) :=
  match l with
  | [] => Undef
  | (q, n) :: l' => if q =? p then Done l' else do l' <- release p l'; Done ((q, n) :: l')
  end.

(** free; what is not the start of a live block is undefined. *)
Definition free (m : memory) (p : Z) : outcome memory :=
  do l <- release p (blocks m); Done (mkMemory (bytes m) (program m) l).

(** struct_update.c:8-14. *)
Definition struct_update_from_data (m : memory) (answer : option Z) (off dta sz : Z) : outcome (memory * struct_update) :=
  match answer with
  | None => Undef
  | Some p => do m <- memcpy (malloc m sz p) p dta sz; Done (m, mkUpdate off p sz)
  end.

(** struct_update.c:17-20. *)
Definition struct_update_apply (m : memory) (dest : Z) (u : struct_update) : outcome memory :=
  memcpy m (dest + offset u) (data u) (size u).

(** struct_update.c:23-25. *)
Definition struct_update_free (m : memory) (u : struct_update) : outcome memory := free m (data u).

(** * Source text of integer expressions, for the macro

    An expression with the binary operators of C's multiplicative and additive expressions; a primary
    expression is a value, or anything in parentheses.  All operands have type size_t. *)
Inductive token :=
| TVal (v : Z)
| TParen (e : list token)
| TPlus | TMinus | TStar | TSlash | TPercent.

(** Operators on size_t; division by zero is undefined ([None]). *)
Definition arith (op : token) (a b : Z) : option Z :=
  match op with
  | TPlus => Some (wrap 64 (a + b))
  | TMinus => Some (wrap 64 (a - b))
  | TStar => Some (wrap 64 (a * b))
  | TSlash => if b =? 0 then None else Some (a / b)
  | TPercent => if b =? 0 then None else Some (a mod b)
  | _ => None
  end.

Definition arith_opt (op : token) (a b : option Z) : option Z :=
  match a, b with Some a, Some b => arith op a b | _, _ => None end.

(** Value of a token list by the grammar of C (6.5.5, 6.5.6: operators associate to the left, * / % bind tighter than
    + -).  [sum] and [sop] are the additive expression so far and the operator after it, [prod] and [pop] the
    multiplicative expression so far and the operator after it. *)
Fixpoint value (t : token) : option Z :=
  match t with
  | TVal v => Some v
  | TParen e =>
      (fix go (e : list token) (sum : option Z) (sop : token) (prod : option Z) (pop : token) (operand : bool) : option Z :=
         match e with
         | [] => if operand then None else arith_opt sop sum prod
         | t :: e' =>
             if operand then
               match t with
               | TVal _ | TParen _ => go e' sum sop (arith_opt pop prod (value t)) TStar false
               | _ => None
               end
             else
               match t with
               | TStar | TSlash | TPercent => go e' sum sop prod t true
               | TPlus | TMinus => go e' (arith_opt sop sum prod) t (Some 1) TStar true
               | _ => None
               end
         end) e (Some 0) TPlus (Some 1) TStar true
  | _ => None
  end.

(** struct_update.h:37-38: the text of the size argument, [sizeof(array[0]) * length] with the tokens of [length] in
    place; sizeof(array[0]) is a value. *)
Definition array_size_text (elem : Z) (len : list token) : list token := TVal elem :: TStar :: len.

(** The macro: the size argument is the value of that text ([None], a failing evaluation, is undefined).
    struct_update.h:37-38. *)
Definition STRUCT_UPDATE_ARRAY (m : memory) (answer : option Z) (off arr elem : Z) (len : list token) : outcome (memory * struct_update) :=
  match value (TParen (array_size_text elem len)) with
  | None => Undef
  | Some n => struct_update_from_data m answer off arr n
  end.
