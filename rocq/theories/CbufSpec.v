(** What a user expects of the circular buffer: a FIFO queue of bounded capacity,
    represented by the list of stored elements, oldest first.  Independent of the
    model. *)
From Verif Require Import Base.

(** What the user observes of a call: the returned number and the delivered elements. *)
Notation out A := (Z * list A)%type.

Section CbufSpec.
Context {A : Type}.

(** The calls a user can make. [Puts data len] passes an array [data] and a length;
    [Gets], [Peek] and [Drop] take an int length (a negative one asks for
    everything, as it converts to a huge size_t). *)
Inductive op :=
| Putc (a : A) | Getc | Reset | IsEmpty | IsFull | Capacity | Size
| Puts (data : list A) (len : Z) | Gets (len : Z) | Peek (len : Z) | Drop (len : Z).

Definition stored (q : list A) : Z := Z.of_nat (length q).

(** How many elements a bulk read of [len] yields. *)
Definition request (q : list A) (len : Z) : nat :=
  if len <? 0 then length q else Nat.min (Z.to_nat len) (length q).

(** One call on a queue holding [q] with room for [cap] elements. *)
Definition fifo_step (cap : Z) (q : list A) (o : op) : list A * out A :=
  match o with
  | Putc a => if stored q <? cap then (q ++ [a], (0, [])) else (q, (-1, []))
  | Getc => match q with [] => ([], (-1, [])) | a :: q' => (q', (0, [a])) end
  | Reset => ([], (0, []))
  | IsEmpty => (q, (if stored q =? 0 then 1 else 0, []))
  | IsFull => (q, (if stored q =? cap then 1 else 0, []))
  | Capacity => (q, (cap, []))
  | Size => (q, (stored q, []))
  | Puts data len =>
      let n := Z.min len (cap - stored q) in (q ++ firstn (Z.to_nat n) data, (n, []))
  | Gets len =>
      let n := request q len in (skipn n q, (Z.of_nat n, firstn n q))
  | Peek len =>
      let n := request q len in (q, (Z.of_nat n, firstn n q))
  | Drop len =>
      let n := request q len in (skipn n q, (Z.of_nat n, []))
  end.

Fixpoint fifo_run (cap : Z) (q : list A) (ops : list op) : list (out A) :=
  match ops with
  | [] => []
  | o :: rest => let (q', r) := fifo_step cap q o in r :: fifo_run cap q' rest
  end.

(** Content after a history. *)
Definition fifo_state (cap : Z) (q : list A) (ops : list op) : list A :=
  fold_left (fun q o => fst (fifo_step cap q o)) ops q.

(** The operations of C01. *)
Definition single (o : op) : bool :=
  match o with
  | Putc _ | Getc | Reset | IsEmpty | IsFull | Capacity => true
  | _ => false
  end.

(** Caller obligations: a length fits its C type and the array passed to puts is
    that long. *)
Definition legal (o : op) : Prop :=
  match o with
  | Puts data len => 0 <= len < 2 ^ 64 /\ len <= Z.of_nat (length data)
  | Gets len | Peek len | Drop len => INT_MIN <= len <= INT_MAX
  | _ => True
  end.

(** Most elements a call may hand to the caller: never more than requested, never more
    than the region holds. *)
Definition delivery_limit (n : Z) (o : op) : Z :=
  match o with
  | Getc => 1
  | Gets len | Peek len => if len <? 0 then n else Z.min len n
  | _ => 0
  end.

(** Calls outside the three defects found (see C02, C03, C04): size and bulk reads
    of everything on a full buffer, and puts of exactly one element more than fits. *)
Definition sane (cap : Z) (q : list A) (o : op) : Prop :=
  match o with
  | Size => stored q <> cap
  | Puts _ len => stored q = cap \/ len <> cap - stored q + 1
  | Gets len | Peek len | Drop len => stored q <> cap \/ 0 <= len <= cap
  | _ => True
  end.

(** Every call of the history is legal and sane in the state it is made in. *)
Fixpoint all_sane (cap : Z) (q : list A) (ops : list op) : Prop :=
  match ops with
  | [] => True
  | o :: rest => legal o /\ sane cap q o /\ all_sane cap (fst (fifo_step cap q o)) rest
  end.

(** *** What the buffer really does

    The content [q], oldest first, the unused cells [free] in the order in which they will
    be filled (there is always at least one), and the position [at_] of the first cell of
    [q ++ free] in the region. *)
Record ring := mkRing { at_ : Z; content : list A; free : list A }.

Definition ring_cells (s : ring) : list A := content s ++ free s.
Definition ring_room (s : ring) : Z := Z.of_nat (length (free s)) - 1.

(** What bulk reads believe is stored: of a full buffer every cell. *)
Definition readable (s : ring) : list A :=
  if ring_room s =? 0 then content s ++ free s else content s.

Definition taken (s : ring) (len : Z) : nat :=
  if len <? 0 then length (readable s) else Nat.min (Z.to_nat len) (length (readable s)).

(** The [k] oldest elements leave; taking all cells of a full buffer goes once round the
    ring and changes nothing. *)
Definition ring_take (s : ring) (k : nat) : ring :=
  if Nat.ltb (length (content s)) k then s
  else mkRing ((at_ s + Z.of_nat k) mod Z.of_nat (length (ring_cells s)))
              (skipn k (content s)) (free s ++ firstn k (content s)).

Definition ring_put (s : ring) (data : list A) : ring :=
  mkRing (at_ s) (content s ++ data) (skipn (length data) (free s)).

Definition exact_step (s : ring) (o : op) : ring * out A :=
  match o with
  | Putc a => if 0 <? ring_room s then (ring_put s [a], (0, [])) else (s, (-1, []))
  | Getc => match content s with [] => (s, (-1, [])) | a :: _ => (ring_take s 1, (0, [a])) end
  | Reset =>
      let k := Z.to_nat (Z.of_nat (length (ring_cells s)) - at_ s) in
      (mkRing 0 [] (skipn k (ring_cells s) ++ firstn k (ring_cells s)), (0, []))
  | IsEmpty => (s, (if stored (content s) =? 0 then 1 else 0, []))
  | IsFull => (s, (if ring_room s =? 0 then 1 else 0, []))
  | Capacity => (s, (Z.of_nat (length (ring_cells s)) - 1, []))
  | Size => (s, (Z.of_nat (length (readable s)), []))
  | Puts data len =>
      if (0 <? ring_room s) && (len =? ring_room s + 1) && (2 <=? at_ s) then
        (** every cell is written and the buffer looks empty *)
        (mkRing (at_ s) [] (content s ++ firstn (Z.to_nat len) data), (len, []))
      else
        let n := Z.min len (ring_room s) in
        (ring_put s (firstn (Z.to_nat n) data), (n, []))
  | Gets len =>
      let k := taken s len in (ring_take s k, (Z.of_nat k, firstn k (readable s)))
  | Peek len =>
      let k := taken s len in (s, (Z.of_nat k, firstn k (readable s)))
  | Drop len =>
      let k := taken s len in (ring_take s k, (Z.of_nat k, []))
  end.

Fixpoint exact_run (s : ring) (ops : list op) : list (out A) :=
  match ops with
  | [] => []
  | o :: rest => let (s', r) := exact_step s o in r :: exact_run s' rest
  end.

End CbufSpec.
Arguments op : clear implicits.
Arguments ring : clear implicits.
