(** The event log on an array of slots. *)
From Verif Require Import Base EventLogModel EventLogSpec.

(** Callbacks: storing into slot [pos]; the failing ones. *)
Definition save_of (o : lop) (slots : list (list Z)) (e : list Z) (pos : Z) : list (list Z) * Z :=
  match o with
  | LSave _ => (upd slots (Z.to_nat pos) e, 0)
  | LFail _ c => (slots, c)
  | LTorn _ c g => (upd slots (Z.to_nat pos) g, c)
  end.

Definition event_of (o : lop) : list Z :=
  match o with LSave e => e | LFail e _ => e | LTorn e _ _ => e end.

Definition lstep (s : list (list Z) * elog) (o : lop) : list (list Z) * elog * Z :=
  new_event (save_of o) (fst s) (snd s) (event_of o).

Definition lrun (s : list (list Z) * elog) (h : list lop) : list (list Z) * elog :=
  fold_left (fun s o => fst (lstep s o)) h s.

(** Reading callback on the array [slots]: the state lists the requests so far, [fault] tells
    which of them fail and how.  Reading outside the array is undefined. *)
Definition load_of (slots : list (list Z)) (fault : nat -> option Z) (reqs : list (Z * Z))
  (number start : Z) : outcome (list (Z * Z) * Z * list Z) :=
  match fault (length reqs) with
  | Some code => Done (reqs ++ [(number, start)], code, [])
  | None =>
      do d <- zread slots start number;
      Done (reqs ++ [(number, start)], number, concat d)
  end.

Definition no_fault : nat -> option Z := fun _ => None.

(** A fresh log of [m] events of [es] bytes over the array [slots]. *)
Definition fresh (m es : Z) (slots : list (list Z)) : list (list Z) * elog :=
  (slots, mkElog 0 m es false).

Definition load_after (m es : Z) (slots : list (list Z)) (h : list lop) (fault : nat -> option Z)
  (buf : list Z) (number jump : Z) : outcome (list (Z * Z) * list Z * Z) :=
  let s := lrun (fresh m es slots) h in
  load_last_events (load_of (fst s) fault) [] (snd s) buf number jump.

(** Assumptions: an array of [m] slots of [es] bytes; a size_t; error codes are not positive. *)
Definition slots_ok (m es : Z) (slots : list (list Z)) : Prop :=
  zlen slots = m /\ Forall (fun e => zlen e = es) slots.

Definition sz (n : Z) : Prop := 0 <= n < 2 ^ 64.

Definition fault_ok (fault : nat -> option Z) : Prop :=
  forall k c, fault k = Some c -> INT_MIN <= c <= 0.

(** A storage that may deliver less than it is asked for: its k-th read (from 0) stores and reports [give k] events,
    the first of those requested, or all of them if there are fewer. *)
Definition load_some (slots : list (list Z)) (give : nat -> Z) (reqs : list (Z * Z))
  (number start : Z) : outcome (list (Z * Z) * Z * list Z) :=
  do d <- zread slots start number;
  let k := Z.min number (give (length reqs)) in
  Done (reqs ++ [(number, start)], k, concat (firstn (Z.to_nat k) d)).

Definition load_some_after (m es : Z) (slots : list (list Z)) (h : list lop) (give : nat -> Z)
  (buf : list Z) (number jump : Z) : outcome (list (Z * Z) * list Z * Z) :=
  let s := lrun (fresh m es slots) h in
  load_last_events (load_some (fst s) give) [] (snd s) buf number jump.
