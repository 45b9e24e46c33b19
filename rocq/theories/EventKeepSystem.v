(** The same on the model of the event log over an array of slots. *)
From Verif Require Import Base EventLogModel EventLogSpec EventLogSystem EventKeepSpec.

(** The array, the structure, and its copy. *)
Definition kept : Type := list (list Z) * elog * elog.

Definition kstep (s : kept) (o : kop) : kept :=
  let '(slots, l, c) := s in
  match o with
  | KLog o => (fst (lstep (slots, l) o), c)
  | KStore => (slots, l, l)
  | KRestart => (slots, c, c)
  end.

(** A fresh log of [m] events of [es] bytes, copied at once. *)
Definition krun (m es : Z) (slots : list (list Z)) (h : list kop) : kept :=
  fold_left kstep h (fresh m es slots, snd (fresh m es slots)).

Definition kload (s : kept) (buf : list Z) (number jump : Z) : outcome (list (Z * Z) * list Z * Z) :=
  let '(slots, l, _) := s in load_last_events (load_of slots no_fault) [] l buf number jump.
