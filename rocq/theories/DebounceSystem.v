(** A history of calls with a constant debounce argument, executed by the model. *)
From Verif Require Import Base DebounceModel DebounceSpec.

Section DebounceSystem.
Variables (W : nat) (d : Z).

Definition dcall (f : dfilter) (o : dop) : outcome (dfilter * Z) :=
  match o with
  | DFilter x => debounce_filter W f x d
  | DSingle i x => debounce_filter_single W f x i d
  | DSet x => Done (debounce_filter_set f x, 0)
  end.

Fixpoint drun (f : dfilter) (h : list dop) : outcome dfilter :=
  match h with
  | [] => Done f
  | o :: h' => do (f', _) <- dcall f o; drun f' h'
  end.

(** A filter initialised in any memory [f] and set to the word [v]. *)
Definition dstart (f : dfilter) (v : Z) : outcome dfilter :=
  do f' <- debounce_filter_init W f; Done (debounce_filter_set f' v).

Definition dhistory (f : dfilter) (v : Z) (h : list dop) : outcome dfilter :=
  do f' <- dstart f v; drun f' h.

End DebounceSystem.

(** The same with a debounce argument for every call. *)
Section VaryingSystem.
Variable W : nat.

Definition vcall (f : dfilter) (o : vop) : outcome (dfilter * Z) :=
  match o with
  | VFilter x d => debounce_filter W f x d
  | VSingle i x d => debounce_filter_single W f x i d
  | VSet x => Done (debounce_filter_set f x, 0)
  end.

Fixpoint vrun (f : dfilter) (h : list vop) : outcome dfilter :=
  match h with
  | [] => Done f
  | o :: h' => do (f', _) <- vcall f o; vrun f' h'
  end.

Definition vhistory (f : dfilter) (v : Z) (h : list vop) : outcome dfilter :=
  do f' <- dstart W f v; vrun f' h.

End VaryingSystem.
