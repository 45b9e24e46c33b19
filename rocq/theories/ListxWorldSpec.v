(** Any number of lists at once: heads with the nodes that hang on them. *)
From Coq Require Import ZArith List Bool.
From Verif Require Import ListxSpec.
Import ListNotations.
Open Scope Z_scope.

Definition world := list (Z * list Z).

Definition nodes (w : world) : list Z := concat (map snd w).
Definition everything (w : world) : list Z := concat (map (fun x => fst x :: snd x) w).

(** The calls: [at_] is a head or a node. *)
Inductive lcall := LInit (head : Z) | LAdd (new at_ : Z) | LAddTail (new at_ : Z) | LDel (e : Z).

(** [new] behind [at_]; a head comes before its first node. *)
Definition behind (new at_ : Z) (x : Z * list Z) : Z * list Z :=
  (fst x, if at_ =? fst x then new :: snd x else flat_map (fun y => if y =? at_ then [y; new] else [y]) (snd x)).

(** [new] before [at_]; a head comes after its last node. *)
Definition ahead_of (new at_ : Z) (x : Z * list Z) : Z * list Z :=
  (fst x, if at_ =? fst x then snd x ++ [new] else flat_map (fun y => if y =? at_ then [new; y] else [y]) (snd x)).

Definition wstep (w : world) (o : lcall) : world :=
  match o with
  | LInit head =>
      if existsb (Z.eqb head) (map fst w) then map (fun x => if fst x =? head then (head, []) else x) w else w ++ [(head, [])]
  | LAdd new at_ => map (behind new at_) w
  | LAddTail new at_ => map (ahead_of new at_) w
  | LDel e => map (fun x => (fst x, filter (fun y => negb (y =? e)) (snd x))) w
  end.

(** A node is added while it is on no list and removed while it is on one; a node of a list does not become a head. *)
Definition wlegal1 (w : world) (o : lcall) : Prop :=
  match o with
  | LInit head => ~ In head (nodes w)
  | LAdd new at_ | LAddTail new at_ => ~ In new (everything w) /\ In at_ (everything w)
  | LDel e => In e (nodes w)
  end.

Fixpoint wrun (w : world) (ops : list lcall) : world :=
  match ops with [] => w | o :: ops' => wrun (wstep w o) ops' end.

Fixpoint wlegal (w : world) (ops : list lcall) : Prop :=
  match ops with [] => True | o :: ops' => wlegal1 w o /\ wlegal (wstep w o) ops' end.

(** The heap holds the lists, and they are disjoint. *)
Definition holds_all (h : Z -> option (Z * Z)) (w : world) : Prop :=
  NoDup (everything w) /\ Forall (fun x => holds h (fst x) (snd x)) w.

(** The structure a call brings into play. *)
Definition brings (o : lcall) : list Z :=
  match o with LInit head => [head] | LAdd new _ | LAddTail new _ => [new] | LDel _ => [] end.
