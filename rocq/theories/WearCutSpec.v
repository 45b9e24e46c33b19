(** What survives power failures that leave anything in the block being written and in its marker. *)
From Verif Require Import Base WearSpec.

(** [KCut d g m]: power fails during a write of [d], leaving [g] in the block and [m] in its marker; then the device is
    started again. *)
Inductive kop := KWrite (d : list Z) | KRestart | KCut (d g : list Z) (m : Z).

Definition kop_ok (B : Z) (o : kop) : Prop :=
  match o with
  | KWrite d => zlen d = B
  | KRestart => True
  | KCut d g m => zlen d = B /\ zlen g = B /\ 0 <= m < 256
  end.

(** Stored data and number of changes so far.  An interrupted write counts iff its marker got its final value, which
    is [c] plus the number of changes; then what is in the block counts. *)
Definition kstep (c : Z) (s : list Z * Z) (o : kop) : list Z * Z :=
  match o with
  | KWrite d => if same d (fst s) then s else (d, snd s + 1)
  | KRestart => s
  | KCut d g m =>
      if same d (fst s) then s
      else if m =? (c + (snd s + 1)) mod 256 then (g, snd s + 1) else s
  end.

Definition kstate (c : Z) (d0 : list Z) (h : list kop) : list Z * Z := fold_left (kstep c) h (d0, 0).

(** Whenever the device starts again, the last block is not the active one. *)
Fixpoint starts_ok (N c : Z) (s : list Z * Z) (h : list kop) : Prop :=
  match h with
  | [] => True
  | o :: h' =>
      match o with
      | KWrite _ => True
      | KRestart | KCut _ _ _ => not_last N (snd (kstep c s o))
      end /\ starts_ok N c (kstep c s o) h'
  end.

(** The interrupted write stored its data before its marker. *)
Definition in_order (c : Z) (s : list Z * Z) (d g : list Z) (m : Z) : Prop :=
  m = (c + (snd s + 1)) mod 256 -> g = d.
