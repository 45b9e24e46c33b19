(** An event log whose structure is copied to permanent memory now and then. *)
From Verif Require Import Base EventLogSpec.

(** A save attempt, the structure copied to permanent memory, a restart with the last copy. *)
Inductive kop := KLog (o : lop) | KStore | KRestart.

Definition kop_ok (es : Z) (o : kop) : Prop := match o with KLog o => lop_ok es o | _ => True end.

(** The events that count, those at the time of the last copy, and how many slots after the
    newest event may have been overwritten by events that no longer count. *)
Record keep := mkKeep { events : list (list Z); copied : list (list Z); ahead : Z }.

Definition keep_step (s : keep) (o : kop) : keep :=
  match o with
  | KLog (LSave e) => mkKeep (events s ++ [e]) (copied s) (Z.max 0 (ahead s - 1))
  | KLog (LFail _ _) => s
  | KLog (LTorn _ _ _) => mkKeep (events s) (copied s) (Z.max 1 (ahead s))
  | KStore => mkKeep (events s) (events s) (ahead s)
  | KRestart => mkKeep (copied s) (copied s) (zlen (events s) + ahead s - zlen (copied s))
  end.

Definition keep_of (h : list kop) : keep := fold_left keep_step h (mkKeep [] [] 0).
