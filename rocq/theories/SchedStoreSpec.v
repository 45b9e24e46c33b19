(** A schedule as bytes. *)
From Verif Require Import Base SchedulerModel WearSpec.

(** The [n] lowest bytes of a number, lowest first. *)
Fixpoint low_bytes (n : nat) (x : Z) : list Z :=
  match n with O => [] | S n' => x mod 256 :: low_bytes n' (x / 256) end.

Definition entry_bytes (e : entry) : list Z :=
  enabled e :: days e :: low_bytes 4 (start_second e) ++ low_bytes 4 (end_second e) ++ [value e mod 256].
Definition table_bytes (s : list entry) : list Z := flat_map entry_bytes s.

(** What comes back of an entry: the value has become a byte. *)
Definition restored (e : entry) : entry := mkEntry (enabled e) (days e) (start_second e) (end_second e) (value e mod 256).

(** Saving a table, a restart, a power failure while saving that leaves [g] in the block; [buf] is what the buffer
    happens to contain. *)
Inductive store_op := Save (buf : list Z) (s : list entry) | Restart | TornSave (buf : list Z) (s : list entry) (g : list Z).

(** The same on bytes. *)
Definition as_write (o : store_op) : wop :=
  match o with Save _ s => WWrite (table_bytes s) | Restart => WRestart | TornSave _ s g => WTorn (table_bytes s) g end.
Definition is_save (o : store_op) : bool := match o with Save _ _ => true | _ => false end.
