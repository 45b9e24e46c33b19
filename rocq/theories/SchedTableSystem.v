(** A table filled with the overlap check: an entry is stored in the first free place if it overlaps with none
    (scheduler_are_there_overlapping_entries, scheduler_get_first_available_entry, scheduler_set_entry), and entries are
    disabled. *)
From Verif Require Import Base SchedulerModel SchedulerSpec.

Inductive table_op := Add (e : entry) | Disable (i : Z).

Definition table_step (s : list entry) (o : table_op) : list entry :=
  match o with
  | Add e =>
      if scheduler_are_there_overlapping_entries s e =? 0 then
        let i := scheduler_get_first_available_entry s in
        if i =? -1 then s else fst (scheduler_set_entry s (wrap 64 i) e)
      else s
  | Disable i => fst (scheduler_disable_schedule_entry s i)
  end.

(** From the initialised table. *)
Definition table_history (s : list entry) (ops : list table_op) : list entry := fold_left table_step ops (scheduler_init s).

(** Enabled entries within a day are added; indices are not negative. *)
Definition op_fine (o : table_op) : Prop :=
  match o with Add e => entry_ok e /\ same_day e /\ enabled e <> 0 | Disable i => 0 <= i end.
