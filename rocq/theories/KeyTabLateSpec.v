(** What the calls tell of one key of a table: its time, and whether the bit map is the key's own. *)
From Verif Require Import Base.

Definition seen (bit : Z) (seg : list (Z * Z)) : list (Z * bool) := map (fun x => (fst x, bit =? snd x)) seg.
