(** What an event log with room for [m] events delivers. *)
From Verif Require Import Base.

(** A save attempt: it succeeds, fails leaving the storage alone, or fails after having put
    [torn] into the slot. *)
Inductive lop :=
| LSave (event : list Z)
| LFail (event : list Z) (code : Z)
| LTorn (event : list Z) (code : Z) (torn : list Z).

Definition lop_ok (es : Z) (o : lop) : Prop :=
  match o with
  | LSave e => zlen e = es
  | LFail e c => c <> 0
  | LTorn e c g => c <> 0 /\ zlen g = es
  end.

Definition untorn (o : lop) : Prop := match o with LTorn _ _ _ => False | _ => True end.

(** Events saved by a history, oldest first. *)
Definition saved (h : list lop) : list (list Z) :=
  flat_map (fun o => match o with LSave e => [e] | _ => [] end) h.

Definition last_n {A} (n : Z) (l : list A) : list A := skipn (Z.to_nat (zlen l - n)) l.
Definition drop_last {A} (n : Z) (l : list A) : list A := firstn (Z.to_nat (zlen l - n)) l.

(** Up to [number] events that precede the last [jump] ones, of those still stored. *)
Definition window (m : Z) (ev : list (list Z)) (number jump : Z) : list (list Z) :=
  last_n number (drop_last jump (last_n m ev)).

(** Event number [k] is in slot [k mod m]: how many slots there are from the oldest event of the window, the
    [count]-th before the last [jump], to the end of the array. *)
Definition to_the_end (m : Z) (ev : list (list Z)) (count jump : Z) : Z := m - (zlen ev - count - jump) mod m.

(** Buffer and result when the first read delivers at most [g0] events of [es] bytes and the second at most [g1]. *)
Definition delivered (m es : Z) (ev : list (list Z)) (number jump g0 g1 : Z) (buf : list Z) : list Z * Z :=
  let w := window m ev number jump in
  let t := to_the_end m ev (zlen w) jump in
  let take n l := concat (firstn (Z.to_nat n) l) in
  let skip n := skipn (Z.to_nat (n * es)) buf in
  if zlen w <=? t then
    let r := Z.min (zlen w) g0 in (take r w ++ skip r, r)
  else
    let r1 := Z.min t g0 in
    if r1 =? 0 then (buf, 0) else
    let r2 := Z.min (zlen w - t) g1 in
    (take r1 w ++ firstn (Z.to_nat ((t - r1) * es)) (skip r1) ++ take r2 (skipn (Z.to_nat t) w) ++ skip (t + r2), r1 + r2).
