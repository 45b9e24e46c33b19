(** What a wear leveled memory of [N] blocks should be: one cell. *)
From Verif Require Import Base.

(** [WTorn d g]: power fails during a write of [d] before the marker is stored, leaving [g] in
    the block; then the device is started again. *)
Inductive wop := WWrite (d : list Z) | WRestart | WTorn (d g : list Z).

Definition wop_ok (B : Z) (o : wop) : Prop :=
  match o with
  | WWrite d => zlen d = B
  | WRestart => True
  | WTorn d g => zlen d = B /\ zlen g = B
  end.

Definition same (a b : list Z) : bool := if list_eq_dec Z.eq_dec a b then true else false.

(** Stored data and number of changes so far. *)
Definition wstep (s : list Z * Z) (o : wop) : list Z * Z :=
  match o with
  | WWrite d => if same d (fst s) then s else (d, snd s + 1)
  | WRestart | WTorn _ _ => s
  end.

Definition wstate (d0 : list Z) (h : list wop) : list Z * Z := fold_left wstep h (d0, 0).

(** The last block is not the active one. *)
Definition not_last (N n : Z) : Prop := n mod N <> N - 1.

(** No restart of [h] happens while the last of several blocks is active. *)
Fixpoint restarts_ok (N : Z) (s : list Z * Z) (h : list wop) : Prop :=
  match h with
  | [] => True
  | o :: h' =>
      match o with
      | WWrite _ => True
      | WRestart => N = 1 \/ not_last N (snd s)
      | WTorn _ _ => not_last N (snd s)
      end /\ restarts_ok N (wstep s o) h'
  end.

Definition is_write (o : wop) : Prop := match o with WWrite _ => True | _ => False end.

(** Number of occurrences. *)
Definition times (b : Z) (l : list Z) : Z := Z.of_nat (count_occ Z.eq_dec l b).

(** ** Exactly

    [XRefused d e]: the device refuses the write and reports [e]. *)
Inductive xop := XWrite (d : list Z) | XRefused (d : list Z) (e : Z) | XRestart | XTorn (d g : list Z).

Definition xop_ok (B : Z) (o : xop) : Prop :=
  match o with
  | XWrite d | XRefused d _ => zlen d = B
  | XRestart => True
  | XTorn d g => zlen d = B /\ zlen g = B
  end.

(** Markers and data of the blocks, the active block and the marker believed to be its. *)
Record store := mkStore { marks : list Z; datas : list (list Z); here : Z; mark : Z }.

(** How many of the markers follow [m] and one another. *)
Fixpoint following (m : Z) (ms : list Z) : Z :=
  match ms with
  | [] => 0
  | x :: ms' => if x =? (m + 1) mod 256 then 1 + following x ms' else 0
  end.

(** After a start the active block is the last one of the first run of markers; if the run covers all blocks, the first
    block with the marker of the last. *)
Definition boot (ms : list Z) (ds : list (list Z)) : store :=
  let a := following (hd 0 ms) (tl ms) in
  mkStore ms ds (if a + 1 =? zlen ms then 0 else a) (nth (Z.to_nat a) ms 0).

Definition stored (s : store) : list Z := nth (Z.to_nat (here s)) (datas s) [].

Definition xstep (s : store) (o : xop) : store * option Z :=
  let b := (here s + 1) mod zlen (marks s) in
  let m := (mark s + 1) mod 256 in
  match o with
  | XWrite d =>
      if same d (stored s) then (s, Some 0)
      else (mkStore (upd (marks s) (Z.to_nat b) m) (upd (datas s) (Z.to_nat b) d) b m, Some 0)
  | XRefused d e =>
      if same d (stored s) then (s, Some 0) else (mkStore (marks s) (datas s) b m, Some e)
  | XRestart => (boot (marks s) (datas s), None)
  | XTorn d g =>
      (boot (marks s) (if same d (stored s) then datas s else upd (datas s) (Z.to_nat b) g), None)
  end.

Fixpoint xstates (s : store) (h : list xop) : store * list (option Z) :=
  match h with
  | [] => (s, [])
  | o :: h' => let (s1, r) := xstep s o in let (s', rs) := xstates s1 h' in (s', r :: rs)
  end.

(** The data that a history can put into a block. *)
Definition puts_data (x : list Z) (o : xop) : Prop :=
  match o with XWrite d => d = x | XTorn _ g => g = x | _ => False end.

(** Sessions that write once and restart. *)
Definition cycles (xs : list (list Z)) : list wop := flat_map (fun x => [WWrite x; WRestart]) xs.

(** * Initialisation in general *)

(** What initialisation with [N] blocks finds if reading the marker of block [i] returns [code i] and gives [marker i].
    Blocks 0 .. [k] are readable and their markers follow each other; then comes the end of the page, an error, or a
    marker that does not follow.  [r] is the active block, [m] the marker. *)
Definition comes_up (N : Z) (code marker : Z -> Z) (r m : Z) : Prop :=
  (code 0 <> 0 /\ r = code 0 mod 2 ^ 64 /\ m = marker 0) \/
  exists k, 0 <= k < Z.max 1 N /\ (forall i, 0 <= i <= k -> code i = 0) /\
    (forall i, 0 <= i < k -> marker (i + 1) = (marker i + 1) mod 256) /\ m = marker k /\
    ((N <= k + 1 /\ r = 0) \/
     (k + 1 < N /\ code (k + 1) <> 0 /\ r = code (k + 1) mod 2 ^ 64) \/
     (k + 1 < N /\ code (k + 1) = 0 /\ marker (k + 1) <> (marker k + 1) mod 256 /\ r = k)).
