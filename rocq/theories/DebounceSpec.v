(** Vocabulary for the debounce properties. *)
From Verif Require Import Base.

(** Calls: a filter call with an input word, a single-channel call (channel, input), a set. *)
Inductive dop := DFilter (word : Z) | DSingle (i input : Z) | DSet (word : Z).

(** Valid arguments with [W] inputs. *)
Definition dop_ok (W : nat) (o : dop) : Prop :=
  match o with
  | DFilter x | DSet x => 0 <= x < 2 ^ Z.of_nat W
  | DSingle i x => 0 <= i < Z.of_nat W /\ 0 <= x
  end.

Definition is_set (o : dop) : bool := match o with DSet _ => true | _ => false end.

(** What a call means for channel [i]: a sampled level or a forced level. *)
Inductive event := Sample (b : bool) | Force (b : bool).
Definition events (i : Z) (o : dop) : list event :=
  match o with
  | DFilter x => [Sample (Z.testbit x i)]
  | DSingle j x => if j =? i then [Sample (0 <? x)] else []
  | DSet x => [Force (Z.testbit x i)]
  end.
Definition channel (i : Z) (h : list dop) : list event := flat_map (events i) h.

(** Levels sampled on channel [i]. *)
Definition level_of (e : event) : list bool := match e with Sample b => [b] | Force _ => [] end.
Definition samples (i : Z) (h : list dop) : list bool := flat_map level_of (channel i h).

(** *** Every call with its own debounce argument *)

Inductive vop := VFilter (word d : Z) | VSingle (i input d : Z) | VSet (word : Z).

Definition vop_ok (W : nat) (o : vop) : Prop :=
  match o with
  | VFilter x d => 0 <= x < 2 ^ Z.of_nat W
  | VSingle i x d => 0 <= i < Z.of_nat W /\ 0 <= x
  | VSet x => 0 <= x < 2 ^ Z.of_nat W
  end.

Definition is_vset (o : vop) : bool := match o with VSet _ => true | _ => false end.

(** One input: the reading, and how many further contrary samples will change it while a
    run of them is being counted (0: none is). *)
Record input := mkInput { reading : bool; missing : Z }.

(** A sample with argument [d], of which the low [W] bits count. *)
Definition sampled (W : nat) (s : input) (b : bool) (d : Z) : input :=
  if eqb b (reading s) then mkInput (reading s) 0
  else
    let left := if missing s =? 0 then d mod 2 ^ Z.of_nat W else missing s - 1 in
    if left =? 0 then mkInput b 0 else mkInput (reading s) left.

(** What a call means for input [i]; a set changes the reading and nothing else. *)
Definition vstep (W : nat) (i : Z) (s : input) (o : vop) : input :=
  match o with
  | VFilter x d => sampled W s (Z.testbit x i) d
  | VSingle j x d => if j =? i then sampled W s (0 <? x) d else s
  | VSet x => mkInput (Z.testbit x i) (missing s)
  end.

Definition vinput (W : nat) (v i : Z) (h : list vop) : input :=
  fold_left (vstep W i) h (mkInput (Z.testbit v i) 0).
