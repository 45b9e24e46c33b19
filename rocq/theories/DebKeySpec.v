(** What a keypad sees behind a debounce filter: of every input the level of the latest run of equal samples
    that is long enough. *)
From Coq Require Import ZArith List Bool.
Import ListNotations.
Open Scope Z_scope.

(** [n] equal samples are the newest ones. *)
Fixpoint begins (n : nat) (b : bool) (l : list bool) : bool :=
  match n, l with
  | O, _ => true
  | S n', x :: l' => eqb x b && begins n' b l'
  | S _, [] => false
  end.

(** The level after the samples [l] (newest first), of which runs of [n] count; [v] before the first such run. *)
Fixpoint settled (n : nat) (v : bool) (l : list bool) : bool :=
  match l with
  | [] => v
  | b :: l' => if begins n b l then b else settled n v l'
  end.

(** The number with the bits [g] below [W]. *)
Fixpoint word_of (W : nat) (g : Z -> bool) : Z :=
  match W with
  | O => 0
  | S n => if g (Z.of_nat n) then Z.setbit (word_of n g) (Z.of_nat n) else word_of n g
  end.

(** The words seen at the polls [h] (oldest first) of times and raw words; [past] are the raw words before, newest
    first. *)
Fixpoint cleaned (W n : nat) (v : Z) (past : list Z) (h : list (Z * Z)) : list (Z * Z) :=
  match h with
  | [] => []
  | (t, x) :: h' =>
      (t, word_of W (fun i => settled n (Z.testbit v i) (map (fun y => Z.testbit y i) (x :: past)))) ::
      cleaned W n v (x :: past) h'
  end.

(** No [n] samples in a row have the level [b]. *)
Definition no_run (n : nat) (b : bool) (l : list bool) : Prop :=
  forall pre mid post, l = pre ++ mid ++ post -> length mid = n -> In (negb b) mid.

(** The samples of input [i]. *)
Definition contact (i : Z) (h : list (Z * Z)) : list bool := map (fun s => Z.testbit (snd s) i) h.
