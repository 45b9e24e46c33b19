(** Specification of watchers, independent of the model.

    A history is the list, newest first, of the processings so far: true time (an unbounded integer)
    and contents of the memory.  [init] is the memory when the list was initialised. *)
From Coq Require Import ZArith List Bool.
Import ListNotations.
Open Scope Z_scope.

Definition history := list (Z * list Z).

(** [n] bytes from [a]. *)
Definition bytes (m : list Z) (a n : Z) : list Z := firstn (Z.to_nat n) (skipn (Z.to_nat a) m).

Definition same_bytes (m m' : list Z) (a n : Z) : bool :=
  if list_eq_dec Z.eq_dec (bytes m a n) (bytes m' a n) then true else false.

Section One.
Variable init : list Z.
(** Place, size and delay of the watcher. *)
Variables a n delay : Z.

Definition before (h : history) : list Z := match h with [] => init | (_, m) :: _ => m end.

(** The newest processing finds other bytes than the one before it. *)
Definition changed (h : history) : bool :=
  match h with [] => false | (_, m) :: h' => negb (same_bytes (before h') m a n) end.

(** Time of the last processing that found a change. *)
Fixpoint last_change (h : history) : option Z :=
  match h with
  | [] => None
  | (t, _) :: h' => if changed h then Some t else last_change h'
  end.

(** The newest processing is the first one that comes at least [delay] after the last change, and finds
    no change (times do not go back, so it is enough to look at the processing before). *)
Definition settles (h : history) : bool :=
  match h with
  | (t, _) :: ((t', _) :: _) as h' =>
      negb (changed h) &&
      match last_change h' with Some c => (c + delay <=? t) && (t' <? c + delay) | None => false end
  | _ => false
  end.

(** Does the newest processing call back? *)
Definition fires (h : history) : bool := if delay =? 0 then changed h else settles h.

End One.

(** True times never go back and advance by less than [half]. *)
Fixpoint steady (half : Z) (h : history) : Prop :=
  match h with
  | (t, _) :: ((t', _) :: _) as h' => t' <= t < t' + half /\ steady half h'
  | _ => True
  end.

(** * Exact behaviour, whatever the callbacks write *)

(** A watcher: place, size, callback, user data, delay; the bytes it remembers; the time of the change it has
    noticed but not reported yet. *)
Record sight := mkSight { place : Z; many : Z; who : Z; arg : Z; wait : Z; seen : list Z; since : option Z }.

Definition remember (x : sight) (b : list Z) (s : option Z) : sight :=
  mkSight (place x) (many x) (who x) (arg x) (wait x) b s.

Definition look (m : list Z) (x : sight) : list Z := bytes m (place x) (many x).

Definition news (m : list Z) (x : sight) : bool := if list_eq_dec Z.eq_dec (seen x) (look m x) then false else true.

(** What the callbacks do to the memory. *)
Section Exact.
Variable eff : Z -> Z -> Z -> list Z -> list Z.

Definition report (m : list Z) (x : sight) : Z * Z * Z * list Z := (who x, place x, arg x, look m x).
Definition after (m : list Z) (x : sight) : list Z := eff (who x) (place x) (arg x) m.

(** One watcher processed at time [t]: it, the memory, its call, whether it found a change. *)
Definition notice (t : Z) (x : sight) (m : list Z) : sight * list Z * list (Z * Z * Z * list Z) * bool :=
  if news m x then
    if 0 <? wait x then (remember x (look m x) (Some t), m, [], true)
    else (remember x (look (after m x) x) None, after m x, [report m x], true)
  else match since x with
       | Some c => if c + wait x <=? t then (remember x (seen x) None, after m x, [report m x], false) else (x, m, [], false)
       | None => (x, m, [], false)
       end.

(** The list in order, each watcher finding the memory as the callbacks before it left it. *)
Fixpoint notice_all (t : Z) (xs : list sight) (m : list Z) : list sight * list Z * list (Z * Z * Z * list Z) * bool :=
  match xs with
  | [] => ([], m, [], false)
  | x :: xs' =>
      let '(x1, m1, c1, b1) := notice t x m in
      let '(xs2, m2, c2, b2) := notice_all t xs' m1 in
      (x1 :: xs2, m2, c1 ++ c2, b1 || b2)
  end.

(** watcher_clear_changes: forgets a change it can see (and with it one noticed before), not one only noticed before. *)
Definition forget (m : list Z) (x : sight) : sight :=
  if news m x then remember x (look m x) (if 0 <? wait x then None else since x) else x.

Fixpoint tell_all (xs : list sight) (m : list Z) : list Z * list (Z * Z * Z * list Z) :=
  match xs with
  | [] => (m, [])
  | x :: xs' => let (m', cs) := tell_all xs' (after m x) in (m', report m x :: cs)
  end.

(** The calls of the list functions, each with the memory the program has made by then. *)
Inductive wop :=
| OProcess (t : Z) (m : list Z)
| OClear (t : Z) (m : list Z)
| OCheck (m : list Z)
| OTriggerAll (m : list Z)
| OTrigger (i : nat) (m : list Z).

Definition given (o : wop) : list Z :=
  match o with OProcess _ m => m | OClear _ m => m | OCheck m => m | OTriggerAll m => m | OTrigger _ m => m end.

(** The state, and: the memory on return, the callbacks, the result (0 for the functions that return nothing). *)
Definition sight_step (xs : list sight) (o : wop) : list sight * (list Z * list (Z * Z * Z * list Z) * Z) :=
  match o with
  | OProcess t m => let '(xs', m', cs, b) := notice_all t xs m in (xs', (m', cs, if b then 1 else 0))
  | OClear _ m => (map (forget m) xs, (m, [], 0))
  | OCheck m => (xs, (m, [], if existsb (news m) xs then 1 else 0))
  | OTriggerAll m => let (m', cs) := tell_all xs m in (xs, (m', cs, 0))
  | OTrigger i m =>
      match nth_error xs i with Some x => (xs, (after m x, [report m x], 0)) | None => (xs, (m, [], 0)) end
  end.

Fixpoint sight_run (xs : list sight) (ops : list wop) : list (list Z * list (Z * Z * Z * list Z) * Z) :=
  match ops with
  | [] => []
  | o :: ops' => let (xs', out) := sight_step xs o in out :: sight_run xs' ops'
  end.

(** The times a noticed change waits at are told apart by a counter of which [half] is half the range. *)
Fixpoint paced (half : Z) (xs : list sight) (ops : list wop) : Prop :=
  match ops with
  | [] => True
  | o :: ops' =>
      match o with
      | OProcess t _ => Forall (fun x => match since x with Some c => Z.abs (t - (c + wait x)) < half | None => True end) xs
      | _ => True
      end /\ paced half (fst (sight_step xs o)) ops'
  end.

End Exact.

(** The times of the processings never go back, and advance by less than [half]. *)
Fixpoint regular (half : Z) (last : option Z) (ops : list wop) : Prop :=
  match ops with
  | [] => True
  | OProcess t _ :: ops' => match last with Some t' => t' <= t < t' + half | None => True end /\ regular half (Some t) ops'
  | _ :: ops' => regular half last ops'
  end.
