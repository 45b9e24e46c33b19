(** Model of gel/data_structures/watcher.c with callbacks that use the watcher list themselves.

    Memory, watchers and calls are those of [WatcherModel].  A callback may write the memory, call the
    functions of watcher.h on its own list, look at the memory and at the results, and so on, before it
    returns.  The list is therefore read and written element by element, where the code does it.  [fuel]
    bounds the depth of nested callbacks; a run that needs more is a [Timeout]. *)
From Verif Require Import Base TimeModel WatcherModel.

Section WatchNest.
Variables I L : Z.

(** What a callback does next: return, or call a function of the list while the memory is [m] and go on with
    the memory and the result it finds afterwards. *)
Inductive body :=
| Return (m : list Z)
| Process (m : list Z) (now : Z) (k : list Z -> Z -> body)
| Clear (m : list Z) (now : Z) (k : list Z -> body)
| Check (m : list Z) (k : list Z -> Z -> body)
| Trigger (m : list Z) (index : Z) (k : list Z -> body)
| TriggerAll (m : list Z) (k : list Z -> body).

(** What the callbacks do: callback, its two arguments, the memory when it is called. *)
Variable behave : Z -> Z -> Z -> list Z -> body.

(** The list, the memory, and the calls so far in the order in which they began. *)
Definition world : Type := list watcher * list Z * list call_event.

Section Loops.
(** Runs a callback on a list after some calls. *)
Variable run : body -> list watcher -> list call_event -> outcome world.

(** watcher.c:66-68, and lines 92 and 100. *)
Definition call_at (w : world) (i : Z) : outcome world :=
  let '(l, m, cs) := w in
  do x <- zget l i;
  if cb x =? 0 then Undef else
  do seen <- zread m (current x) (size x);
  run (behave (cb x) (current x) (data x) m) l (cs ++ [(cb x, current x, data x, seen)]).

(** The body of the loop of watcher_process_changes, watcher.c:86-102; whether res is set. *)
Definition process_at (w : world) (i now : Z) : outcome (world * bool) :=
  let '(l, m, cs) := w in
  do x <- zget l i;
  do d <- differs x m;
  if d : bool then
    do (l, m, cs) <-
      (if 0 <? delay x then Done (upd l (Z.to_nat i) (set_moved (set_timestamp x now) 1), m, cs)
       else call_at (upd l (Z.to_nat i) (set_moved x 0), m, cs) i);
    do x <- zget l i;
    do x <- save x m;
    Done (upd l (Z.to_nat i) x, m, cs, true)
  else if moved x =? 0 then Done (w, false)
  else if is_expired I L L (timestamp x) now (delay x) then
    do w <- call_at (upd l (Z.to_nat i) (set_moved x 0), m, cs) i;
    Done (w, false)
  else Done (w, false).

(** watcher.c:85-105; [n] elements left from index [i]. *)
Fixpoint process_loop (n : nat) (i : Z) (w : world) (now : Z) : outcome (world * Z) :=
  match n with
  | O => Undef
  | S n =>
      do x <- zget (fst (fst w)) i;
      if current x =? 0 then Done (w, 0) else
      do (w, changed) <- process_at w i now;
      do (w, res) <- process_loop n (i + 1) w now;
      Done (w, if changed : bool then 1 else res)
  end.

(** watcher.c:73-77 and 58-62. *)
Fixpoint trigger_loop (n : nat) (i : Z) (w : world) : outcome world :=
  match n with
  | O => Undef
  | S n =>
      do x <- zget (fst (fst w)) i;
      if current x =? 0 then Done w else
      do w <- call_at w i;
      trigger_loop n (i + 1) w
  end.

(** watcher.c:81-108. *)
Definition process (w : world) (now : Z) : outcome (world * Z) :=
  process_loop (length (fst (fst w))) 0 w now.

(** watcher.c:56-63 and 71-78. *)
Definition trigger_all (w : world) : outcome world := trigger_loop (length (fst (fst w))) 0 w.

(** The callback runs. *)
Fixpoint perform (b : body) (l : list watcher) (cs : list call_event) : outcome world :=
  match b with
  | Return m => Done (l, m, cs)
  | Process m now k =>
      do (w, res) <- process (l, m, cs) now;
      let '(l, m, cs) := w in perform (k m res) l cs
  | Clear m now k =>
      do l <- watcher_clear_changes l m now;
      perform (k m) l cs
  | Check m k =>
      do res <- watcher_check_for_changes l m;
      perform (k m res) l cs
  | Trigger m i k =>
      do (l, m, cs) <- call_at (l, m, cs) i;
      perform (k m) l cs
  | TriggerAll m k =>
      do (l, m, cs) <- trigger_all (l, m, cs);
      perform (k m) l cs
  end.
End Loops.

Fixpoint run (fuel : nat) (b : body) (l : list watcher) (cs : list call_event) : outcome world :=
  match fuel with
  | O => Timeout
  | S fuel => perform (run fuel) b l cs
  end.

(** watcher_process_changes called by the program, no calls before; callbacks nested at most [fuel] deep. *)
Definition process_changes (fuel : nat) (l : list watcher) (m : list Z) (now : Z) : outcome (world * Z) :=
  process (run fuel) (l, m, []) now.

End WatchNest.
