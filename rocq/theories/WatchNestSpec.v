(** What callbacks of a watcher list may do. *)
From Verif Require Import Base WatcherModel WatcherSystem WatchNestModel.

(** The callback leaves the memory [m] as it is; it calls watcher_check_for_changes and, if [p],
    watcher_process_changes at the time [now], whatever it finds. *)
Fixpoint visits (p : bool) (now : Z) (m : list Z) (b : body) : Prop :=
  match b with
  | Return m' => m' = m
  | Process m' t k => p = true /\ m' = m /\ t = now /\ forall r, visits p now m (k m r)
  | Check m' k => m' = m /\ forall r, visits p now m (k m r)
  | _ => False
  end.

(** It leaves the memory as it is and triggers nothing; it processes the list, if [p], and clears and
    checks it, at any times. *)
Fixpoint observes (p : bool) (m : list Z) (b : body) : Prop :=
  match b with
  | Return m' => m' = m
  | Process m' _ k => p = true /\ m' = m /\ forall r, observes p m (k m r)
  | Clear m' _ k => m' = m /\ observes p m (k m)
  | Check m' k => m' = m /\ forall r, observes p m (k m r)
  | _ => False
  end.

(** The first thing it does is to process the list. *)
Definition processes_first (b : body) (m : list Z) : Prop := exists now k, b = Process m now k.

(** Nothing changed, nothing noticed. *)
Definition idle (m : list Z) (x : watcher) : Prop := ~ stale m x /\ moved x = 0.

(** A callback that uses its list while all callbacks called by that do nothing but write the memory: its calls
    are those of [WatcherModel], one after the other. *)
Fixpoint plain_body (I L : Z) (eff : Z -> Z -> Z -> list Z -> list Z) (b : body) (l : list watcher) : outcome (list watcher * list Z * list call_event) :=
  match b with
  | Return m => Done (l, m, [])
  | Process m now k =>
      do (l, m, c, res) <- watcher_process_changes I L eff l m now;
      do (l, m, c') <- plain_body I L eff (k m res) l; Done (l, m, c ++ c')
  | Clear m now k => do l <- watcher_clear_changes l m now; plain_body I L eff (k m) l
  | Check m k => do res <- watcher_check_for_changes l m; plain_body I L eff (k m res) l
  | Trigger m i k =>
      do (m, c) <- watcher_trigger_cb eff l m i;
      do (l, m, c') <- plain_body I L eff (k m) l; Done (l, m, c ++ c')
  | TriggerAll m k =>
      do (m, c) <- watcher_trigger_all eff l m;
      do (l, m, c') <- plain_body I L eff (k m) l; Done (l, m, c ++ c')
  end.
