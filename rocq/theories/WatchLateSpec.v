(** How late a delayed watcher reports: the memory as a function of time, looked at now and then. *)
From Coq Require Import ZArith List.
Import ListNotations.
Open Scope Z_scope.

(** Instants in order, the first at most [J] after [prev], the others at most [J] after the one before. *)
Fixpoint paced (J prev : Z) (ts : list Z) : Prop :=
  match ts with
  | [] => True
  | t :: r => prev <= t <= prev + J /\ paced J t r
  end.

(** The last of the instants (the first is [t0]) before [tc]. *)
Definition last_before (tc t0 : Z) (ts : list Z) : Z := last (filter (fun t => t <? tc) ts) t0.

(** What the processings at [ts] find. *)
Definition looks (mem : Z -> list Z) (ts : list Z) : list (Z * list Z) := map (fun t => (t, mem t)) ts.
