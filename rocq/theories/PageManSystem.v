(** Executing a navigation history on the model. *)
From Verif Require Import Base StackModel PageManModel PageManSpec.

Section System.
Variable cfg : config.
Variable ev : env.

(** A call with a NULL extra argument is made by the function that has no such argument. *)
Definition change_call (pm : pman) (tr : list event) (p : page) (x : Z) :=
  if x =? 0 then pman_change_page cfg ev pm tr p else pman_change_page_extra cfg ev pm tr p x.
Definition swap_call (pm : pman) (tr : list event) (p : page) (x : Z) :=
  if x =? 0 then pman_swap_page cfg ev pm tr p else pman_swap_page_extra cfg ev pm tr p x.
Definition rebase_call (pm : pman) (tr : list event) (p : page) (x : Z) :=
  if x =? 0 then pman_rebase_page cfg ev pm tr p else pman_rebase_page_extra cfg ev pm tr p x.

Definition pman_step (s : pman * list event) (o : nop) : outcome (pman * list event * (Z * Z)) :=
  let (pm, tr) := s in
  match o with
  | NChange p x => do (pm, tr, v) <- change_call pm tr p x; Done (pm, tr, (v, 0))
  | NBack => do (pm, tr, v) <- pman_back cfg ev pm tr; Done (pm, tr, (v, 0))
  | NSwap p x => do (pm, tr, v) <- swap_call pm tr p x; Done (pm, tr, (v, 0))
  | NRebase p x => do (pm, tr, v) <- rebase_call pm tr p x; Done (pm, tr, (v, 0))
  | NReset i => do (pm, tr, v, f) <- pman_reset_to_page cfg ev pm tr i; Done (pm, tr, (v, f))
  | NUpdate => do (pm, tr, v) <- pman_page_update cfg ev pm tr; Done (pm, tr, (v, 0))
  | NEvent e => do (pm, tr, v) <- pman_process_page_event cfg ev pm tr e; Done (pm, tr, (v, 0))
  end.

Fixpoint pman_run (s : pman * list event) (h : list nop) : outcome (pman * list event * list (Z * Z)) :=
  match h with
  | [] => Done (s, [])
  | o :: h' => do (s', r) <- pman_step s o; do (s'', rs) <- pman_run s' h'; Done (s'', r :: rs)
  end.

End System.

(** The pages the manager holds, the current one first. *)
Definition stacked (pm : pman) : list page := rev (firstn (Z.to_nat (idx (page_stack pm))) (sitems (page_stack pm))).
Definition pages (pm : pman) : list page :=
  if initialized pm =? 0 then []
  else match current_page pm with Some p => p :: stacked pm | None => stacked pm end.

(** The same configuration compiled with NDEBUG. *)
Definition as_ndebug (c : config) : config := mkConfig (updates c) true (VIEW_NULL c) (DATA_NULL c).

(** Memory of the manager: a page of zero bytes, or indeterminate. *)
Definition zero_page : page := mkPage 0 0 0 None None None None None None.
Definition zeroed (depth : nat) : pman := mkPman 0 (Some zero_page) (mkStack 0 (repeat zero_page depth)).
