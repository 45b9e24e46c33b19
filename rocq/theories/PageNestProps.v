(** Properties C151 and C152: page callbacks that navigate.  [runs] executes a program (the application and
    what the callbacks call) on a freshly initialised manager; the result holds the manager, the
    callback calls made and the page manager calls asked for, nested ones included. *)
From Verif Require Import Base StackModel PageManModel PageManSpec PageManSystem PageManProps.
From Verif Require Import PageNestModel PageNestSpec PageNestProofs.

(** C151: if only event handlers and update callbacks navigate (open callbacks too in builds without
    updates), the nested calls act exactly as if the application had made all of them one after the
    other, in the order in which they were made; in both builds and for any first call. *)
Theorem nested_calls_flat : forall cfg ev prog, passive is_exit prog -> (updates cfg = true -> passive is_opening prog) ->
  forall fuel pm s, runs cfg ev prog fuel pm = Done s ->
  exists rs, pman_run cfg ev (pman_init pm, []) (asked s) = Done (man s, made s, rs).
Proof. exact nested_flat_l. Qed.
Print Assumptions nested_calls_flat.

(** Events 1 and 2 go one page forward and back, an event 3 is passed on to the next page. *)
Definition app_calls (h : list nop) : nat -> option nop := nth_error h.
Definition by_events : program := fun c k _ =>
  match c, k with
  | App, _ => app_calls [NChange (full_page 1) 0; NEvent 1; NEvent 3; NEvent 2] k
  | During (EProcess _ _ 1 _), O => Some (NChange (full_page 2) 0)
  | During (EProcess _ _ 2 _), O => Some NBack
  | During (EProcess 61 _ 3 _), _ => app_calls [NSwap (full_page 4) 0; NEvent 1] k
  | During (EProcess 62 _ 3 _), _ => app_calls [NBack; NEvent 3] k
  | _, _ => None
  end.

Example nested_flat_example :
  passive is_exit by_events /\ passive is_opening by_events /\
  match runs sample_cfg sample_env by_events 20 (zeroed 3) with
  | Done s => map id (pages (man s)) = [4] /\ length (asked s) = 11%nat /\ length (made s) = 29%nat /\
      firstn 5 (skipn 8 (made s)) = [EProcess 62 5 3 4; EClose 42 5; EDestroy 22 5 0; EOpen 31 0; EUpdate 51 0 12]
  | _ => False
  end.
Proof.
  split; [|split; [|vm_compute; repeat split]]; intros e k s H; destruct e; try discriminate H; reflexivity.
Qed.

(** C152: with open callbacks that navigate as well, the calls are still those of a lawful life of
    numbered instances, one for each page brought by a call; the living ones are the pages of the
    manager, exactly the current one is open, and the ids follow the calls in the order in which they
    were made.  In builds with updates, either nothing is reset or open callbacks do not navigate
    (see [nested_open_reset_refuted]). *)
Theorem nested_lifecycle_partial : forall cfg ev depth prog, ndebug cfg = false -> depth <= 65535 ->
  passive is_exit prog -> (updates cfg = true -> resets_nothing prog \/ passive is_opening prog) -> polite prog ->
  forall fuel pm s, zlen (sitems (page_stack pm)) = depth -> runs cfg ev prog fuel pm = Done s ->
  (exists l w is, lawful (updates cfg) (asked s) (made s) l w /\
    pages (man s) = map ipage is /\ NoDup (map num is) /\
    (forall k, In k (alive w) <-> In k (map num is)) /\
    (forall i, In i is -> exists m, In m l /\ who m = i) /\
    opened w = match is with [] => None | c :: _ => Some (num c) end) /\
  map id (pages (man s)) = ids (asked s).
Proof. exact nested_lifecycle_l. Qed.
Print Assumptions nested_lifecycle_partial.

(** C152: nor is anything undefined then, if the pages handle events. *)
Theorem nested_defined_partial : forall cfg ev depth prog, ndebug cfg = false -> depth <= 65535 ->
  passive is_exit prog -> (updates cfg = true -> resets_nothing prog \/ passive is_opening prog) -> polite prog -> handled prog ->
  forall fuel pm, zlen (sitems (page_stack pm)) = depth -> runs cfg ev prog fuel pm <> Undef.
Proof. exact nested_defined_l. Qed.
Print Assumptions nested_defined_partial.

(** Page 1 redirects to page 2 when it is opened for the first time (its data is 0, and nothing was
    closed yet); the update callback of page 2 swaps it for page 3. *)
Definition redirect : program := fun c k s =>
  match c, k with
  | App, _ => app_calls [NChange (full_page 1) 0; NBack] k
  | During (EOpen 31 _), O => if zlen (asked s) =? 1 then Some (NChange (full_page 2) 0) else None
  | During (EUpdate 52 _ _), O => if initialized (man s) =? 0 then None else Some (NSwap (full_page 3) 0)
  | _, _ => None
  end.

Lemma redirect_held : forall c k s o, redirect c k s = Some o ->
  (needs_page o = true -> initialized (man s) <> 0) /\
  match o with NChange p _ | NSwap p _ | NRebase p _ => process_event p <> None | NReset _ => False | _ => True end.
Proof.
  intros c k s o H. unfold redirect, app_calls in H.
  repeat match type of H with
  | context [if ?x =? 0 then None else _] => destruct (Z.eqb_spec x 0); try discriminate H
  | context [match ?x with _ => _ end] => destruct x; try discriminate H
  | context [nth_error (_ :: _) ?x] => destruct x; cbn [nth_error] in H; try discriminate H
  end; try (destruct k; discriminate H); injection H as <-; split; try discriminate; auto.
Qed.

Example nested_redirect_example :
  passive is_exit redirect /\ resets_nothing redirect /\ polite redirect /\ handled redirect /\
  match runs sample_cfg sample_env redirect 20 (zeroed 3) with
  | Done s => map id (pages (man s)) = [1] /\ gate false (made s) = true /\
      made s = [ECreate 11 0 0; EOpen 31 0; EClose 41 0; ECreate 12 0 3; EOpen 32 3; EUpdate 52 3 5; EClose 42 3; EDestroy 22 3 0;
                ECreate 13 0 8; EOpen 33 8; EUpdate 53 8 10; EUpdate 53 8 11; EClose 43 8; EDestroy 23 8 0; EOpen 31 0; EUpdate 51 0 15]
  | _ => False
  end.
Proof.
  split; [|split; [|split; [|split; [|vm_compute; repeat split]]]].
  - intros e k s H. destruct e; try discriminate H; reflexivity.
  - intros c k s i H. now apply redirect_held in H as [_ H].
  - intros c k s o H. now apply redirect_held in H as [H _].
  - intros c k s o H. apply redirect_held in H as [_ H]. destruct o; auto.
Qed.

(** The application goes from page 1 to page 2 and back; [b] selects callbacks, the first of which
    makes the given call. *)
Definition first_callback (b : event -> bool) (o : nop) (h : list nop) : program := fun c k s =>
  match c, k with
  | App, _ => app_calls h k
  | During e, O => if b e && (length (filter b (made s)) =? 1)%nat then Some o else None
  | _, _ => None
  end.
Definition there_and_back : list nop := [NChange (full_page 1) 0; NChange (full_page 2) 0; NBack].

Ltac unlawful :=
  eexists; split; [vm_compute; reflexivity|]; intros (l & w & H); apply lawful_gate in H;
  [vm_compute in H; discriminate H|]; vm_compute; repeat constructor; discriminate.

(** C152 is false for close callbacks: page 2 swaps itself for page 3 when it is closed; it is closed
    twice and page 3 is destroyed while in view. *)
Theorem nested_close_refuted : exists s,
  runs sample_cfg sample_env (first_callback (fun e => match e with EClose 42 _ => true | _ => false end) (NSwap (full_page 3) 0) there_and_back)
    20 (zeroed 3) = Done s /\
  ~ exists l w, lawful true (asked s) (made s) l w.
Proof. unlawful. Qed.
Print Assumptions nested_close_refuted.

(** Nor for destroy callbacks: page 2 is closed after its destruction. *)
Theorem nested_destroy_refuted : exists s,
  runs sample_cfg sample_env (first_callback (fun e => match e with EDestroy 22 _ _ => true | _ => false end) (NChange (full_page 3) 0) there_and_back)
    20 (zeroed 3) = Done s /\
  ~ exists l w, lawful true (asked s) (made s) l w.
Proof. unlawful. Qed.
Print Assumptions nested_destroy_refuted.

(** Nor for create callbacks: page 2 is closed before it was opened. *)
Theorem nested_create_refuted : exists s,
  runs sample_cfg sample_env (first_callback (fun e => match e with ECreate 12 _ _ => true | _ => false end) (NChange (full_page 3) 0) there_and_back)
    20 (zeroed 3) = Done s /\
  ~ exists l w, lawful true (asked s) (made s) l w.
Proof. unlawful. Qed.
Print Assumptions nested_create_refuted.

(** And the data of page 3 is what the create callback of page 2 returned. *)
Theorem nested_create_data_refuted : exists s p d2 d3,
  runs sample_cfg sample_env (first_callback (fun e => match e with ECreate 12 _ _ => true | _ => false end) (NChange (full_page 3) 0) [NChange (full_page 1) 0; NChange (full_page 2) 0])
    20 (zeroed 3) = Done s /\
  In (ECreate 12 0 d2) (made s) /\ In (ECreate 13 0 d3) (made s) /\ d2 <> d3 /\
  current_page (man s) = Some p /\ id p = 3 /\ data p = d2.
Proof.
  do 4 eexists. split; [vm_compute; reflexivity|]. cbn [made man current_page id data].
  split; [do 4 right; now left|]. split; [do 6 right; now left|]. repeat split. discriminate.
Qed.
Print Assumptions nested_create_data_refuted.

(** Nor for open callbacks that reset to a page that is not there: the destroyed page is updated. *)
Theorem nested_open_reset_refuted : exists s,
  runs sample_cfg sample_env (first_callback (fun e => match e with EOpen 32 _ => true | _ => false end) (NReset 7) [NChange (full_page 1) 0; NChange (full_page 2) 0])
    20 (zeroed 3) = Done s /\
  ~ exists l w, lawful true (asked s) (made s) l w.
Proof. unlawful. Qed.
Print Assumptions nested_open_reset_refuted.

(** And a close callback that always leaves its page recurses without end. *)
Definition runaway : program := fun c k s =>
  match c, k with
  | App, _ => app_calls there_and_back k
  | During (EClose _ _), O => Some (NSwap (full_page 3) 0)
  | _, _ => None
  end.
Theorem nested_close_endless_refuted : forall fuel, runs sample_cfg sample_env runaway fuel (zeroed 3) = Timeout.
Proof.
  assert (H : forall fuel f d s p, current_page (man s) = Some p -> close_ p <> None ->
    acts sample_cfg sample_env runaway fuel (During (EClose f d)) 0 s = Timeout).
  { induction fuel as [|fuel IH]; intros f d s p Hc Hp; [reflexivity|]. cbn [acts runaway n_call]. unfold n_swap, n_close, current.
    cbn [man]. rewrite Hc. cbn [obind]. destruct (close_ p) as [g|] eqn:Eg; [|contradiction]. unfold does.
    rewrite (IH _ _ _ p); [reflexivity|exact Hc|congruence]. }
  intros [|[|fuel]]; [reflexivity|reflexivity|].
  set (p1 := mkPage 1 0 0 (Some 11) (Some 21) (Some 31) (Some 41) (Some 51) (Some 61)).
  set (s1 := mkNest (mkPman 1 (Some p1) (page_stack (zeroed 3))) [ECreate 11 0 0; EOpen 31 0; EUpdate 51 0 2] [NChange (full_page 1) 0]).
  transitivity (acts sample_cfg sample_env runaway (S fuel) App 1 s1); [reflexivity|].
  cbn [acts runaway app_calls there_and_back nth_error n_call]. unfold n_change, n_close, current.
  cbn [man s1 initialized current_page Z.eqb obind p1 close_ data]. unfold does. rewrite (H _ _ _ _ p1); [reflexivity|reflexivity|discriminate].
Qed.
Print Assumptions nested_close_endless_refuted.
