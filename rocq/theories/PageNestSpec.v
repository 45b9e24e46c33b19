(** Which callbacks navigate, and what the callers respect. *)
From Verif Require Import Base PageManModel PageManSpec PageNestModel.

(** Callbacks with nothing left to do for the caller, if no update follows an open. *)
Definition is_exit (e : event) : bool :=
  match e with ECreate _ _ _ | EDestroy _ _ _ | EClose _ _ => true | _ => false end.
Definition is_opening (e : event) : bool := match e with EOpen _ _ => true | _ => false end.

(** The callbacks selected by [b] call nothing. *)
Definition passive (b : event -> bool) (prog : program) : Prop :=
  forall e k s, b e = true -> prog (During e) k s = None.

(** Swap, rebase and reset are called only while the manager is initialised. *)
Definition needs_page (o : nop) : bool := match o with NSwap _ _ | NRebase _ _ | NReset _ => true | _ => false end.
Definition polite (prog : program) : Prop :=
  forall c k s o, prog c k s = Some o -> needs_page o = true -> initialized (man s) <> 0.

(** Every page it shows handles events. *)
Definition handled (prog : program) : Prop :=
  forall c k s o, prog c k s = Some o ->
  match o with NChange p _ | NSwap p _ | NRebase p _ => process_event p <> None | _ => True end.

(** It never resets. *)
Definition resets_nothing (prog : program) : Prop := forall c k s i, prog c k s <> Some (NReset i).

(** No page is used unless it is in view, and one page at a time is in view; [o]: one is. *)
Fixpoint gate (o : bool) (tr : list event) : bool :=
  match tr with
  | [] => true
  | EOpen _ _ :: tr' => negb o && gate true tr'
  | EClose _ _ :: tr' => o && gate false tr'
  | EUpdate _ _ _ :: tr' | EProcess _ _ _ _ :: tr' => o && gate o tr'
  | ECreate _ _ _ :: tr' | EDestroy _ _ _ :: tr' => gate o tr'
  end.

(** A page with all callbacks. *)
Definition complete (p : page) : Prop :=
  create p <> None /\ destroy p <> None /\ open_ p <> None /\ close_ p <> None /\ update p <> None /\ process_event p <> None.
