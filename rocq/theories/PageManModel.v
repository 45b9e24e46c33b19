(** Model of gel/pagemanager/page_manager.c.

    The declarations of page_manager.h:20-147 are inside [#if 0]; they are taken as if they were
    active.  Simplifications: a callback is a function pointer, [None] is NULL; calling one appends
    an event to the trace and does nothing else (callbacks do not navigate); what callbacks return
    is an arbitrary function of the trace so far and the arguments.  The [model] argument is passed
    through and left out.  Configuration: [updates] is GEL_PAGEMANAGER_UPDATE_CALLBACK, [ndebug] is
    NDEBUG, the depth is the length of the stack's array. *)
From Verif Require Import Base StackModel.

(** page_manager.h:22-48. *)
Record page := mkPage {
  id : Z; data : Z; extra : Z;
  create : option Z; destroy : option Z; open_ : option Z; close_ : option Z;
  update : option Z; process_event : option Z
}.

(** Calls of page callbacks: the function pointer, the arguments, the result. *)
Inductive event :=
| ECreate (f extra result : Z)
| EDestroy (f data extra : Z)
| EOpen (f data : Z)
| EClose (f data : Z)
| EUpdate (f data result : Z)
| EProcess (f data ev result : Z).

Record env := mkEnv {
  ret_create : list event -> Z -> Z -> Z;
  ret_update : list event -> Z -> Z -> Z;
  ret_event : list event -> Z -> Z -> Z -> Z
}.

(** Compile time configuration. *)
Record config := mkConfig { updates : bool; ndebug : bool; VIEW_NULL : Z; DATA_NULL : Z }.

(** page_manager.h:52-56; [current_page] is [None] while its memory is indeterminate. *)
Record pman := mkPman { initialized : Z; current_page : option page; page_stack : stack page }.

Section PageManager.
Variable cfg : config.
Variable ev : env.

Definition with_page (pm : pman) (p : page) : pman := mkPman (initialized pm) (Some p) (page_stack pm).
Definition with_stack (pm : pman) (s : stack page) : pman := mkPman (initialized pm) (current_page pm) s.
Definition with_init (pm : pman) (i : Z) : pman := mkPman i (current_page pm) (page_stack pm).

(** Use of a field of [current_page]. *)
Definition current (pm : pman) : outcome page :=
  match current_page pm with Some p => Done p | None => Undef end.

(** page_manager.c:40-42 and alike. *)
Definition call_close (tr : list event) (p : page) : list event :=
  match close_ p with Some f => tr ++ [EClose f (data p)] | None => tr end.

(** page_manager.c:43-45 and alike. *)
Definition call_destroy (tr : list event) (p : page) : list event :=
  match destroy p with Some f => tr ++ [EDestroy f (data p) (extra p)] | None => tr end.

(** page_manager.c:57-58 and alike. *)
Definition call_open (tr : list event) (p : page) : list event :=
  match open_ p with Some f => tr ++ [EOpen f (data p)] | None => tr end.

(** page_manager.c:59-67 and alike. *)
Definition call_update (tr : list event) (p : page) : list event * Z :=
  if updates cfg then
    match update p with
    | Some f => let r := ret_update ev tr f (data p) in (tr ++ [EUpdate f (data p) r], r)
    | None => (tr, VIEW_NULL cfg)
    end
  else (tr, VIEW_NULL cfg).

Definition set_data (p : page) (d : Z) : page :=
  mkPage (id p) d (extra p) (create p) (destroy p) (open_ p) (close_ p) (update p) (process_event p).
Definition set_extra (p : page) (x : Z) : page :=
  mkPage (id p) (data p) x (create p) (destroy p) (open_ p) (close_ p) (update p) (process_event p).

(** page_manager.c:47-68, 131-152 and 178-203: install, create, open and update a new page. *)
Definition show (pm : pman) (tr : list event) (newpage : page) (x : Z) : pman * list event * Z :=
  let p := set_extra newpage x in
  let (p, tr) :=
    match create p with
    | Some f => let d := ret_create ev tr f x in (set_data p d, tr ++ [ECreate f x d])
    | None => (set_data p (DATA_NULL cfg), tr)
    end in
  let tr := call_open tr p in
  let (tr, v) := call_update tr p in
  (with_page pm p, tr, v).

(** page_manager.c:14-22; one iteration per unit of fuel. *)
Fixpoint clear_page_stack (fuel : nat) (s : stack page) (tr : list event) : outcome (stack page * list event) :=
  match fuel with
  | O => Timeout
  | S fuel' =>
      do (s', (r, o)) <- stack_pop s true;
      match o with
      | Some p => if r =? 0 then clear_page_stack fuel' s' (call_destroy tr p) else Done (s', tr)
      | None => Done (s', tr)
      end
  end.

(** page_manager.c:25-28. *)
Definition pman_init (pm : pman) : pman := mkPman 0 (current_page pm) (stack_init (page_stack pm)).

(** assert(), nothing with NDEBUG. *)
Definition assert (b : bool) : outcome unit := if ndebug cfg || b then Done tt else Abort.

(** page_manager.c:31-34; the callback is not checked for NULL. *)
Definition pman_process_page_event (pm : pman) (tr : list event) (e : Z) : outcome (pman * list event * Z) :=
  do _ <- assert (negb (initialized pm =? 0));
  do p <- current pm;
  match process_event p with
  | Some f => let r := ret_event ev tr f (data p) e in Done (pm, tr ++ [EProcess f (data p) e r], r)
  | None => Undef
  end.

(** page_manager.c:37-69. *)
Definition pman_swap_page_extra (pm : pman) (tr : list event) (newpage : page) (x : Z) : outcome (pman * list event * Z) :=
  do p <- current pm;
  let tr := call_destroy (call_close tr p) p in
  Done (show pm tr newpage x).

(** page_manager.c:88-115: the loop of reset_to_page; the result is the found flag. *)
Fixpoint reset_loop (fuel : nat) (pm : pman) (tr : list event) (i : Z) : outcome (pman * list event * Z * Z) :=
  match fuel with
  | O => Timeout
  | S fuel' =>
      do (s', (r, o)) <- stack_pop (page_stack pm) true;
      let pm := with_stack pm s' in
      match o with
      | Some p =>
          if r =? 0 then
            if id p =? i then
              let pm := with_page (with_init pm 1) p in
              let tr := call_open tr p in
              let (tr, v) := call_update tr p in
              Done (pm, tr, v, 1)
            else reset_loop fuel' pm (call_destroy tr p) i
          else Done (pm, tr, VIEW_NULL cfg, 0)
      | None => Done (pm, tr, VIEW_NULL cfg, 0)
      end
  end.

(** page_manager.c:76-116. *)
Definition pman_reset_to_page (pm : pman) (tr : list event) (i : Z) : outcome (pman * list event * Z * Z) :=
  do p <- current pm;
  let tr := call_destroy (call_close tr p) p in
  reset_loop (S (Z.to_nat (idx (page_stack pm)))) (with_init pm 0) tr i.

(** page_manager.c:119-153. *)
Definition pman_rebase_page_extra (pm : pman) (tr : list event) (newpage : page) (x : Z) : outcome (pman * list event * Z) :=
  do p <- current pm;
  let tr := call_destroy (call_close tr p) p in
  do (s, tr) <- clear_page_stack (S (Z.to_nat (idx (page_stack pm)))) (page_stack pm) tr;
  Done (show (with_stack pm s) tr newpage x).

(** page_manager.c:161-204; with NDEBUG the push disappears along with the assert (line 173). *)
Definition pman_change_page_extra (pm : pman) (tr : list event) (newpage : page) (x : Z) : outcome (pman * list event * Z) :=
  if initialized pm =? 0 then Done (show (with_init pm 1) tr newpage x)
  else
    do p <- current pm;
    let tr := call_close tr p in
    if ndebug cfg then Done (show pm tr newpage x)
    else
      do (s, r) <- stack_push (page_stack pm) p;
      if r =? 1 then Abort else Done (show (with_stack pm s) tr newpage x).

(** page_manager.c:210-237. *)
Definition pman_back (pm : pman) (tr : list event) : outcome (pman * list event * Z) :=
  do _ <- assert (negb (initialized pm =? 0));
  do (s', (r, o)) <- stack_pop (page_stack pm) true;
  match o with
  | Some q =>
      if r =? 0 then
        do p <- current pm;
        let tr := call_destroy (call_close tr p) p in
        let tr := call_open tr q in
        let (tr, v) := call_update tr q in
        Done (with_page (with_stack pm s') q, tr, v)
      else Done (with_stack pm s', tr, VIEW_NULL cfg)
  | None => Done (with_stack pm s', tr, VIEW_NULL cfg)
  end.

(** page_manager.c:239-251. *)
Definition pman_page_update (pm : pman) (tr : list event) : outcome (pman * list event * Z) :=
  do _ <- assert (negb (initialized pm =? 0));
  if updates cfg then
    do p <- current pm;
    let (tr, v) := call_update tr p in Done (pm, tr, v)
  else Done (pm, tr, VIEW_NULL cfg).

(** page_manager.c:71-73, 156-158, 206-208: [extra] is NULL. *)
Definition pman_swap_page pm tr p := pman_swap_page_extra pm tr p 0.
Definition pman_rebase_page pm tr p := pman_rebase_page_extra pm tr p 0.
Definition pman_change_page pm tr p := pman_change_page_extra pm tr p 0.

End PageManager.
