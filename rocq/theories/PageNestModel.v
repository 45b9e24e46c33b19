(** Model of gel/pagemanager/page_manager.c with callbacks that call the page manager themselves.

    The functions are those of PageManModel, with every callback call a point where the callback may
    navigate: after it, the fields of [current_page] and the stack are read again, as the C code does
    through its pointers.  A program says what each callback (and the application itself) calls next.
    Simplifications: those of PageManModel; what a callback returns is decided when it is called; the
    views, messages and found flags returned by the functions are left out.  Recursion, loops and the
    programs run on fuel: [Timeout] means that it did not suffice, unbounded recursion included. *)
From Verif Require Import Base StackModel PageManModel PageManSpec.

(** The manager, the callback calls so far and the page manager calls so far, in the order in which
    they were started. *)
Record nest := mkNest { man : pman; made : list event; asked : list nop }.

(** Who calls the page manager: the application, or a callback during the given call of it. *)
Inductive caller := App | During (e : event).

(** What [c] calls next after [k] calls of its own, [None] to return.  It sees everything. *)
Definition program := caller -> nat -> nest -> option nop.

Section Nested.
Variable cfg : config.
Variable ev : env.

Definition with_man (s : nest) (pm : pman) : nest := mkNest pm (made s) (asked s).

(** The functions; [cb] runs a callback, [fuel] bounds the loops. *)
Section Body.
Variable cb : event -> nest -> outcome nest.
Variable fuel : nat.

(** The call of a callback. *)
Definition does (e : event) (s : nest) : outcome nest := cb e (mkNest (man s) (made s ++ [e]) (asked s)).

(** page_manager.c:40-42 and alike. *)
Definition n_close (s : nest) : outcome nest :=
  do p <- current (man s);
  match close_ p with Some f => does (EClose f (data p)) s | None => Done s end.

(** page_manager.c:43-45 and alike. *)
Definition n_destroy (s : nest) : outcome nest :=
  do p <- current (man s);
  match destroy p with Some f => does (EDestroy f (data p) (extra p)) s | None => Done s end.

(** page_manager.c:49-54, 133-138 and 185-189; the result is stored where [current_page.data] is. *)
Definition n_create (s : nest) : outcome nest :=
  do p <- current (man s);
  match create p with
  | Some f =>
      let d := ret_create ev (made s) f (extra p) in
      do s <- does (ECreate f (extra p) d) s;
      do q <- current (man s);
      Done (with_man s (with_page (man s) (set_data q d)))
  | None => Done (with_man s (with_page (man s) (set_data p (DATA_NULL cfg))))
  end.

(** page_manager.c:57-58 and alike. *)
Definition n_open (s : nest) : outcome nest :=
  do p <- current (man s);
  match open_ p with Some f => does (EOpen f (data p)) s | None => Done s end.

(** page_manager.c:59-66 and alike. *)
Definition n_update (s : nest) : outcome nest :=
  if updates cfg then
    do p <- current (man s);
    match update p with
    | Some f => does (EUpdate f (data p) (ret_update ev (made s) f (data p))) s
    | None => Done s
    end
  else Done s.

(** page_manager.c:47-68, 131-152 and 178-203. *)
Definition n_show (newpage : page) (x : Z) (s : nest) : outcome nest :=
  do s <- n_create (with_man s (with_page (man s) (set_extra newpage x)));
  do s <- n_open s;
  n_update s.

(** page_manager.c:18-20, 112-114: the page is a local copy. *)
Definition n_discard (p : page) (s : nest) : outcome nest :=
  match destroy p with Some f => does (EDestroy f (data p) (extra p)) s | None => Done s end.

(** page_manager.c:14-22. *)
Fixpoint n_clear (n : nat) (s : nest) : outcome nest :=
  match n with
  | O => Timeout
  | S n' =>
      do (st, (r, o)) <- stack_pop (page_stack (man s)) true;
      let s := with_man s (with_stack (man s) st) in
      match o with
      | Some p => if r =? 0 then do s <- n_discard p s; n_clear n' s else Done s
      | None => Done s
      end
  end.

(** page_manager.c:88-115. *)
Fixpoint n_reset (n : nat) (i : Z) (s : nest) : outcome nest :=
  match n with
  | O => Timeout
  | S n' =>
      do (st, (r, o)) <- stack_pop (page_stack (man s)) true;
      let s := with_man s (with_stack (man s) st) in
      match o with
      | Some p =>
          if r =? 0 then
            if id p =? i then
              do s <- n_open (with_man s (with_page (with_init (man s) 1) p));
              n_update s
            else do s <- n_discard p s; n_reset n' i s
          else Done s
      | None => Done s
      end
  end.

(** page_manager.c:161-204. *)
Definition n_change (p : page) (x : Z) (s : nest) : outcome nest :=
  if initialized (man s) =? 0 then n_show p x (with_man s (with_init (man s) 1))
  else
    do s <- n_close s;
    if ndebug cfg then n_show p x s
    else
      do c <- current (man s);
      do (st, r) <- stack_push (page_stack (man s)) c;
      if r =? 1 then Abort else n_show p x (with_man s (with_stack (man s) st)).

(** page_manager.c:210-237. *)
Definition n_back (s : nest) : outcome nest :=
  do _ <- assert cfg (negb (initialized (man s) =? 0));
  do (st, (r, o)) <- stack_pop (page_stack (man s)) true;
  let s := with_man s (with_stack (man s) st) in
  match o with
  | Some q =>
      if r =? 0 then
        do s <- n_close s;
        do s <- n_destroy s;
        do s <- n_open (with_man s (with_page (man s) q));
        n_update s
      else Done s
  | None => Done s
  end.

(** page_manager.c:37-69. *)
Definition n_swap (p : page) (x : Z) (s : nest) : outcome nest :=
  do s <- n_close s; do s <- n_destroy s; n_show p x s.

(** page_manager.c:119-153. *)
Definition n_rebase (p : page) (x : Z) (s : nest) : outcome nest :=
  do s <- n_close s; do s <- n_destroy s; do s <- n_clear fuel s; n_show p x s.

(** page_manager.c:76-116. *)
Definition n_reset_to (i : Z) (s : nest) : outcome nest :=
  do s <- n_close s; do s <- n_destroy s; n_reset fuel i (with_man s (with_init (man s) 0)).

(** page_manager.c:239-251. *)
Definition n_page_update (s : nest) : outcome nest :=
  do _ <- assert cfg (negb (initialized (man s) =? 0)); n_update s.

(** page_manager.c:31-34. *)
Definition n_event (e : Z) (s : nest) : outcome nest :=
  do _ <- assert cfg (negb (initialized (man s) =? 0));
  do p <- current (man s);
  match process_event p with
  | Some f => does (EProcess f (data p) e (ret_event ev (made s) f (data p) e)) s
  | None => Undef
  end.

Definition n_call (o : nop) (s : nest) : outcome nest :=
  match o with
  | NChange p x => n_change p x s
  | NBack => n_back s
  | NSwap p x => n_swap p x s
  | NRebase p x => n_rebase p x s
  | NReset i => n_reset_to i s
  | NUpdate => n_page_update s
  | NEvent e => n_event e s
  end.
End Body.

Variable prog : program.

(** Runs [c], which has made [k] calls. *)
Fixpoint acts (fuel : nat) (c : caller) (k : nat) (s : nest) : outcome nest :=
  match fuel with
  | O => Timeout
  | S fuel' =>
      match prog c k s with
      | None => Done s
      | Some o =>
          do s' <- n_call (fun e => acts fuel' (During e) 0) fuel' o (mkNest (man s) (made s) (asked s ++ [o]));
          acts fuel' c (S k) s'
      end
  end.

(** The application runs from a freshly initialised manager. *)
Definition runs (fuel : nat) (pm : pman) : outcome nest := acts fuel App 0 (mkNest (pman_init pm) [] []).
End Nested.
