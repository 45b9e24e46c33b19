(** Navigation as a stack of page instances, top first, and the life of an instance. *)
From Verif Require Import Base PageManModel.

Inductive nop :=
| NChange (p : page) (x : Z) | NBack | NSwap (p : page) (x : Z) | NRebase (p : page) (x : Z)
| NReset (i : Z) | NUpdate | NEvent (e : Z).

(** A page that was shown: its serial number and the page with its own data and extra. *)
Record inst := mkInst { num : nat; ipage : page }.

(** Moments in the life of an instance. *)
Inductive life :=
| LCreate (i : inst) | LOpen (i : inst) | LClose (i : inst) | LDestroy (i : inst)
| LUpdate (i : inst) (r : Z) | LEvent (i : inst) (e r : Z).

(** The calls the application sees: those of the callbacks the page has. *)
Definition seen (updates : bool) (l : life) : list event :=
  match l with
  | LCreate i => match create (ipage i) with Some f => [ECreate f (extra (ipage i)) (data (ipage i))] | None => [] end
  | LOpen i => match open_ (ipage i) with Some f => [EOpen f (data (ipage i))] | None => [] end
  | LClose i => match close_ (ipage i) with Some f => [EClose f (data (ipage i))] | None => [] end
  | LDestroy i => match destroy (ipage i) with Some f => [EDestroy f (data (ipage i)) (extra (ipage i))] | None => [] end
  | LUpdate i r => match update (ipage i) with
                   | Some f => if updates then [EUpdate f (data (ipage i)) r] else [] | None => [] end
  | LEvent i e r => match process_event (ipage i) with Some f => [EProcess f (data (ipage i)) e r] | None => [] end
  end.
Definition trace (updates : bool) (h : list life) : list event := flat_map (seen updates) h.

(** Rules of life: serial numbers are given in order, at most one instance is open, only living
    instances are opened and destroyed, no open instance is destroyed, only the open one is updated
    or gets events.  State: living instances, the open one, the next serial number. *)
Record world := mkWorld { alive : list nat; opened : option nat; next : nat }.

Definition is_open (w : world) (i : inst) : bool :=
  match opened w with Some k => (k =? num i)%nat | None => false end.
Definition is_alive (w : world) (i : inst) : bool := existsb (Nat.eqb (num i)) (alive w).

Definition live (w : world) (l : life) : option world :=
  match l with
  | LCreate i => if (num i =? next w)%nat then Some (mkWorld (num i :: alive w) (opened w) (S (next w))) else None
  | LOpen i => if is_alive w i then
                 match opened w with None => Some (mkWorld (alive w) (Some (num i)) (next w)) | Some _ => None end
               else None
  | LClose i => if is_open w i then Some (mkWorld (alive w) None (next w)) else None
  | LDestroy i => if is_alive w i && negb (is_open w i)
                  then Some (mkWorld (filter (fun k => negb (k =? num i)%nat) (alive w)) (opened w) (next w)) else None
  | LUpdate i _ | LEvent i _ _ => if is_open w i then Some w else None
  end.

Fixpoint lives (w : world) (h : list life) : option world :=
  match h with
  | [] => Some w
  | l :: h' => match live w l with Some w' => lives w' h' | None => None end
  end.

(** Serial numbers stand for instances, and one instance is created for every call that brings a
    page, of that page with its extra argument. *)
Definition who (l : life) : inst :=
  match l with LCreate i | LOpen i | LClose i | LDestroy i | LUpdate i _ | LEvent i _ _ => i end.
Definition one_per_number (h : list life) : Prop :=
  forall a b, In a h -> In b h -> num (who a) = num (who b) -> who a = who b.
Definition blank (p : page) (x : Z) : page :=
  mkPage (id p) 0 x (create p) (destroy p) (open_ p) (close_ p) (update p) (process_event p).
Definition created (h : list life) : list page :=
  flat_map (fun l => match l with LCreate i => [blank (ipage i) (extra (ipage i))] | _ => [] end) h.
Definition brought (h : list nop) : list page :=
  flat_map (fun o => match o with NChange p x | NSwap p x | NRebase p x => [blank p x] | _ => [] end) h.

(** [l] is a lawful history for the page manager calls [h] and the callback calls [tr]; it ends in [w]. *)
Definition lawful (updates : bool) (h : list nop) (tr : list event) (l : list life) (w : world) : Prop :=
  tr = trace updates l /\ lives (mkWorld [] None 0) l = Some w /\ one_per_number l /\ created l = brought h.

(** The stack machine: instances shown and not destroyed, history, next serial number. *)
Record nav := mkNav { insts : list inst; hist : list life; count : nat }.

Section Spec.
Variable cfg : config.
Variable ev : env.
Variable depth : Z.

Definition record (n : nav) (h : list life) : nav := mkNav (insts n) (hist n ++ h) (count n).

(** Update of [i] after history [h]. *)
Definition updated (h : list life) (i : inst) : list life * Z :=
  match updates cfg, update (ipage i) with
  | true, Some f => let r := ret_update ev (trace (updates cfg) h) f (data (ipage i)) in (h ++ [LUpdate i r], r)
  | _, _ => (h, VIEW_NULL cfg)
  end.

(** A new instance of [p] on top of [below], after history [h]. *)
Definition shown (n : nav) (h : list life) (below : list inst) (p : page) (x : Z) : nav * Z :=
  let d := match create p with Some f => ret_create ev (trace (updates cfg) h) f x | None => DATA_NULL cfg end in
  let i := mkInst (count n) (mkPage (id p) d x (create p) (destroy p) (open_ p) (close_ p) (update p) (process_event p)) in
  let (h, v) := updated (h ++ [LCreate i; LOpen i]) i in
  (mkNav (i :: below) h (S (count n)), v).

(** [i] comes back into view. *)
Definition reopened (n : nav) (h : list life) (i : inst) (below : list inst) : nav * Z :=
  let (h, v) := updated (h ++ [LOpen i]) i in (mkNav (i :: below) h (count n), v).

(** The instances above the first with the given id, and the rest. *)
Fixpoint split_at (k : Z) (l : list inst) : list inst * list inst :=
  match l with
  | [] => ([], [])
  | i :: l' => if id (ipage i) =? k then ([], l) else let (a, b) := split_at k l' in (i :: a, b)
  end.

(** One call; the result is the returned view (or message) and the found flag.  [Undef]: outside the
    contract; [Abort]: refused by an assertion. *)
Definition navigate (n : nav) (o : nop) : outcome (nav * (Z * Z)) :=
  match o with
  | NChange p x =>
      match insts n with
      | [] => let (n', v) := shown n (hist n) [] p x in Done (n', (v, 0))
      | c :: _ => if depth <? zlen (insts n) then Abort
                  else let (n', v) := shown n (hist n ++ [LClose c]) (insts n) p x in Done (n', (v, 0))
      end
  | NBack =>
      match insts n with
      | [] => Abort
      | [_] => Done (n, (VIEW_NULL cfg, 0))
      | c :: d :: rest => let (n', v) := reopened n (hist n ++ [LClose c; LDestroy c]) d rest in Done (n', (v, 0))
      end
  | NSwap p x =>
      match insts n with
      | [] => Undef
      | c :: rest => let (n', v) := shown n (hist n ++ [LClose c; LDestroy c]) rest p x in Done (n', (v, 0))
      end
  | NRebase p x =>
      match insts n with
      | [] => Undef
      | c :: rest => let (n', v) := shown n (hist n ++ LClose c :: map LDestroy (c :: rest)) [] p x in Done (n', (v, 0))
      end
  | NReset k =>
      match insts n with
      | [] => Undef
      | c :: rest =>
          let (gone, kept) := split_at k rest in
          let h := hist n ++ LClose c :: map LDestroy (c :: gone) in
          match kept with
          | [] => Done (mkNav [] h (count n), (VIEW_NULL cfg, 0))
          | d :: below => let (n', v) := reopened n h d below in Done (n', (v, 1))
          end
      end
  | NUpdate =>
      match insts n with
      | [] => Abort
      | c :: _ => let (h, v) := updated (hist n) c in Done (mkNav (insts n) h (count n), (v, 0))
      end
  | NEvent e =>
      match insts n with
      | [] => Abort
      | c :: _ =>
          match process_event (ipage c) with
          | None => Undef
          | Some f => let r := ret_event ev (trace (updates cfg) (hist n)) f (data (ipage c)) e in
                      Done (record n [LEvent c e r], (r, 0))
          end
      end
  end.

Fixpoint navigates (n : nav) (h : list nop) : outcome (nav * list (Z * Z)) :=
  match h with
  | [] => Done (n, [])
  | o :: h' => do (n', r) <- navigate n o; do (n'', rs) <- navigates n' h'; Done (n'', r :: rs)
  end.

End Spec.

Definition no_pages : nav := mkNav [] [] 0.

(** The stack by page ids only. *)
Fixpoint ids_from (k : Z) (l : list Z) : list Z :=
  match l with [] => [] | i :: l' => if i =? k then l else ids_from k l' end.

Definition ids_step (l : list Z) (o : nop) : list Z :=
  match o with
  | NChange p _ => id p :: l
  | NBack => match l with _ :: (_ :: _) as l' => l' | _ => l end
  | NSwap p _ => id p :: tl l
  | NRebase p _ => [id p]
  | NReset k => ids_from k (tl l)
  | NUpdate | NEvent _ => l
  end.
Definition ids (h : list nop) : list Z := fold_left ids_step h [].

(** Calls whose page (if any) handles events, and that are not resets. *)
Definition plain (o : nop) : Prop :=
  match o with
  | NChange p _ | NSwap p _ | NRebase p _ => process_event p <> None
  | NReset _ => False
  | _ => True
  end.
Definition is_change (o : nop) : Prop := match o with NChange _ _ => True | _ => False end.

(** ** Exactly, in both builds and whatever the first call is *)
Definition opens (p : page) : list event := match open_ p with Some f => [EOpen f (data p)] | None => [] end.
Definition closes (p : page) : list event := match close_ p with Some f => [EClose f (data p)] | None => [] end.
Definition destroyed (p : page) : list event := match destroy p with Some f => [EDestroy f (data p) (extra p)] | None => [] end.

(** Whether there is a page to act on, the page in front, those under it and the calls so far. *)
Record desk := mkDesk { ready : bool; front : option page; pile : list page; calls : list event }.

Section Desk.
Variable cfg : config.
Variable ev : env.
Variable depth : Z.

(** [p] is in front and gets updated. *)
Definition refreshed (r : bool) (p : page) (l : list page) (t : list event) : desk * Z :=
  match updates cfg, update p with
  | true, Some f => let v := ret_update ev t f (data p) in (mkDesk r (Some p) l (t ++ [EUpdate f (data p) v]), v)
  | _, _ => (mkDesk r (Some p) l t, VIEW_NULL cfg)
  end.

(** A new page in front of [l]. *)
Definition presented (r : bool) (l : list page) (t : list event) (p : page) (x : Z) : desk * Z :=
  let d := match create p with Some f => ret_create ev t f x | None => DATA_NULL cfg end in
  let made := match create p with Some f => [ECreate f x d] | None => [] end in
  let q := mkPage (id p) d x (create p) (destroy p) (open_ p) (close_ p) (update p) (process_event p) in
  refreshed r q l (t ++ made ++ opens q).

(** The pages above the first with the given id, and the rest. *)
Fixpoint seek (k : Z) (l : list page) : list page * list page :=
  match l with
  | [] => ([], [])
  | p :: l' => if id p =? k then ([], l) else let (a, b) := seek k l' in (p :: a, b)
  end.

Definition plainly (r : desk * Z) : outcome (desk * (Z * Z)) := let (d, v) := r in Done (d, (v, 0)).

Definition desk_step (d : desk) (o : nop) : outcome (desk * (Z * Z)) :=
  let refused := negb (ndebug cfg) && negb (ready d) in
  match o with
  | NChange p x =>
      if ready d then
        match front d with
        | None => Undef
        | Some c =>
            if ndebug cfg then plainly (presented true (pile d) (calls d ++ closes c) p x)
            else if depth <=? zlen (pile d) then Abort
            else plainly (presented true (c :: pile d) (calls d ++ closes c) p x)
        end
      else plainly (presented true (pile d) (calls d) p x)
  | NBack =>
      if refused then Abort
      else match pile d, front d with
           | [], _ => Done (d, (VIEW_NULL cfg, 0))
           | q :: l, Some c => plainly (refreshed (ready d) q l (calls d ++ closes c ++ destroyed c ++ opens q))
           | _, None => Undef
           end
  | NSwap p x =>
      match front d with
      | None => Undef
      | Some c => plainly (presented (ready d) (pile d) (calls d ++ closes c ++ destroyed c) p x)
      end
  | NRebase p x =>
      match front d with
      | None => Undef
      | Some c => plainly (presented (ready d) [] (calls d ++ closes c ++ flat_map destroyed (c :: pile d)) p x)
      end
  | NReset k =>
      match front d with
      | None => Undef
      | Some c =>
          let (gone, kept) := seek k (pile d) in
          let t := calls d ++ closes c ++ flat_map destroyed (c :: gone) in
          match kept with
          | [] => Done (mkDesk false (Some c) [] t, (VIEW_NULL cfg, 0))
          | q :: l => let (d', v) := refreshed true q l (t ++ opens q) in Done (d', (v, 1))
          end
      end
  | NUpdate =>
      if refused then Abort
      else if updates cfg then
        match front d with None => Undef | Some c => plainly (refreshed (ready d) c (pile d) (calls d)) end
      else Done (d, (VIEW_NULL cfg, 0))
  | NEvent e =>
      if refused then Abort
      else match front d with
           | None => Undef
           | Some c =>
               match process_event c with
               | None => Undef
               | Some f => let r := ret_event ev (calls d) f (data c) e in
                           Done (mkDesk (ready d) (Some c) (pile d) (calls d ++ [EProcess f (data c) e r]), (r, 0))
               end
           end
  end.

Fixpoint desk_run (d : desk) (h : list nop) : outcome (desk * list (Z * Z)) :=
  match h with
  | [] => Done (d, [])
  | o :: h' => do (d', r) <- desk_step d o; do (d'', rs) <- desk_run d' h'; Done (d'', r :: rs)
  end.

End Desk.

(** Calls that end no page's life on purpose. *)
Definition keeps (o : nop) : Prop :=
  match o with NSwap _ _ | NRebase _ _ | NReset _ => False | _ => True end.
Definition ends (e : event) : Prop := match e with EDestroy _ _ _ => True | _ => False end.
Definition leaves (e : event) : Prop := match e with EDestroy _ _ _ | EClose _ _ => True | _ => False end.
