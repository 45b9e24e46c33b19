(** Running histories on the watcher model, and assumptions. *)
From Verif Require Import Base TimeModel TimeSpec WatcherModel WatcherSpec.

(** A watcher as written by the macros of watcher.h:16-30: not moved, callback not NULL. *)
Definition fresh (x : watcher) : Prop := moved x = 0 /\ cb x <> 0 /\ current x <> 0.

(** The memory of [msize] bytes holds what the watcher watches. *)
Definition fits (msize : Z) (x : watcher) : Prop := 0 < current x /\ 0 <= size x /\ current x + size x <= msize.

(** Immediate, or with a delay below [half] in a history of steady times. *)
Definition timely (half : Z) (h : history) (x : watcher) : Prop :=
  delay x = 0 \/ (0 < delay x < half /\ steady half h).

(** [old] can take [size] bytes. *)
Definition roomy (x : watcher) : Prop := size x <= zlen (old x).

(** Defined to use: watched bytes in the memory, room for their copy, a callback. *)
Definition ready (msize : Z) (x : watcher) : Prop := fits msize x /\ roomy x /\ cb x <> 0.

(** The fields no function changes. *)
Definition same_static (x y : watcher) : Prop :=
  current y = current x /\ size y = size x /\ cb y = cb x /\ data y = data x /\ delay y = delay x.

(** The callbacks leave the bytes that the watchers watch alone, and do not change the memory size. *)
Definition harmless (eff : Z -> Z -> Z -> list Z -> list Z) (ws : list watcher) : Prop :=
  forall c a d m, zlen (eff c a d m) = zlen m /\
    forall x, In x ws -> bytes (eff c a d m) (current x) (size x) = bytes m (current x) (size x).

(** The call of a watcher when the memory is [m]. *)
Definition call_of (m : list Z) (x : watcher) : call_event :=
  (cb x, current x, data x, bytes m (current x) (size x)).

(** The value the watcher remembers. *)
Definition recorded (x : watcher) : list Z := firstn (Z.to_nat (size x)) (old x).

(** Whether the memory differs from the value the watcher remembers. *)
Definition stale (m : list Z) (x : watcher) : Prop := recorded x <> bytes m (current x) (size x).

(** The callback of [x] does not write the bytes [x] watches. *)
Definition quiet (eff : Z -> Z -> Z -> list Z -> list Z) (x : watcher) : Prop :=
  forall m, bytes (eff (cb x) (current x) (data x) m) (current x) (size x) = bytes m (current x) (size x).

(** Process the list at each (time, memory) of a history, oldest first here; the memory may change in
    any way between the calls.  Collects calls and results. *)
Fixpoint wrun (I w : Z) (eff : Z -> Z -> Z -> list Z -> list Z) (l : list watcher) (h : list (Z * list Z))
  : outcome (list watcher * list (list call_event * Z)) :=
  match h with
  | [] => Done (l, [])
  | (t, m) :: h' =>
      do (l, _, cs, res) <- watcher_process_changes I w eff l m (counter w t);
      do (l, outs) <- wrun I w eff l h';
      Done (l, (cs, res) :: outs)
  end.

(** What the specification says of the newest processing. *)
Definition expected (ws : list watcher) (init : list Z) (h : history) : list call_event * Z :=
  (map (call_of (before init h)) (filter (fun x => fires init (current x) (size x) (delay x) h) ws),
   b2z (existsb (fun x => changed init (current x) (size x) h) ws)).

(** What the user of the macros asks for. *)
Inductive request :=
| RWatch (ptr elem cb data : Z)                          (* WATCHER *)
| RArray (ptr elem num cb data : Z)                      (* WATCHER_ARRAY *)
| RDelayed (ptr elem cb data delay : Z)                  (* WATCHER_DELAYED *)
| RDelayedArray (ptr elem num cb data delay : Z).        (* WATCHER_DELAYED_ARRAY *)

(** Place, number of bytes, callback, user data and delay. *)
Definition wanted (r : request) : Z * Z * Z * Z * Z :=
  match r with
  | RWatch ptr elem cb data => (ptr, elem, cb, data, 0)
  | RArray ptr elem num cb data => (ptr, elem * num, cb, data, 0)
  | RDelayed ptr elem cb data delay => (ptr, elem, cb, data, delay)
  | RDelayedArray ptr elem num cb data delay => (ptr, elem * num, cb, data, delay)
  end.

Definition written (L : Z) (malloc : bool) (block : Z) (reduce : bool) (r : request) : watcher :=
  match r with
  | RWatch ptr elem cb data => WATCHER malloc block reduce ptr elem cb data
  | RArray ptr elem num cb data => WATCHER_ARRAY malloc block reduce ptr elem num cb data
  | RDelayed ptr elem cb data delay => WATCHER_DELAYED L malloc block reduce ptr elem cb data delay
  | RDelayedArray ptr elem num cb data delay => WATCHER_DELAYED_ARRAY L malloc block reduce ptr elem num cb data delay
  end.

(** A list made with the macros. *)
Definition written_list (L : Z) (malloc : bool) (block : Z) (reduce : bool) (rs : list request) : list watcher :=
  map (written L malloc block reduce) rs ++ [WATCHER_NULL malloc block reduce].

(** The request makes sense in a memory of [msize] bytes and at the times of [h]. *)
Definition sensible (msize half : Z) (h : history) (r : request) : Prop :=
  let '(ptr, n, cb, _, delay) := wanted r in
  0 < ptr /\ 0 <= n /\ ptr + n <= msize /\ msize < 2 ^ 64 /\ cb <> 0 /\ (delay = 0 \/ (0 < delay < half /\ steady half h)).

(** Its size and delay can be stored. *)
Definition storable (reduce : bool) (r : request) : Prop :=
  let '(_, n, _, _, delay) := wanted r in reduce = true -> n < 256 /\ delay < 65536.

(** The static block (without malloc) can take the bytes. *)
Definition block_fits (block : Z) (r : request) : Prop := let '(_, n, _, _, _) := wanted r in n <= block.

(** The callbacks leave the watched bytes alone. *)
Definition leaves_alone (eff : Z -> Z -> Z -> list Z -> list Z) (rs : list request) : Prop :=
  forall c a d m, zlen (eff c a d m) = zlen m /\
    forall r, In r rs -> let '(ptr, n, _, _, _) := wanted r in bytes (eff c a d m) ptr n = bytes m ptr n.

(** What the newest processing must do. *)
Definition requested (rs : list request) (init : list Z) (h : history) : list call_event * Z :=
  (map (fun r => let '(ptr, n, cb, data, _) := wanted r in (cb, ptr, data, bytes (before init h) ptr n))
     (filter (fun r => let '(ptr, n, _, _, delay) := wanted r in fires init ptr n delay h) rs),
   b2z (existsb (fun r => let '(ptr, n, _, _, _) := wanted r in changed init ptr n h) rs)).

(** A watcher before its first use; it remembers the bytes of the memory at the initialisation. *)
Definition opened (init : list Z) (x : watcher) : sight :=
  mkSight (current x) (size x) (cb x) (data x) (delay x) (bytes init (current x) (size x)) None.

(** One call of the list functions. *)
Definition wexec (I w : Z) (eff : Z -> Z -> Z -> list Z -> list Z) (l : list watcher) (o : wop)
  : outcome (list watcher * (list Z * list call_event * Z)) :=
  match o with
  | OProcess t m => do (l, m, cs, res) <- watcher_process_changes I w eff l m (counter w t); Done (l, (m, cs, res))
  | OClear t m => do l <- watcher_clear_changes l m (counter w t); Done (l, (m, [], 0))
  | OCheck m => do r <- watcher_check_for_changes l m; Done (l, (m, [], r))
  | OTriggerAll m => do (m, cs) <- watcher_trigger_all eff l m; Done (l, (m, cs, 0))
  | OTrigger i m => do (m, cs) <- watcher_trigger_cb eff l m (Z.of_nat i); Done (l, (m, cs, 0))
  end.

Fixpoint wexecs (I w : Z) (eff : Z -> Z -> Z -> list Z -> list Z) (l : list watcher) (ops : list wop)
  : outcome (list watcher * list (list Z * list call_event * Z)) :=
  match ops with
  | [] => Done (l, [])
  | o :: ops' =>
      do (l, out) <- wexec I w eff l o;
      do (l, outs) <- wexecs I w eff l ops';
      Done (l, out :: outs)
  end.

(** The call is in order: the memory has its size, the index is one of the [n] watchers. *)
Definition in_order (msize : Z) (n : nat) (o : wop) : Prop :=
  zlen (given o) = msize /\ match o with OTrigger i _ => (i < n)%nat | _ => True end.
