(** Theorems about timers whose callbacks use timers (gel/timer/timer.c). *)
From Verif Require Import Base StopwatchModel TimerModel TimerNestModel TimerNestSpec TimerNestProofs.

(** C162: callbacks that stop their own timer first may manage any timers, and change them in any way but resuming them.
    Every poll returns, calls the callback iff the timer was reached, no callback runs while it is running already, and the
    timer is reloaded or stopped at the end.  Callbacks are nested at most as deep as there are timers. *)
Theorem timer_nested : forall w Cb User Arg (behave : Cb -> Z -> User -> Arg -> body User) T,
  (forall j t u, zget T j = Done t -> stops_first (zlen T) j (behave (callback t) j u (targ t))) ->
  forall fuel i t now u, zget T i = Done t -> (length T < fuel)%nat ->
  exists T' tr, zlen T' = zlen T /\ nested [] tr /\
    if stopwatch_is_timer_reached w (stopwatch_ t) now
    then poll w behave fuel T [] i now u = Done (T', tr, 1) /\
         (exists inner, tr = Began i (callback t) u (targ t) :: inner ++ [Ended i]) /\
         (exists t', zget T' i = Done t' /\ reloaded now t')
    else poll w behave fuel T [] i now u = Done (T, [], 0).
Proof. exact @guarded_l. Qed.
Print Assumptions timer_nested.

(** C162: one timer whose callback makes any calls on it but polls. *)
Theorem timer_nested_single : forall w Cb User Arg (behave : Cb -> Z -> User -> Arg -> body User) script,
  (forall c u a, behave c 0 u a = own_calls 0 (script c u a)) ->
  forall fuel t tr now u,
  poll w behave (S fuel) [t] tr 0 now u
  = let '(t', r, e) := gel_timer_manage_callback w (fun c t u a => fold_left (fun t o => apply w o t) (script c u a) t) t now u in
    Done ([t'], tr ++ match e with Some (c, u, a) => [Began 0 c u a; Ended 0] | None => [] end, r).
Proof. exact @single_l. Qed.
Print Assumptions timer_nested_single.

(** Every callback stops its timer, manages both timers at time 100 and again, and asks for the time of the other. *)
Definition sample_behave (_ : unit) (i : Z) (_ : unit) (_ : unit) : body unit :=
  Do i OStop (Poll 0 100 tt (fun _ => Poll 1 100 tt (fun r => Ask (1 - i) 100 (fun _ => if r =? 0 then Poll 1 100 tt (fun _ => Return) else Return)))).

(** An autoreload timer of period 10 and a one-shot timer of period 20, both started at 0. *)
Definition sample_table : list (timer unit unit) :=
  [mkTimer 1 (mkSw 0 0 10 TIMER_COUNTING) tt tt; mkTimer 0 (mkSw 0 0 20 TIMER_COUNTING) tt tt].

Example timer_nested_example :
  (forall j t u, zget sample_table j = Done t -> stops_first (zlen sample_table) j (sample_behave (callback t) j u (targ t))) /\
  poll 64 sample_behave 3 sample_table [] 0 100 tt
  = Done ([mkTimer 1 (mkSw 100 0 10 TIMER_COUNTING) tt tt; mkTimer 0 (mkSw 0 0 20 TIMER_STOPPED) tt tt],
          [Began 0 tt tt tt; Began 1 tt tt tt; Ended 1; Ended 0], 1).
Proof.
  split; [|vm_compute; reflexivity]. intros j t u Ht. pose proof (zget_range _ _ _ Ht) as Hj. change (zlen sample_table) with 2 in *.
  eexists. split; [reflexivity|]. cbn -[Z.sub]. split; [lia|]. intros r1. split; [lia|]. intros r2. split; [lia|]. intros r3.
  destruct (r2 =? 0); cbn; auto. split; [lia|]. auto.
Qed.

(** C163 is false: a callback that manages its own timer.  The timer is reloaded or stopped only when the callback has
    returned, so the timer is still reached, and so on without end. *)
Theorem timer_nested_ends_refuted : exists w (behave : unit -> Z -> unit -> unit -> body unit) T now,
  (forall c i u a, behave c i u a = Poll i now u (fun _ => Return)) /\ zlen T = 1 /\
  forall fuel, poll w behave fuel T [] 0 now tt = Timeout.
Proof.
  exists 64, (fun _ i u _ => Poll i 100 u (fun _ => Return)), [mkTimer 0 (mkSw 0 0 10 TIMER_COUNTING) tt tt], 100.
  split; [reflexivity|]. split; [reflexivity|]. intros fuel.
  apply (endless_l 64 _ 0 100 tt fuel _ [] (mkTimer 0 (mkSw 0 0 10 TIMER_COUNTING) tt tt)); [reflexivity|vm_compute; reflexivity|].
  eexists. reflexivity.
Qed.
Print Assumptions timer_nested_ends_refuted.

(** C163 fails for every timer that is reached and whose callback begins with managing it at the same time. *)
Theorem timer_nested_endless_refuted : forall w Cb User Arg (behave : Cb -> Z -> User -> Arg -> body User) i now u fuel T tr t,
  zget T i = Done t -> stopwatch_is_timer_reached w (stopwatch_ t) now = true ->
  (exists k, behave (callback t) i u (targ t) = Poll i now u k) ->
  poll w behave fuel T tr i now u = Timeout.
Proof. exact @endless_l. Qed.
Print Assumptions timer_nested_endless_refuted.

(** C163 for callbacks that stop their timer first and resume none.  Missing: the others. *)
Theorem timer_nested_ends_partial : forall w Cb User Arg (behave : Cb -> Z -> User -> Arg -> body User) T,
  (forall j t u, zget T j = Done t -> stops_first (zlen T) j (behave (callback t) j u (targ t))) ->
  forall i now u, 0 <= i < zlen T -> exists fuel T' tr r, poll w behave fuel T [] i now u = Done (T', tr, r).
Proof.
  intros w Cb User Arg behave T Hd i now u Hi. destruct (zget_some T i Hi) as (t & Ht). exists (S (length T)).
  destruct (guarded_l w behave T Hd (S (length T)) i t now u Ht (le_n _)) as (T' & tr & _ & _ & H).
  destruct (stopwatch_is_timer_reached w (stopwatch_ t) now); [destruct H as [H _]|]; eauto.
Qed.
Print Assumptions timer_nested_ends_partial.
