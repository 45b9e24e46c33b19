(** Property C183: timers compiled with GEL_CUSTOM_TIMESTAMP_TYPE. *)
From Coq Require Import ZifyBool.
From Verif Require Import Base BaseLemmas TimeModel TimeSpec StopwatchModel StopwatchSpec SwCustomModel SwCustomSpec
  TimerModel TimerSpec TmCustomModel TmCustomSpec TmCustomSystem TmCustomProofs.

(** C183 refuted: on a uint32_t clock of an LP64 machine, a timer with an odd period started at an even tick and polled at
    even ticks only never fires, however long it is polled; nor does a timer of 100 ticks on a uint16_t clock started 36
    ticks before the wrap. *)
Theorem timer_custom_refuted :
  (forall polls : list (Z * Z), Forall (fun x => Z.even (fst x) = true) polls ->
     c_timer_run 32 64 32 32 (fun (c : Z) t (u a : Z) => t) (gel_timer_init STOPWATCH_NULL 101 0 8 9) (all_polls polls) =
       map (fun _ => (0, None)) polls) /\
  (forall polls : list (Z * Z),
     c_timer_run 32 64 16 16 (fun (c : Z) t (u a : Z) => t) (gel_timer_init STOPWATCH_NULL 100 65500 8 9) (all_polls polls) =
       map (fun _ => (0, None)) polls).
Proof.
  split.
  - intros polls H.
    transitivity (map (report 8 9) (map (fun _ : Z * Z => @None Z) polls)); [|rewrite map_map; reflexivity].
    apply (custom_polls_l 32 64 32 32 ltac:(lia) ltac:(lia) ltac:(lia) ltac:(lia) ltac:(lia) (fun (c : Z) t (u a : Z) => t)
      ltac:(reflexivity) STOPWATCH_NULL 101 0 8 9 polls (map (fun _ => None) polls) ltac:(lia)).
    apply never_run. eapply Forall_impl; [|exact H]. intros [t u] Ht. cbn [fst] in *. unfold custom_due, left_at_start.
      cbn [wphase period acc]. change (32 <? 32) with false. change (101 - 0 <=? 0) with false. cbv iota. cbn [orb].
      apply Z.even_spec in Ht as [k ->]. change (2 ^ 32) with 4294967296. apply Z.eqb_neq. intros E.
      change ((101 - 0) mod 4294967296) with 101 in E. rewrite Z.sub_0_r in E.
      pose proof (Z.div_mod (2 * k) 4294967296 ltac:(lia)). lia.
  - intros polls.
    transitivity (map (report 8 9) (map (fun _ : Z * Z => @None Z) polls)); [|rewrite map_map; reflexivity].
    apply (custom_polls_l 32 64 16 16 ltac:(lia) ltac:(lia) ltac:(lia) ltac:(lia) ltac:(lia) (fun (c : Z) t (u a : Z) => t)
      ltac:(reflexivity) STOPWATCH_NULL 100 65500 8 9 polls (map (fun _ => None) polls) ltac:(lia)).
    apply never_run. apply Forall_forall. intros [t u] _. cbn [fst]. unfold custom_due, left_at_start.
      cbn [wphase period acc]. change (16 <? 32) with true. change (100 - 0 <=? 0) with false. cbv iota. cbn [orb].
      unfold counter. pose proof (Z.mod_pos_bound t (2 ^ 16) ltac:(lia)). change (2 ^ 16) with 65536 in *.
      change (65500 mod 65536) with 65500. change ((100 - 0) mod 65536) with 100. lia.
Qed.
Print Assumptions timer_custom_refuted.

(** Missing from C183: polls that skip ticks (types of at least int) or come after a wrap (narrower types).  Exactly what
    happens in every history, with callbacks that leave the timer alone: *)
Theorem timer_custom_history_partial : forall I L T C Cb User Arg (call : Cb -> timer Cb Arg -> User -> Arg -> timer Cb Arg)
    s p t0 cb arg h, 0 < T <= C -> T < L -> I <= L -> I <= T \/ T + 1 < I -> 0 <= p < 2 ^ L -> (forall c t u a, call c t u a = t) ->
  let a := mkAlarm (mkWatch (Running t0) 0 p) false in
  custom_alarm_ok I L T a h ->
  c_timer_run I L T C call (gel_timer_init s p (counter C t0) cb arg) h =
    map (fun o => (fst o, option_map (fun u => (cb, u, arg)) (snd o))) (custom_run I T a h).
Proof. intros I L T C Cb User Arg call s p t0 cb arg h [H1 H2] H3 H4 H5 H6 H7. now apply custom_history_l. Qed.
Print Assumptions timer_custom_history_partial.

(** A type of at least int polled in every tick: right for every period shorter than its range, across wraps. *)
Theorem timer_custom_every_tick_partial : forall I L T C Cb User Arg (call : Cb -> timer Cb Arg -> User -> Arg -> timer Cb Arg)
    s p t0 cb arg polls b, 0 < T <= C -> T < L -> I <= T -> 0 < p < 2 ^ T -> 0 < b < 256 -> (forall c t u a, call c t u a = t) ->
  every_tick t0 polls ->
  c_timer_run I L T C call (gel_timer_init s p (counter C t0) cb arg) (all_polls polls) =
    map (report cb arg) (oneshot (t0 + p) polls) /\
  c_timer_run I L T C call (gel_timer_set_autoreload (gel_timer_init s p (counter C t0) cb arg) b) (all_polls polls) =
    map (report cb arg) (periodic p t0 polls).
Proof.
  intros I L T C Cb User Arg call s p t0 cb arg polls b [H1 H2] H3 H4 H5 Hb H6 H7.
  assert (2 ^ T <= 2 ^ L) by (apply Z.pow_le_mono_r; lia). split.
  - apply custom_polls_l; try assumption; try lia. apply (oneshot_wide I T H1 H4 _ polls t0 p t0); [exact H5|lia|exact H7].
  - apply custom_reload_l; try assumption; try lia. apply (periodic_wide I T H1 H4 _ polls t0 p t0); [exact H5|lia|exact H7].
Qed.
Print Assumptions timer_custom_every_tick_partial.

(** A type narrower than int, polled at any ticks before the clock's next wrap. *)
Theorem timer_custom_before_wrap_partial : forall I L T C Cb User Arg (call : Cb -> timer Cb Arg -> User -> Arg -> timer Cb Arg)
    s p t0 cb arg polls, 0 < T <= C -> T < L -> I <= L -> T + 1 < I -> 0 < p < 2 ^ T -> (forall c t u a, call c t u a = t) ->
  in_order t0 ((t0 / 2 ^ T + 1) * 2 ^ T) polls ->
  c_timer_run I L T C call (gel_timer_init s p (counter C t0) cb arg) (all_polls polls) =
    map (report cb arg) (oneshot (t0 + p) polls).
Proof.
  intros I L T C Cb User Arg call s p t0 cb arg polls [H1 H2] H3 H4 H5 H6 H7 H8.
  assert (2 ^ T <= 2 ^ L) by (apply Z.pow_le_mono_r; lia).
  apply custom_polls_l; try assumption; try lia. apply (oneshot_narrow I T H1 ltac:(lia) _ polls t0 p t0); [exact H6|lia|exact H8].
Qed.
Print Assumptions timer_custom_before_wrap_partial.

(** A uint32_t clock of an LP64 machine through a wrap, every tick; a uint16_t clock. *)
Example timer_custom_case :
  let polls := [(2 ^ 32 - 1, 1); (2 ^ 32, 2); (2 ^ 32 + 1, 3); (2 ^ 32 + 2, 4); (2 ^ 32 + 3, 5)] in
  every_tick (2 ^ 32 - 2) polls /\
  c_timer_run 32 64 32 32 (fun (c : Z) t (u a : Z) => t)
    (gel_timer_set_autoreload (gel_timer_init STOPWATCH_NULL 2 (counter 32 (2 ^ 32 - 2)) 8 9) 1) (all_polls polls) =
    [(0, None); (1, Some (8, 2, 9)); (0, None); (1, Some (8, 4, 9)); (0, None)] /\
  in_order 10 ((10 / 2 ^ 16 + 1) * 2 ^ 16) [(50, 1); (120, 2); (65535, 3)] /\
  c_timer_run 32 64 16 16 (fun (c : Z) t (u a : Z) => t) (gel_timer_init STOPWATCH_NULL 100 10 8 9) (all_polls [(50, 1); (120, 2); (65535, 3)]) =
    [(0, None); (1, Some (8, 2, 9)); (0, None)] /\
  custom_alarm_ok 32 64 16 (mkAlarm (mkWatch (Running 10) 0 100) false) [(50, TPause); (70, TResume); (100, TRemaining); (130, TPoll 1)] /\
  custom_run 32 16 (mkAlarm (mkWatch (Running 10) 0 100) false) [(50, TPause); (70, TResume); (100, TRemaining); (130, TPoll 1)] =
    [(0, None); (0, None); (30, None); (1, Some 1)].
Proof. cbv zeta. repeat split; try reflexivity; cbn; try lia. Qed.
