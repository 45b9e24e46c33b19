(** Properties C66-C69, C137: software timers. *)
From Coq Require Import ZifyBool.
From Verif Require Import Base BaseLemmas TimeModel TimeSpec TimeProofs
  StopwatchModel StopwatchSpec StopwatchSystem StopwatchProofs TimerModel TimerSpec TimerSystem TimerProofs.

(** C66: a new timer, polled at any instants: return values and callback invocations.
    The callback may do anything to the timer except turning autoreload on. *)
Theorem timer_oneshot : forall w Cb User Arg (call : Cb -> timer Cb Arg -> User -> Arg -> timer Cb Arg)
    s p t0 cb arg polls, 0 < w -> 0 <= p < 2 ^ w ->
  (forall t u, autoreload t = 0 -> autoreload (call cb t u arg) = 0) ->
  polls_near w t0 (t0 + p) polls ->
  timer_run w call (gel_timer_init s p (counter w t0) cb arg) (poll_all polls) =
    map (fun o => match o with Some u => (1, Some (cb, u, arg)) | None => (0, None) end)
        (oneshot (t0 + p) polls).
Proof.
  intros w Cb User Arg call s p t0 cb arg polls Hw Hp Hcb Hn.
  exact (oneshot_run w Hw call cb arg p t0 Hp Hcb polls _ (arel_init w Cb Arg s p t0 cb arg Hw Hp) eq_refl eq_refl Hn).
Qed.
Print Assumptions timer_oneshot.

Example timer_oneshot_example :
  let polls := [(2 ^ 32 - 5, 1); (2 ^ 32 + 94, 2); (2 ^ 32 + 95, 3); (2 ^ 32 + 300, 4)] in
  polls_near 32 (2 ^ 32 - 5) (2 ^ 32 - 5 + 100) polls /\
  timer_run 32 (fun (c : Z) t (u a : Z) => t)
    (gel_timer_init STOPWATCH_NULL 100 (counter 32 (2 ^ 32 - 5)) 8 9) (poll_all polls) =
  [(0, None); (0, None); (1, Some (8, 3, 9)); (0, None)].
Proof. split; [|reflexivity]. cbn. unfold close. repeat split; lia. Qed.

(** C67: autoreload. The callback may do anything except switching autoreload off or
    changing the period. *)
Theorem timer_autoreload : forall w Cb User Arg (call : Cb -> timer Cb Arg -> User -> Arg -> timer Cb Arg)
    s p t0 cb arg polls b, 0 < w -> 0 <= p < 2 ^ w -> 0 < b < 256 ->
  (forall t u, autoreload t <> 0 -> total_time (stopwatch_ t) = p -> callback t = cb -> targ t = arg ->
     let t' := call cb t u arg in
     autoreload t' <> 0 /\ total_time (stopwatch_ t') = p /\ callback t' = cb /\ targ t' = arg) ->
  polls_regular w p t0 polls ->
  timer_run w call (gel_timer_set_autoreload (gel_timer_init s p (counter w t0) cb arg) b) (poll_all polls) =
    map (fun o => match o with Some u => (1, Some (cb, u, arg)) | None => (0, None) end)
        (periodic p t0 polls).
Proof.
  intros w Cb User Arg call s p t0 cb arg polls b Hw Hp Hb Hcb Hn.
  refine (periodic_run w Hw call cb arg p Hp Hcb polls t0
    (gel_timer_set_autoreload (gel_timer_init s p (counter w t0) cb arg) b) _ eq_refl eq_refl Hn).
  destruct (arel_init w Cb Arg s p t0 cb arg Hw Hp) as (HR & _).
  split; [exact HR|]. cbn [reload gel_timer_set_autoreload autoreload]. rewrite wrap_small by (cbn; lia). lia.
Qed.
Print Assumptions timer_autoreload.

Example timer_autoreload_example :
  let polls := [(50, 1); (100, 2); (199, 3); (205, 4); (305, 5)] in
  polls_regular 32 100 0 polls /\
  timer_run 32 (fun (c : Z) t (u a : Z) => t)
    (gel_timer_set_autoreload (gel_timer_init STOPWATCH_NULL 100 (counter 32 0) 8 9) 1) (poll_all polls) =
  [(0, None); (1, Some (8, 2, 9)); (0, None); (1, Some (8, 4, 9)); (1, Some (8, 5, 9))].
Proof. split; [|reflexivity]. cbn. unfold close. repeat split; lia. Qed.

(** C68 (and C66, C67 with all operations mixed): every history of calls, with callbacks that leave the timer
    alone, reports what the true-time timer reports. *)
Theorem timer_history : forall w Cb User Arg (call : Cb -> timer Cb Arg -> User -> Arg -> timer Cb Arg)
    s p t0 cb arg h, 0 < w -> 0 <= p < 2 ^ w -> (forall c t u a, call c t u a = t) ->
  let a := mkAlarm (mkWatch (Running t0) 0 p) false in
  alarm_history_ok w a h ->
  timer_run w call (gel_timer_init s p (counter w t0) cb arg) h =
    map (fun o => (fst o, option_map (fun u => (cb, u, arg)) (snd o))) (alarm_run a h).
Proof. exact timer_history_l. Qed.
Print Assumptions timer_history.

Example timer_history_example :
  let h := [(40, TPause); (1000, TRemaining); (1000, TPoll 1); (2000, TResume); (2059, TPoll 2); (2060, TPoll 3);
            (2100, TPoll 4); (3000, TPeriod 5); (3001, TResume); (3050, TReset); (3140, TPeriod 10); (3150, TPoll 5)] in
  alarm_history_ok 32 (mkAlarm (mkWatch (Running 0) 0 100) false) h /\
  timer_run 32 (fun (c : Z) t (u a : Z) => t) (gel_timer_init STOPWATCH_NULL 100 0 8 9) h =
  [(0, None); (60, None); (0, None); (0, None); (0, None); (1, Some (8, 3, 9)); (0, None); (0, None); (0, None);
   (0, None); (0, None); (1, Some (8, 5, 9))].
Proof. split; [|reflexivity]. cbn. unfold close. repeat split; cbn; lia. Qed.

(** C69 refuted: a callback that restarts its one-shot timer leaves it stopped, and one that
    stops its periodic timer leaves it running. *)
Theorem timer_callback_control_refuted :
  (exists call : Z -> timer Z Z -> Z -> Z -> timer Z Z,
     (forall c t u a, sstate (stopwatch_ (call c t u a)) = TIMER_COUNTING) /\
     exists t, fst (fst (gel_timer_manage_callback 32 call t 100 0)) <> call (callback t) t 0 (targ t) /\
       sstate (stopwatch_ (fst (fst (gel_timer_manage_callback 32 call t 100 0)))) = TIMER_STOPPED) /\
  (exists call : Z -> timer Z Z -> Z -> Z -> timer Z Z,
     (forall c t u a, call c t u a = gel_timer_stop t) /\
     exists t, sstate (stopwatch_ (fst (fst (gel_timer_manage_callback 32 call t 100 0)))) = TIMER_COUNTING).
Proof.
  split.
  - exists (fun c t u a => gel_timer_resume (gel_timer_stop t) 100). split; [reflexivity|].
    exists (gel_timer_init STOPWATCH_NULL 100 0 8 9). split; [vm_compute; congruence|reflexivity].
  - exists (fun c t u a => gel_timer_stop t). split; [reflexivity|].
    exists (gel_timer_set_autoreload (gel_timer_init STOPWATCH_NULL 100 0 8 9) 1). reflexivity.
Qed.
Print Assumptions timer_callback_control_refuted.

(** C69, exact: of what the callback does to its timer, the autoreload flag, the period,
    callback and argument stay; the state becomes counting from now (autoreload) or stopped. *)
Theorem timer_callback_control_partial : forall w Cb User Arg (call : Cb -> timer Cb Arg -> User -> Arg -> timer Cb Arg)
    t c u, stopwatch_is_timer_reached w (stopwatch_ t) c = true ->
  let t1 := call (callback t) t u (targ t) in
  let t2 := fst (fst (gel_timer_manage_callback w call t c u)) in
  autoreload t2 = autoreload t1 /\ callback t2 = callback t1 /\ targ t2 = targ t1 /\
  stopwatch_ t2 =
    if autoreload t1 =? 0 then mkSw 0 0 (total_time (stopwatch_ t1)) TIMER_STOPPED
    else mkSw c 0 (total_time (stopwatch_ t1)) TIMER_COUNTING.
Proof.
  intros w Cb User Arg call t c u H. unfold gel_timer_manage_callback. rewrite H. cbv zeta.
  destruct (autoreload (call (callback t) t u (targ t)) =? 0); repeat split.
Qed.
Print Assumptions timer_callback_control_partial.

(** C137: callbacks that use their timer, at whatever times: afterwards only the period and the autoreload they leave
    count. *)
Theorem timer_scripted : forall w Cb User Arg (call : Cb -> timer Cb Arg -> User -> Arg -> timer Cb Arg) script
    s p t0 cb arg h, 0 < w -> 0 <= p < 2 ^ w -> (forall t u, call cb t u arg = obey w (script u) t) ->
  (forall u, Forall (command_ok w) (script u)) ->
  let a := mkAlarm (mkWatch (Running t0) 0 p) false in
  scripted_ok script w a h ->
  timer_run w call (gel_timer_init s p (counter w t0) cb arg) h =
    map (fun o => (fst o, option_map (fun u => (cb, u, arg)) (snd o))) (scripted_run script a h).
Proof. exact timer_scripted_l. Qed.
Print Assumptions timer_scripted.

(** User 1 makes the timer periodic and shortens the period; user 2 stops it before changing its period (in vain). *)
Example timer_scripted_example :
  let script := fun u : Z => if u =? 1 then [(7, TReload 1); (9, TPause); (9, TPeriod 50)]
                             else if u =? 2 then [(0, TStop); (0, TPeriod 5)] else [] in
  let h := [(99, TPoll 1); (100, TPoll 1); (149, TPoll 2); (150, TPoll 2); (199, TPoll 0); (200, TPoll 0); (210, TRemaining)] in
  (forall u, Forall (command_ok 32) (script u)) /\
  scripted_ok script 32 (mkAlarm (mkWatch (Running 0) 0 100) false) h /\
  scripted_run script (mkAlarm (mkWatch (Running 0) 0 100) false) h =
    [(0, None); (1, Some 1); (0, None); (1, Some 2); (0, None); (1, Some 0); (40, None)].
Proof.
  cbv zeta. split; [intros u; destruct (u =? 1), (u =? 2); repeat constructor; cbn; lia|]. split; [|reflexivity].
  vm_compute. repeat match goal with |- _ /\ _ => split end; auto; discriminate.
Qed.
