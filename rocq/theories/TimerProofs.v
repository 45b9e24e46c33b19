(** Simulation of the true-time timer. *)
From Coq Require Import ZifyBool.
From Verif Require Import Base BaseLemmas TimeModel TimeSpec TimeProofs
  StopwatchModel StopwatchSpec StopwatchSystem StopwatchProofs TimerModel TimerSpec TimerSystem.

Section P.
Variable w : Z.
Hypothesis Hw : 0 < w.
Context {Cb User Arg : Type}.
Variable call : Cb -> timer Cb Arg -> User -> Arg -> timer Cb Arg.

Definition arel (a : alarm) (t : timer Cb Arg) : Prop :=
  rel w (awatch a) (stopwatch_ t) /\ reload a = negb (autoreload t =? 0).

Lemma rel_op : forall s t now o s', rel w s t -> call_ok w s now o -> s' = watch_step s now o ->
  rel w s' (fst (sw_call w t now o)).
Proof. intros; subst; now apply rel_step. Qed.

Lemma rel_reached_due : forall s t now, rel w s t -> acc s < 2 ^ w ->
  match wphase s with
  | Running since => since <= now /\ close w now (since + (period s - acc s))
  | _ => True
  end ->
  stopwatch_is_timer_reached w t (counter w now) = due s now.
Proof.
  intros s t now HR Ha Hc. rewrite (rel_reached w Hw s t now HR Ha).
  - unfold due, elapsed. destruct (wphase s); try reflexivity. lia.
  - destruct (wphase s); tauto.
Qed.

Lemma arel_step : forall a t now o, arel a t -> alarm_call_ok w a now o ->
  (forall u, o = TPoll u -> call (callback t) t u (targ t) = t) ->
  let '(t', (r, e)) := timer_call w call t now o in
  arel (alarm_step a now o) t' /\ callback t' = callback t /\ targ t' = targ t /\
  (r, e) = (fst (alarm_out a now o),
            option_map (fun u => (callback t, u, targ t)) (snd (alarm_out a now o))).
Proof.
  intros a t now o (HR & HA) Hok Hcb.
  destruct o; unfold timer_call.
  - (* stop *) split; [|auto]. split; [|exact HA].
    apply (rel_op (awatch a) (stopwatch_ t) now Stop); [exact HR|exact I|reflexivity].
  - (* resume *) split; [|auto]. split; [|destruct (wphase (awatch a)) eqn:E; cbn; rewrite E; exact HA].
    apply (rel_op (awatch a) (stopwatch_ t) now Start); [exact HR|exact I|].
    cbn. destruct (wphase (awatch a)) eqn:E; reflexivity.
  - (* pause *) split; [|auto]. split; [|destruct (wphase (awatch a)) eqn:E; cbn; rewrite E; exact HA].
    apply (rel_op (awatch a) (stopwatch_ t) now Pause); [exact HR|exact Hok|].
    cbn. destruct (wphase (awatch a)) eqn:E; reflexivity.
  - (* reset *) unfold gel_timer_reset, stopwatch_get_state.
    assert (R1 := HR). destruct R1 as (R1 & _). rewrite R1.
    cbn [alarm_step alarm_out fst snd option_map].
    destruct (wphase (awatch a)) eqn:E; cbn [state_of]; split; auto; split; try exact HA; try exact HR.
    + apply (rel_op (awatch a) (stopwatch_ t) now Restart); [exact HR|exact I|reflexivity].
    + refine (rel_op (mkWatch (Running now) 0 (period (awatch a))) (fst (sw_call w (stopwatch_ t) now Restart)) now Pause _ _ _ _).
      * apply (rel_op (awatch a) (stopwatch_ t) now Restart); [exact HR|exact I|reflexivity].
      * cbn. pose proof (pow_half w Hw). lia.
      * cbn. f_equal. lia.
  - (* change *) unfold gel_timer_change_period, stopwatch_get_state.
    assert (R1 := HR). destruct R1 as (R1 & _). rewrite R1.
    cbn [alarm_step alarm_out fst snd option_map].
    destruct (wphase (awatch a)) eqn:E; cbn [state_of]; split; auto; split; try exact HA; try exact HR.
    + apply (rel_op (awatch a) (stopwatch_ t) now (Change p)); [exact HR|exact Hok|reflexivity].
    + refine (rel_op (mkWatch (Running now) 0 p) (fst (sw_call w (stopwatch_ t) now (Change p))) now Pause _ _ _ _).
      * apply (rel_op (awatch a) (stopwatch_ t) now (Change p)); [exact HR|exact Hok|reflexivity].
      * cbn. pose proof (pow_half w Hw). lia.
      * cbn. f_equal. lia.
  - (* reload *) split; [|auto]. split; [exact HR|]. cbn in *. rewrite wrap_small by lia. reflexivity.
  - (* poll *) destruct Hok as (Ha & Hc). unfold gel_timer_manage_callback.
    rewrite (rel_reached_due (awatch a)) by assumption.
    cbn [alarm_step alarm_out]. destruct (due (awatch a) now) eqn:E.
    + rewrite (Hcb u eq_refl). rewrite <- HA. destruct (reload a) eqn:Er.
      * split; [|auto]. split; [|cbn; rewrite <- HA; reflexivity].
        apply (rel_op (awatch a) (stopwatch_ t) now Restart); [exact HR|exact I|reflexivity].
      * split; [|auto]. split; [|cbn; rewrite <- HA; reflexivity].
        apply (rel_op (awatch a) (stopwatch_ t) now Stop); [exact HR|exact I|reflexivity].
    + split; [split; assumption|auto].
  - (* remaining *) destruct Hok as (Hs & He). split; [split; assumption|]. split; [auto|]. split; [auto|].
    cbn. unfold gel_timer_get_remaining. now rewrite (rel_remaining w Hw (awatch a)).
Qed.

Hypothesis quiet : forall c t u a, call c t u a = t.

Lemma arel_run : forall h a t, arel a t -> alarm_history_ok w a h ->
  timer_run w call t h =
    map (fun o => (fst o, option_map (fun u => (callback t, u, targ t)) (snd o))) (alarm_run a h).
Proof.
  induction h as [|[now o] h IH]; intros a t HR Hh; [reflexivity|].
  destruct Hh as (Hc & Hh). cbn [timer_run alarm_run map].
  pose proof (arel_step a t now o HR Hc ltac:(auto)) as HS.
  destruct (timer_call w call t now o) as [t' [r e]]. destruct HS as (HR' & E1 & E2 & E3).
  rewrite E3. f_equal. rewrite (IH _ t' HR' Hh). now rewrite E1, E2.
Qed.

End P.

Lemma arel_init : forall w Cb Arg s p t0 (cb : Cb) (arg : Arg), 0 < w -> 0 <= p < 2 ^ w ->
  arel w (mkAlarm (mkWatch (Running t0) 0 p) false) (gel_timer_init s p (counter w t0) cb arg).
Proof.
  intros. split; [|reflexivity]. unfold rel, gel_timer_init; cbn [awatch stopwatch_ wphase acc period].
  unfold stopwatch_setngo, stopwatch_set, stopwatch_start, stopwatch_init.
  cbn [fst sstate starting_time elapsed_time total_time state_of].
  assert (0 < 2 ^ w) by (apply Z.pow_pos_nonneg; lia).
  rewrite Z.mod_0_l by lia. repeat split; lia.
Qed.

Lemma timer_history_l : forall w Cb User Arg (call : Cb -> timer Cb Arg -> User -> Arg -> timer Cb Arg)
    s p t0 cb arg h, 0 < w -> 0 <= p < 2 ^ w -> (forall c t u a, call c t u a = t) ->
  let a := mkAlarm (mkWatch (Running t0) 0 p) false in
  alarm_history_ok w a h ->
  timer_run w call (gel_timer_init s p (counter w t0) cb arg) h =
    map (fun o => (fst o, option_map (fun u => (cb, u, arg)) (snd o))) (alarm_run a h).
Proof.
  intros w Cb User Arg call s p t0 cb arg h Hw Hp Hq a Hh.
  exact (arel_run w Hw call Hq h a (gel_timer_init s p (counter w t0) cb arg) (arel_init w Cb Arg s p t0 cb arg Hw Hp) Hh).
Qed.

(** Polling only, with callbacks that may change their timer. *)
Section Poll.
Variable w : Z.
Hypothesis Hw : 0 < w.
Context {Cb User Arg : Type}.
Variable call : Cb -> timer Cb Arg -> User -> Arg -> timer Cb Arg.

Definition fire (cb : Cb) (arg : Arg) (o : option User) : Z * option (Cb * User * Arg) :=
  match o with Some u => (1, Some (cb, u, arg)) | None => (0, None) end.

Lemma stopped_polls : forall polls (t : timer Cb Arg), sstate (stopwatch_ t) = TIMER_STOPPED ->
  timer_run w call t (poll_all polls) = map (fun _ => (0, None)) polls.
Proof.
  induction polls as [|[now u] polls IH]; intros t Ht; [reflexivity|].
  cbn [poll_all map timer_run timer_call fst snd]. unfold gel_timer_manage_callback, stopwatch_is_timer_reached.
  rewrite Ht. f_equal. now apply IH.
Qed.

Lemma oneshot_run : forall cb arg p t0, 0 <= p < 2 ^ w ->
  (forall t u, autoreload t = 0 -> autoreload (call cb t u arg) = 0) ->
  forall polls t, arel w (mkAlarm (mkWatch (Running t0) 0 p) false) t -> callback t = cb -> targ t = arg ->
  polls_near w t0 (t0 + p) polls ->
  timer_run w call t (poll_all polls) = map (fire cb arg) (oneshot (t0 + p) polls).
Proof.
  intros cb arg p t0 Hp Hcb.
  induction polls as [|[now u] polls IH]; intros t HR Ec Ea Hn; [reflexivity|].
  destruct Hn as (Hn1 & Hn2 & Hn3).
  cbn [poll_all map timer_run timer_call fst snd oneshot]. unfold gel_timer_manage_callback.
  destruct HR as (HR & HA). cbn [awatch reload] in HR, HA.
  rewrite (rel_reached_due w Hw _ _ now HR).
  2:{ cbn. destruct (pow_half w Hw). lia. }
  2:{ cbn. rewrite Z.sub_0_r. tauto. }
  unfold due, elapsed; cbn [wphase period acc].
  replace (p <=? 0 + (now - t0)) with (t0 + p <=? now) by lia.
  destruct (Z.leb_spec (t0 + p) now).
  - rewrite Ec, Ea. assert (E0 : autoreload t = 0) by lia.
    rewrite (Hcb t u E0). cbn [negb Z.eqb map fire]. f_equal.
    fold (@poll_all User polls). rewrite stopped_polls by reflexivity. rewrite map_map. reflexivity.
  - cbn [map fire]. f_equal. apply IH; try assumption; [split; assumption|apply Hn3; lia].
Qed.

Lemma periodic_run : forall cb arg p, 0 <= p < 2 ^ w ->
  (forall t u, autoreload t <> 0 -> total_time (stopwatch_ t) = p -> callback t = cb -> targ t = arg ->
     let t' := call cb t u arg in
     autoreload t' <> 0 /\ total_time (stopwatch_ t') = p /\ callback t' = cb /\ targ t' = arg) ->
  forall polls last t, arel w (mkAlarm (mkWatch (Running last) 0 p) true) t -> callback t = cb -> targ t = arg ->
  polls_regular w p last polls ->
  timer_run w call t (poll_all polls) = map (fire cb arg) (periodic p last polls).
Proof.
  intros cb arg p Hp Hcb.
  induction polls as [|[now u] polls IH]; intros last t HR Ec Ea Hn; [reflexivity|].
  destruct Hn as (Hn1 & Hn2 & Hn3).
  cbn [poll_all map timer_run timer_call fst snd periodic]. unfold gel_timer_manage_callback.
  destruct HR as (HR & HA). cbn [awatch reload] in HR, HA.
  rewrite (rel_reached_due w Hw _ _ now HR).
  2:{ cbn. destruct (pow_half w Hw). lia. }
  2:{ cbn. rewrite Z.sub_0_r. tauto. }
  unfold due, elapsed; cbn [wphase period acc].
  replace (p <=? 0 + (now - last)) with (last + p <=? now) by lia.
  destruct (Z.leb_spec (last + p) now).
  - rewrite Ec, Ea. assert (E0 : autoreload t <> 0) by lia.
    assert (Ep : total_time (stopwatch_ t) = p) by (destruct HR as (_ & E & _); exact E).
    destruct (Hcb t u E0 Ep Ec Ea) as (C1 & C2 & C3 & C4).
    destruct (Z.eqb_spec (autoreload (call cb t u arg)) 0); [contradiction|].
    cbn [negb map fire]. f_equal.
    apply IH; try assumption. split; [|cbn [reload with_sw autoreload]; lia].
    assert (0 < 2 ^ w) by (apply Z.pow_pos_nonneg; lia).
    unfold rel. cbn [awatch with_sw stopwatch_ wphase acc period stopwatch_restart stopwatch_stop stopwatch_start
      fst sstate starting_time elapsed_time total_time state_of].
    rewrite Z.mod_0_l by lia. repeat split; try lia.
  - cbn [map fire]. f_equal. apply IH; try assumption; split; assumption.
Qed.

End Poll.

(** Callbacks that use their timer. *)
Section Scripted.
Variable w : Z.
Hypothesis Hw : 0 < w.
Context {Cb User Arg : Type}.

Definition halted (t : timer Cb Arg) : bool := match sstate (stopwatch_ t) with TIMER_STOPPED => true | _ => false end.

Lemma obey_l : forall l (t : timer Cb Arg), Forall (command_ok w) l -> 0 <= total_time (stopwatch_ t) < 2 ^ w ->
  let t' := obey w l t in
  (total_time (stopwatch_ t'), negb (autoreload t' =? 0)) =
    effect (halted t) (total_time (stopwatch_ t)) (negb (autoreload t =? 0)) l /\
  callback t' = callback t /\ targ t' = targ t /\ 0 <= total_time (stopwatch_ t') < 2 ^ w.
Proof.
  induction l as [|[c o] l IH]; intros t Hl Ht.
  - cbn. auto.
  - apply Forall_cons_iff in Hl as [Hc Hl]. cbv zeta in *.
    assert (go : forall t1 st p r, obey w ((c, o) :: l) t = obey w l t1 -> halted t1 = st -> total_time (stopwatch_ t1) = p ->
      0 <= p < 2 ^ w -> negb (autoreload t1 =? 0) = r -> callback t1 = callback t -> targ t1 = targ t ->
      effect (halted t) (total_time (stopwatch_ t)) (negb (autoreload t =? 0)) ((c, o) :: l) = effect st p r l ->
      (total_time (stopwatch_ (obey w ((c, o) :: l) t)), negb (autoreload (obey w ((c, o) :: l) t) =? 0)) =
        effect (halted t) (total_time (stopwatch_ t)) (negb (autoreload t =? 0)) ((c, o) :: l) /\
      callback (obey w ((c, o) :: l) t) = callback t /\ targ (obey w ((c, o) :: l) t) = targ t /\
      0 <= total_time (stopwatch_ (obey w ((c, o) :: l) t)) < 2 ^ w).
    { intros t1 st p r E1 E2 E3 E4 E5 E6 E7 E8. rewrite E1, E8. subst st p r. destruct (IH t1 Hl E4) as (A & B & C & D).
      rewrite <- A, B, C. auto. }
    unfold command_ok in Hc. cbn [snd] in Hc.
    destruct o as [| | | |p|b|u|]; [| | | | | |destruct u|]; (eapply go; [reflexivity|reflexivity|reflexivity| |reflexivity|..]); clear go IH;
      unfold halted, gel_timer_stop, gel_timer_resume, stopwatch_start, gel_timer_pause, stopwatch_pause, gel_timer_reset, gel_timer_change_period,
        gel_timer_set_autoreload, stopwatch_get_state; cbn [effect];
      try (destruct (sstate (stopwatch_ t)) eqn:E; cbn; rewrite ?E; auto; fail).
    cbn [snd autoreload stopwatch_]. rewrite wrap_small by lia. reflexivity.
Qed.

Variable call : Cb -> timer Cb Arg -> User -> Arg -> timer Cb Arg.
Variable script : User -> list command.
Variables (cb : Cb) (arg : Arg).
Hypothesis Hscript : forall t u, call cb t u arg = obey w (script u) t.
Hypothesis Hok : forall u, Forall (command_ok w) (script u).

Lemma scripted_poll : forall a t now u, arel w a t -> alarm_call_ok w a now (TPoll u) -> callback t = cb -> targ t = arg ->
  let '(t', (r, e)) := timer_call w call t now (TPoll u) in
  arel w (scripted_step script a now (TPoll u)) t' /\ callback t' = cb /\ targ t' = arg /\
  (r, e) = (fst (alarm_out a now (TPoll u)), option_map (fun u => (cb, u, arg)) (snd (alarm_out a now (TPoll u)))).
Proof using Hw Hscript Hok.
  intros a t now u (HR & HA) (Ha & Hc) Ec Ea. unfold timer_call, gel_timer_manage_callback.
  rewrite (rel_reached_due w Hw (awatch a)) by assumption. cbn [scripted_step alarm_out].
  destruct (due (awatch a) now) eqn:E; [|split; [split; assumption|auto]].
  rewrite Ec, Ea, Hscript. assert (R := HR). destruct R as (R1 & R2 & R3 & _).
  assert (Hh : halted t = false). { unfold halted. rewrite R1. unfold due in E. destruct (wphase (awatch a)); [discriminate|reflexivity|reflexivity]. }
  destruct (obey_l (script u) t (Hok u)) as (O1 & O2 & O3 & O4); [rewrite R2; exact R3|].
  set (t1 := obey w (script u) t) in *. rewrite Hh, R2, <- HA in O1. rewrite <- O1.
  assert (0 < 2 ^ w) by (apply Z.pow_pos_nonneg; lia).
  destruct (negb (autoreload t1 =? 0)) eqn:Er; cbn [fst snd option_map]; (split; [|cbn [with_sw callback targ]; rewrite O2, O3; auto]).
  - split; [|cbn [reload with_sw autoreload]; auto].
    unfold rel. cbn [awatch with_sw stopwatch_ wphase acc period stopwatch_restart stopwatch_stop stopwatch_start
      fst sstate starting_time elapsed_time total_time state_of]. rewrite Z.mod_0_l by lia. repeat split; lia.
  - split; [|cbn [reload with_sw autoreload]; auto].
    unfold rel. cbn [awatch with_sw stopwatch_ wphase acc period stopwatch_restart stopwatch_stop stopwatch_start
      fst sstate starting_time elapsed_time total_time state_of]. rewrite Z.mod_0_l by lia. repeat split; lia.
Qed.

Lemma scripted_run_l : forall h a t, arel w a t -> callback t = cb -> targ t = arg -> scripted_ok script w a h ->
  timer_run w call t h = map (fun o => (fst o, option_map (fun u => (cb, u, arg)) (snd o))) (scripted_run script a h).
Proof using Hw Hscript Hok.
  induction h as [|[now o] h IH]; intros a t HR Ec Ea Hh; [reflexivity|]. destruct Hh as (Hc & Hh). cbn [timer_run scripted_run map].
  assert (HS : let '(t', (r, e)) := timer_call w call t now o in
    arel w (scripted_step script a now o) t' /\ callback t' = cb /\ targ t' = arg /\
    (r, e) = (fst (alarm_out a now o), option_map (fun u => (cb, u, arg)) (snd (alarm_out a now o)))).
  { assert (NP : (forall u, o <> TPoll u) -> scripted_step script a now o = alarm_step a now o).
    { destruct o; try reflexivity. intros H. now destruct (H u). }
    assert (ST := arel_step w Hw call a t now o HR Hc). rewrite Ec, Ea in ST.
    destruct o as [| | | |p|b|u|]; [| | | | | |exact (scripted_poll a t now u HR Hc Ec Ea)|];
      (rewrite NP by (intros u Hq; discriminate Hq); apply ST; intros u Hq; discriminate Hq). }
  destruct (timer_call w call t now o) as [t' [r e]]. destruct HS as (HR' & E1 & E2 & E3). rewrite E3. f_equal. now apply IH.
Qed.

End Scripted.

Lemma timer_scripted_l : forall w Cb User Arg (call : Cb -> timer Cb Arg -> User -> Arg -> timer Cb Arg) script
    s p t0 cb arg h, 0 < w -> 0 <= p < 2 ^ w -> (forall t u, call cb t u arg = obey w (script u) t) ->
  (forall u, Forall (command_ok w) (script u)) ->
  let a := mkAlarm (mkWatch (Running t0) 0 p) false in
  scripted_ok script w a h ->
  timer_run w call (gel_timer_init s p (counter w t0) cb arg) h =
    map (fun o => (fst o, option_map (fun u => (cb, u, arg)) (snd o))) (scripted_run script a h).
Proof.
  intros w Cb User Arg call script s p t0 cb arg h Hw Hp Hs Hc a Hh.
  exact (scripted_run_l w Hw call script cb arg Hs Hc h a _ (arel_init w Cb Arg s p t0 cb arg Hw Hp) eq_refl eq_refl Hh).
Qed.
