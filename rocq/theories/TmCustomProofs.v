(** Simulation of the timer on a custom timestamp type. *)
From Coq Require Import ZifyBool.
From Verif Require Import Base BaseLemmas TimeModel TimeSpec TimeProofs StopwatchModel StopwatchSpec StopwatchSystem
  SwCustomModel SwCustomSpec SwCustomSystem SwCustomProofs TimerModel TimerSpec TmCustomModel TmCustomSpec TmCustomSystem.

Section P.
Variables I L T C : Z.
Hypothesis HT : 0 < T.
Hypothesis HTC : T <= C.
Hypothesis HTL : T < L.
Hypothesis HIL : I <= L.
Hypothesis HI : I <= T \/ T + 1 < I.
Context {Cb User Arg : Type}.
Variable call : Cb -> timer Cb Arg -> User -> Arg -> timer Cb Arg.

Definition trel (a : alarm) (t : timer Cb Arg) : Prop :=
  rel L T (awatch a) (stopwatch_ t) /\ reload a = negb (autoreload t =? 0).

Lemma trel_op : forall s t now o s', rel L T s t -> custom_call_ok I L T s now o -> s' = watch_step s now o ->
  rel L T s' (fst (c_call I L T C t now o)).
Proof. intros; subst. now apply (rel_step I L T C HT HTC HTL HIL HI). Qed.

Lemma trel_due : forall s t now, rel L T s t -> acc s < 2 ^ L ->
  c_is_timer_reached I L T t (counter C now) = custom_due I T s now.
Proof. intros s t now HR Ha. exact (rel_reached I L T C HT HTC HTL HIL HI s t now HR Ha). Qed.

Lemma trel_step : forall a t now o, trel a t -> custom_alarm_call_ok I L T a now o ->
  (forall u, o = TPoll u -> call (callback t) t u (targ t) = t) ->
  let '(t', (r, e)) := c_timer_call I L T C call t now o in
  trel (custom_step I T a now o) t' /\ callback t' = callback t /\ targ t' = targ t /\
  (r, e) = (fst (custom_out I T a now o),
            option_map (fun u => (callback t, u, targ t)) (snd (custom_out I T a now o))).
Proof.
  intros a t now o (HR & HA) Hok Hcb.
  assert (P2 : 0 < 2 ^ T) by (apply Z.pow_pos_nonneg; lia).
  destruct o; unfold c_timer_call.
  - split; [|auto]. split; [|exact HA].
    apply (trel_op (awatch a) (stopwatch_ t) now Stop); [exact HR|exact Logic.I|reflexivity].
  - split; [|auto]. split; [|destruct (wphase (awatch a)) eqn:E; cbn; rewrite E; exact HA].
    apply (trel_op (awatch a) (stopwatch_ t) now Start); [exact HR|exact Logic.I|].
    cbn. destruct (wphase (awatch a)) eqn:E; reflexivity.
  - split; [|auto]. split; [|destruct (wphase (awatch a)) eqn:E; cbn; rewrite E; exact HA].
    apply (trel_op (awatch a) (stopwatch_ t) now Pause); [exact HR|exact Hok|].
    cbn. destruct (wphase (awatch a)) eqn:E; reflexivity.
  - unfold c_timer_reset, stopwatch_get_state.
    assert (R1 := HR). destruct R1 as (R1 & _). rewrite R1.
    cbn [custom_step alarm_step custom_out alarm_out fst snd option_map].
    destruct (wphase (awatch a)) eqn:E; cbn [state_of]; split; auto; split; try exact HA; try exact HR.
    + apply (trel_op (awatch a) (stopwatch_ t) now Restart); [exact HR|exact Logic.I|reflexivity].
    + refine (trel_op (mkWatch (Running now) 0 (period (awatch a))) (fst (c_call I L T C (stopwatch_ t) now Restart)) now Pause _ _ _ _).
      * apply (trel_op (awatch a) (stopwatch_ t) now Restart); [exact HR|exact Logic.I|reflexivity].
      * cbn. split; [lia|reflexivity].
      * cbn. f_equal. lia.
  - unfold c_timer_change_period, stopwatch_get_state.
    assert (R1 := HR). destruct R1 as (R1 & _). rewrite R1.
    cbn [custom_step alarm_step custom_out alarm_out fst snd option_map].
    destruct (wphase (awatch a)) eqn:E; cbn [state_of]; split; auto; split; try exact HA; try exact HR.
    + apply (trel_op (awatch a) (stopwatch_ t) now (Change p)); [exact HR|exact Hok|reflexivity].
    + refine (trel_op (mkWatch (Running now) 0 p) (fst (c_call I L T C (stopwatch_ t) now (Change p))) now Pause _ _ _ _).
      * apply (trel_op (awatch a) (stopwatch_ t) now (Change p)); [exact HR|exact Hok|reflexivity].
      * cbn. split; [lia|reflexivity].
      * cbn. f_equal. lia.
  - split; [|auto]. split; [exact HR|]. cbn in *. rewrite wrap_small by lia. reflexivity.
  - cbn [custom_alarm_call_ok] in Hok. unfold c_timer_manage_callback.
    rewrite (trel_due (awatch a)) by assumption.
    cbn [custom_step custom_out]. destruct (custom_due I T (awatch a) now) eqn:E.
    + rewrite (Hcb u eq_refl). rewrite <- HA. destruct (reload a) eqn:Er.
      * split; [|auto]. split; [|cbn; rewrite <- HA; reflexivity].
        apply (trel_op (awatch a) (stopwatch_ t) now Restart); [exact HR|exact Logic.I|reflexivity].
      * split; [|auto]. split; [|cbn; rewrite <- HA; reflexivity].
        apply (trel_op (awatch a) (stopwatch_ t) now Stop); [exact HR|exact Logic.I|reflexivity].
    + split; [split; assumption|auto].
  - destruct Hok as (Hs & He). split; [split; assumption|]. split; [auto|]. split; [auto|].
    cbn. unfold c_timer_get_remaining. now rewrite (rel_remaining I L T C HT HTC HTL HIL HI (awatch a)).
Qed.

Hypothesis quiet : forall c t u a, call c t u a = t.

Lemma trel_run : forall h a t, trel a t -> custom_alarm_ok I L T a h ->
  c_timer_run I L T C call t h =
    map (fun o => (fst o, option_map (fun u => (callback t, u, targ t)) (snd o))) (custom_run I T a h).
Proof.
  induction h as [|[now o] h IH]; intros a t HR Hh; [reflexivity|].
  destruct Hh as (Hc & Hh). cbn [c_timer_run custom_run map].
  pose proof (trel_step a t now o HR Hc ltac:(auto)) as HS.
  destruct (c_timer_call I L T C call t now o) as [t' [r e]]. destruct HS as (HR' & E1 & E2 & E3).
  rewrite E3. f_equal. rewrite (IH _ t' HR' Hh). now rewrite E1, E2.
Qed.

Lemma trel_init : forall s p t0 (cb : Cb) (arg : Arg), 0 <= p < 2 ^ L ->
  trel (mkAlarm (mkWatch (Running t0) 0 p) false) (gel_timer_init s p (counter C t0) cb arg).
Proof using HT HTC HTL.
  clear - HT HTC HTL. intros. split; [|reflexivity]. unfold rel, gel_timer_init; cbn [awatch stopwatch_ wphase acc period].
  unfold stopwatch_setngo, stopwatch_set, stopwatch_start, stopwatch_init.
  cbn [fst sstate starting_time elapsed_time total_time state_of].
  assert (0 < 2 ^ L) by (apply Z.pow_pos_nonneg; lia).
  rewrite Z.mod_0_l by lia. rewrite counter_down by lia. repeat split; lia.
Qed.

Lemma custom_history_l : forall s p t0 cb arg h, 0 <= p < 2 ^ L ->
  let a := mkAlarm (mkWatch (Running t0) 0 p) false in
  custom_alarm_ok I L T a h ->
  c_timer_run I L T C call (gel_timer_init s p (counter C t0) cb arg) h =
    map (fun o => (fst o, option_map (fun u => (cb, u, arg)) (snd o))) (custom_run I T a h).
Proof.
  intros s p t0 cb arg h Hp a Hh. exact (trel_run h a _ (trel_init s p t0 cb arg Hp) Hh).
Qed.

End P.

(** * Polling only *)

Definition told {User} (o : option User) : Z * option User := match o with Some u => (1, Some u) | None => (0, None) end.

Lemma polls_ok : forall I L T User (polls : list (Z * User)) a, 0 < L -> acc (awatch a) = 0 -> custom_alarm_ok I L T a (all_polls polls).
Proof.
  intros I L T User. induction polls as [|[t u] polls IH]; intros a HL Ha; [exact Logic.I|].
  assert (0 < 2 ^ L) by (apply Z.pow_pos_nonneg; lia).
  cbn. split; [cbn; lia|]. apply IH; [exact HL|]. destruct (custom_due I T (awatch a) t); [|exact Ha]. now destruct (reload a).
Qed.

Lemma idle_run : forall I T User (polls : list (Z * User)) p r,
  custom_run I T (mkAlarm (mkWatch Idle 0 p) r) (all_polls polls) = map told (map (fun _ => None) polls).
Proof. intros I T User. induction polls as [|[t u] polls IH]; intros p r; [reflexivity|]. cbn. f_equal. apply IH. Qed.

Section Wide.
Variables I T : Z.
Hypothesis HT : 0 < T.
Hypothesis HI : I <= T.

Lemma due_wide : forall since p now, 0 < p < 2 ^ T -> 0 <= now - since <= p ->
  custom_due I T (mkWatch (Running since) 0 p) now = (since + p <=? now).
Proof.
  intros since p now Hp Hn. unfold custom_due, left_at_start; cbn [wphase period acc]. rewrite Z.sub_0_r.
  assert (0 < 2 ^ T) by (apply Z.pow_pos_nonneg; lia).
  destruct (Z.ltb_spec T I); [lia|]. rewrite !Z.mod_small by lia. lia.
Qed.

Lemma oneshot_wide : forall User (polls : list (Z * User)) t0 p last, 0 < p < 2 ^ T -> t0 <= last < t0 + p -> every_tick last polls ->
  custom_run I T (mkAlarm (mkWatch (Running t0) 0 p) false) (all_polls polls) = map told (oneshot (t0 + p) polls).
Proof.
  intros User. induction polls as [|[t u] polls IH]; intros t0 p last Hp Hl HH; [reflexivity|]. destruct HH as [H1 H2].
  cbn [all_polls map fst snd custom_run custom_out custom_step awatch reload oneshot]. rewrite due_wide by lia.
  destruct (Z.leb_spec (t0 + p) t).
  - cbn [map told]. f_equal. apply idle_run.
  - cbn [map told]. f_equal. apply (IH t0 p t); [exact Hp|lia|exact H2].
Qed.

Lemma periodic_wide : forall User (polls : list (Z * User)) since p last, 0 < p < 2 ^ T -> since <= last < since + p -> every_tick last polls ->
  custom_run I T (mkAlarm (mkWatch (Running since) 0 p) true) (all_polls polls) = map told (periodic p since polls).
Proof.
  intros User. induction polls as [|[t u] polls IH]; intros since p last Hp Hl HH; [reflexivity|]. destruct HH as [H1 H2].
  cbn [all_polls map fst snd custom_run custom_out custom_step awatch reload periodic]. rewrite due_wide by lia.
  destruct (Z.leb_spec (since + p) t).
  - cbn [map told period]. f_equal. apply (IH t p t); [exact Hp|lia|exact H2].
  - cbn [map told]. f_equal. apply (IH since p t); [exact Hp|lia|exact H2].
Qed.

End Wide.

Section Narrow.
Variables I T : Z.
Hypothesis HT : 0 < T.
Hypothesis HI : T < I.

Lemma oneshot_narrow : forall User (polls : list (Z * User)) t0 p last, 0 < p < 2 ^ T -> t0 <= last -> in_order last ((t0 / 2 ^ T + 1) * 2 ^ T) polls ->
  custom_run I T (mkAlarm (mkWatch (Running t0) 0 p) false) (all_polls polls) = map told (oneshot (t0 + p) polls).
Proof.
  intros User. induction polls as [|[t u] polls IH]; intros t0 p last Hp Hl HH; [reflexivity|]. destruct HH as [H1 H2].
  cbn [all_polls map fst snd custom_run custom_out custom_step awatch reload oneshot].
  assert (P : 0 < 2 ^ T) by (apply Z.pow_pos_nonneg; lia).
  assert (D : custom_due I T (mkWatch (Running t0) 0 p) t = (t0 + p <=? t)).
  { unfold custom_due, left_at_start; cbn [wphase period acc]. rewrite Z.sub_0_r. destruct (Z.ltb_spec T I); [|lia].
    rewrite (Z.mod_small p) by lia. unfold counter. pose proof (Z.div_mod t0 (2 ^ T) ltac:(lia)) as E. pose proof (Z.mod_pos_bound t0 (2 ^ T) P) as B.
    assert (Et : t / 2 ^ T = t0 / 2 ^ T). { symmetry. apply Z.div_unique_pos with (t - 2 ^ T * (t0 / 2 ^ T)); lia. }
    pose proof (Z.div_mod t (2 ^ T) ltac:(lia)) as E'. rewrite Et in E'. lia. }
  rewrite D. destruct (Z.leb_spec (t0 + p) t).
  - cbn [map told]. f_equal. apply idle_run.
  - cbn [map told]. f_equal. apply (IH t0 p t); [exact Hp|lia|exact H2].
Qed.

End Narrow.

Lemma never_run : forall I T User (polls : list (Z * User)) t0 p r, Forall (fun x => custom_due I T (mkWatch (Running t0) 0 p) (fst x) = false) polls ->
  custom_run I T (mkAlarm (mkWatch (Running t0) 0 p) r) (all_polls polls) = map told (map (fun _ => None) polls).
Proof.
  intros I T User. induction polls as [|[t u] polls IH]; intros t0 p r H; [reflexivity|]. inversion H as [|? ? H1 H2]; subst. cbn [fst] in H1.
  cbn [all_polls map fst snd custom_run custom_out custom_step awatch]. rewrite H1. cbn [map told]. f_equal. now apply IH.
Qed.

Section Polls.
Variables I L T C : Z.
Hypothesis HT : 0 < T.
Hypothesis HTC : T <= C.
Hypothesis HTL : T < L.
Hypothesis HIL : I <= L.
Hypothesis HI : I <= T \/ T + 1 < I.
Context {Cb User Arg : Type}.
Variable call : Cb -> timer Cb Arg -> User -> Arg -> timer Cb Arg.
Hypothesis quiet : forall c t u a, call c t u a = t.

Lemma report_told : forall (cb : Cb) (arg : Arg) (l : list (option User)), map (fun o => (fst o, option_map (fun u => (cb, u, arg)) (snd o))) (map told l) = map (report cb arg) l.
Proof. intros. rewrite map_map. apply map_ext. intros []; reflexivity. Qed.

Lemma custom_polls_l : forall s p t0 cb arg polls l, 0 <= p < 2 ^ L ->
  custom_run I T (mkAlarm (mkWatch (Running t0) 0 p) false) (all_polls polls) = map told l ->
  c_timer_run I L T C call (gel_timer_init s p (counter C t0) cb arg) (all_polls polls) = map (report cb arg) l.
Proof.
  intros s p t0 cb arg polls l Hp E.
  rewrite (custom_history_l I L T C HT HTC HTL HIL HI call quiet s p t0 cb arg) by (first [exact Hp|apply polls_ok; [lia|reflexivity]]).
  rewrite E. apply report_told.
Qed.

Lemma custom_reload_l : forall s p t0 cb arg polls l b, 0 <= p < 2 ^ L -> 0 < b < 256 ->
  custom_run I T (mkAlarm (mkWatch (Running t0) 0 p) true) (all_polls polls) = map told l ->
  c_timer_run I L T C call (gel_timer_set_autoreload (gel_timer_init s p (counter C t0) cb arg) b) (all_polls polls) = map (report cb arg) l.
Proof.
  intros s p t0 cb arg polls l b Hp Hb E.
  assert (HR : trel L T (mkAlarm (mkWatch (Running t0) 0 p) true) (gel_timer_set_autoreload (gel_timer_init s p (counter C t0) cb arg) b)).
  { destruct (trel_init L T C HT HTC HTL s p t0 cb arg Hp) as [H1 _]. split; [exact H1|]. cbn. rewrite wrap_small by lia. lia. }
  rewrite (trel_run I L T C HT HTC HTL HIL HI call quiet _ _ _ HR) by (apply polls_ok; [lia|reflexivity]).
  rewrite E. apply report_told.
Qed.

End Polls.
