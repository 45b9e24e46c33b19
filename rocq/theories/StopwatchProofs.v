(** Simulation of the true-time stopwatch. *)
From Coq Require Import ZifyBool.
From Verif Require Import Base BaseLemmas TimeModel TimeSpec TimeProofs StopwatchModel StopwatchSpec StopwatchSystem.

Section P.
Variable w : Z.
Hypothesis Hw : 0 < w.

Lemma pow_pos : 0 < 2 ^ w.
Proof. apply Z.pow_pos_nonneg; lia. Qed.

Definition rel (s : watch) (t : stopwatch) : Prop :=
  sstate t = state_of (wphase s) /\
  total_time t = period s /\ 0 <= period s < 2 ^ w /\
  elapsed_time t = acc s mod 2 ^ w /\ 0 <= acc s /\
  match wphase s with Running since => starting_time t = counter w since | _ => True end.

Lemma interval_run : forall since now, 0 <= now - since < 2 ^ (w - 1) ->
  time_interval w w w (counter w since) (counter w now) = now - since.
Proof.
  intros. rewrite time_interval_l; try lia. unfold close. lia.
Qed.

Lemma rel_init : forall t, rel new_watch (stopwatch_init t).
Proof.
  intros. pose proof pow_pos. unfold rel, new_watch, stopwatch_init;
    cbn [sstate starting_time elapsed_time total_time wphase acc period state_of].
  rewrite Z.mod_0_l by lia. repeat split; lia.
Qed.

Lemma rel_step : forall s t now o, rel s t -> call_ok w s now o ->
  rel (watch_step s now o) (fst (sw_call w t now o)).
Proof.
  intros s t now o HR Hc. pose proof pow_pos.
  destruct HR as (R1 & R2 & R3 & R4 & R5 & R6).
  unfold rel, sw_call, watch_step, stopwatch_start, stopwatch_stop, stopwatch_pause, stopwatch_restart,
    stopwatch_change, stopwatch_set, stopwatch_set_elapsed, stopwatch_stop, elapsed.
  destruct o; cbn [sstate]; rewrite ?R1; unfold state_of; destruct (wphase s) eqn:Ep;
    cbn [fst snd sstate starting_time elapsed_time total_time wphase acc period];
    unfold call_ok in Hc;
    try (rewrite R1, ?Ep); repeat split;
    cbn [fst snd sstate starting_time elapsed_time total_time wphase acc period] in *;
    rewrite ?Z.mod_0_l by lia; try lia; try assumption; try (rewrite Ep in R6; exact R6);
    try (rewrite Z.mod_small; lia).
  all: unfold stretch_ok in Hc; rewrite Ep in Hc; try rewrite R6, R4; try rewrite interval_run by assumption;
    unfold wrap; try rewrite Z.add_mod_idemp_l by lia; try reflexivity; try lia.
Qed.

Lemma rel_run : forall h s t, rel s t -> history_ok w s h -> rel (watch_run s h) (sw_run w t h).
Proof.
  induction h as [|[now o] h IH]; intros s t HR Hh; [exact HR|].
  destruct Hh as (Hc & Hh). cbn. apply IH; [|exact Hh]. now apply rel_step.
Qed.

Lemma rel_elapsed : forall s t now, rel s t -> stretch_ok w s now ->
  stopwatch_get_elapsed w t (counter w now) = elapsed s now mod 2 ^ w.
Proof.
  intros s t now (R1 & R2 & R3 & R4 & R5 & R6) Hs. pose proof pow_pos.
  unfold stopwatch_get_elapsed, elapsed. rewrite R1. unfold stretch_ok in Hs.
  destruct (wphase s); cbn [state_of]; try exact R4.
  rewrite R6, R4, interval_run by assumption. unfold wrap. now rewrite Z.add_mod_idemp_l by lia.
Qed.

Lemma elapsed_nonneg : forall s t now, rel s t -> stretch_ok w s now -> 0 <= elapsed s now.
Proof.
  intros s t now (R1 & R2 & R3 & R4 & R5 & R6) Hs. unfold elapsed, stretch_ok in *.
  destruct (wphase s); lia.
Qed.

Lemma rel_remaining : forall s t now, rel s t -> stretch_ok w s now -> elapsed s now < 2 ^ w ->
  stopwatch_get_remaining w t (counter w now) = Z.max 0 (period s - elapsed s now).
Proof.
  intros s t now HR Hs He. unfold stopwatch_get_remaining. rewrite (rel_elapsed s) by assumption.
  pose proof (elapsed_nonneg s t now HR Hs).
  destruct HR as (R1 & R2 & R3 & R4 & R5 & R6). rewrite R2. cbv zeta.
  rewrite Z.mod_small by lia.
  destruct (Z.ltb_spec (elapsed s now) (period s)); [|lia].
  rewrite wrap_small by lia. lia.
Qed.

(** Expiry needs the instant to be near the deadline only. *)
Lemma rel_reached : forall s t now, rel s t -> acc s < 2 ^ w ->
  match wphase s with
  | Running since => acc s < period s -> close w now (since + (period s - acc s))
  | _ => True
  end ->
  stopwatch_is_timer_reached w t (counter w now) =
    match wphase s with
    | Idle => false
    | Held => period s <=? acc s
    | Running since => (period s <=? acc s) || (since + (period s - acc s) <=? now)
    end.
Proof.
  intros s t now (R1 & R2 & R3 & R4 & R5 & R6) Ha Hc. pose proof pow_pos.
  unfold stopwatch_is_timer_reached. rewrite R1, R2, R4. rewrite Z.mod_small by lia.
  destruct (wphase s); cbn [state_of]; try reflexivity.
  destruct (Z.ltb_spec (acc s) (period s)).
  - rewrite R6, (wrap_small w (period s - acc s)) by lia. rewrite is_expired_l; try lia. now apply Hc.
  - lia.
Qed.

End P.

Lemma sw_elapsed_l : forall w t h now, 0 < w -> history_ok w new_watch h ->
  stretch_ok w (watch_run new_watch h) now ->
  stopwatch_get_elapsed w (sw_run w (stopwatch_init t) h) (counter w now)
    = elapsed (watch_run new_watch h) now mod 2 ^ w.
Proof. intros. apply rel_elapsed; try assumption. apply rel_run; try assumption. now apply rel_init. Qed.

Lemma sw_state_l : forall w t h, 0 < w -> history_ok w new_watch h ->
  stopwatch_get_state (sw_run w (stopwatch_init t) h) = state_of (wphase (watch_run new_watch h)) /\
  stopwatch_get_total_time (sw_run w (stopwatch_init t) h) = period (watch_run new_watch h).
Proof.
  intros w t h Hw Hh. assert (R : rel w (watch_run new_watch h) (sw_run w (stopwatch_init t) h))
    by (apply rel_run; try assumption; now apply rel_init).
  split; apply R.
Qed.

Lemma sw_codes_l : forall w t h now o, 0 < w -> history_ok w new_watch h ->
  let s := watch_run new_watch h in let m := sw_run w (stopwatch_init t) h in
  (o = Stop -> wphase s <> Idle) ->
  if refused o (wphase s) then sw_call w m now o = (m, -1) else snd (sw_call w m now o) = 0.
Proof.
  intros w t h now o Hw Hh s m Ho.
  assert (R : rel w s m) by (apply rel_run; try assumption; now apply rel_init).
  destruct R as (R1 & _).
  unfold refused, sw_call, stopwatch_start, stopwatch_pause, stopwatch_restart, stopwatch_stop,
    stopwatch_set, stopwatch_set_elapsed.
  destruct o; rewrite ?R1; destruct (wphase s); cbn; try reflexivity; now specialize (Ho eq_refl).
Qed.

Lemma sw_reached_l : forall w t h now, 0 < w -> history_ok w new_watch h ->
  let s := watch_run new_watch h in let m := sw_run w (stopwatch_init t) h in
  stretch_ok w s now -> elapsed s now < 2 ^ w -> period s < 2 ^ (w - 1) ->
  stopwatch_get_remaining w m (counter w now) = Z.max 0 (period s - elapsed s now) /\
  stopwatch_is_timer_reached w m (counter w now) =
    match wphase s with Idle => false | _ => period s <=? elapsed s now end.
Proof.
  intros w t h now Hw Hh s m Hs He Hp.
  assert (R : rel w s m) by (apply rel_run; try assumption; now apply rel_init).
  split; [now apply rel_remaining|].
  assert (R' := R). destruct R' as (R1 & R2 & R3 & R4 & R5 & R6). clear R1 R2 R4 R6.
  unfold elapsed, stretch_ok in *.
  rewrite (rel_reached w Hw s m now R).
  - destruct (wphase s); lia.
  - destruct (wphase s); lia.
  - destruct (wphase s); auto. intros. unfold close. lia.
Qed.
