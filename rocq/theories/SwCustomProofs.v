(** Proofs about stopwatches on custom timestamp types. *)
From Coq Require Import ZifyBool.
From Verif Require Import Base BaseLemmas TimeModel TimeSpec TimeProofs StopwatchModel StopwatchSpec
  StopwatchSystem SwCustomModel SwCustomSpec SwCustomSystem.

Lemma counter_down : forall T C n, 0 < T <= C -> wrap T (counter C n) = counter T n.
Proof.
  intros T C n H. unfold wrap, counter.
  assert (0 < 2 ^ T) by (apply Z.pow_pos_nonneg; lia).
  assert (0 < 2 ^ (C - T)) by (apply Z.pow_pos_nonneg; lia).
  replace (2 ^ C) with (2 ^ T * 2 ^ (C - T)) by (rewrite <- Z.pow_add_r by lia; f_equal; lia).
  rewrite Z.rem_mul_r by lia. rewrite Z.mul_comm, Z_mod_plus_full. apply Z.mod_mod. lia.
Qed.

(** *** The default type *)

Section Default.
Variables I L : Z.
Hypothesis HI : I <= L.
Hypothesis HL : 0 < L.

Lemma time_same : forall a b d, 0 <= a < 2 ^ L -> 0 <= b < 2 ^ L -> 0 <= d < 2 ^ L ->
  time_interval I L L (wrap L a) (wrap L b) = time_interval L L L a b /\
  is_expired I L L (wrap L a) (wrap L b) (wrap L d) = is_expired L L L a b d.
Proof.
  intros a b d Ha Hb Hd. rewrite !wrap_small by assumption.
  assert (E : forall x, arith I L x = arith L L x).
  { intros. now rewrite !arith_wide by lia. }
  unfold time_interval, is_expired, is_loosely_expired, time_after_or_equal, time_after. now rewrite !E.
Qed.

Definition in_range (t : stopwatch) : Prop :=
  0 <= starting_time t < 2 ^ L /\ 0 <= elapsed_time t < 2 ^ L /\ 0 <= total_time t < 2 ^ L.

Definition arg_ok (o : sw_op) : Prop :=
  match o with Change v | SetPeriod v | SetElapsed v => 0 <= v < 2 ^ L | _ => True end.

Lemma default_queries_l : forall t n, in_range t -> 0 <= n < 2 ^ L ->
  c_get_elapsed I L L t n = stopwatch_get_elapsed L t n /\
  c_get_remaining I L L t n = stopwatch_get_remaining L t n /\
  c_is_timer_reached I L L t n = stopwatch_is_timer_reached L t n /\
  c_pause I L L t n = stopwatch_pause L t n.
Proof.
  intros t n (R1 & R2 & R3) Hn.
  assert (P : 0 < 2 ^ L) by (apply Z.pow_pos_nonneg; lia).
  pose proof (wrap_range L (total_time t - elapsed_time t) ltac:(lia)) as Rw.
  destruct (time_same (starting_time t) n _ R1 Hn Rw) as (E1 & E2).
  assert (E : c_get_elapsed I L L t n = stopwatch_get_elapsed L t n).
  { unfold c_get_elapsed, stopwatch_get_elapsed. now rewrite E1. }
  split; [exact E|]. split; [|split].
  - unfold c_get_remaining, stopwatch_get_remaining. now rewrite E.
  - unfold c_is_timer_reached, stopwatch_is_timer_reached. now rewrite E2.
  - unfold c_pause, stopwatch_pause. now rewrite E1.
Qed.

Lemma range_call : forall t now o, in_range t -> arg_ok o -> in_range (fst (sw_call L t now o)).
Proof.
  intros t now o (R1 & R2 & R3) Ho.
  assert (P : 0 < 2 ^ L) by (apply Z.pow_pos_nonneg; lia).
  assert (Q : 0 <= counter L now < 2 ^ L) by (apply Z.mod_pos_bound; lia).
  unfold in_range, sw_call, stopwatch_change, stopwatch_restart, stopwatch_stop, stopwatch_start, stopwatch_pause,
    stopwatch_set, stopwatch_set_elapsed.
  destruct o; cbn [arg_ok] in Ho; cbn [sstate]; try destruct (sstate t);
    cbn [fst snd sstate starting_time elapsed_time total_time];
    try (pose proof (wrap_range L (elapsed_time t + time_interval L L L (starting_time t) (counter L now)) ltac:(lia)));
    repeat split; lia.
Qed.

Lemma default_run_l : forall h t, in_range t -> Forall (fun x => arg_ok (snd x)) h ->
  c_run I L L L t h = sw_run L t h /\ in_range (sw_run L t h).
Proof.
  induction h as [|[now o] h IH]; intros t HR Hh; [now split|].
  inversion Hh as [|? ? Ho Hh']; subst. cbn [snd] in Ho.
  assert (E : c_call I L L L t now o = sw_call L t now o).
  { destruct o; try reflexivity. cbn [c_call sw_call]. apply default_queries_l; [exact HR|].
    apply Z.mod_pos_bound, Z.pow_pos_nonneg; lia. }
  cbn [c_run sw_run fold_left fst snd]. rewrite E.
  apply IH; [|exact Hh']. now apply range_call.
Qed.

Lemma in_range_init : forall t, in_range (stopwatch_init t).
Proof.
  intros. assert (0 < 2 ^ L) by (apply Z.pow_pos_nonneg; lia).
  unfold in_range, stopwatch_init; cbn. lia.
Qed.

End Default.

(** *** Narrower types *)

Section P.
Variables I L T C : Z.
Hypothesis HT : 0 < T.
Hypothesis HTC : T <= C.
Hypothesis HTL : T < L.
Hypothesis HIL : I <= L.
Hypothesis HI : I <= T \/ T + 1 < I.

Lemma pT : 0 < 2 ^ T.
Proof. apply Z.pow_pos_nonneg; lia. Qed.
Lemma pL : 0 < 2 ^ L.
Proof. apply Z.pow_pos_nonneg; lia. Qed.
Lemma cT : forall n, 0 <= counter T n < 2 ^ T.
Proof. intros. apply Z.mod_pos_bound, pT. Qed.

Definition rel (s : watch) (t : stopwatch) : Prop :=
  sstate t = state_of (wphase s) /\
  total_time t = period s /\ 0 <= period s < 2 ^ L /\
  elapsed_time t = acc s mod 2 ^ L /\ 0 <= acc s /\
  match wphase s with Running since => wrap T (starting_time t) = counter T since | _ => True end.

Lemma interval_run : forall since now,
  0 <= now - since < 2 ^ T -> (T < I -> since / 2 ^ T = now / 2 ^ T) ->
  time_interval I L T (counter T since) (counter T now) = now - since.
Proof.
  intros since now Hr Hw. pose proof pT. pose proof (cT since). pose proof (cT now).
  destruct HI as [Hi|Hi].
  - destruct (narrow_long_all_l I L T (counter T since) (counter T now) 0) as (_ & E & _); try lia.
    rewrite E. unfold counter. rewrite <- Zminus_mod. now apply Z.mod_small.
  - destruct (narrow_int_l I L T (counter T since) (counter T now)) as (_ & _ & E); try lia.
    rewrite E. specialize (Hw ltac:(lia)). unfold counter.
    pose proof (Z.div_mod since (2 ^ T) ltac:(lia)). pose proof (Z.div_mod now (2 ^ T) ltac:(lia)).
    rewrite Hw in *. lia.
Qed.

Lemma rel_init : forall t, rel new_watch (stopwatch_init t).
Proof.
  intros. pose proof pL. unfold rel, new_watch, stopwatch_init;
    cbn [sstate starting_time elapsed_time total_time wphase acc period state_of].
  rewrite Z.mod_0_l by lia. repeat split; lia.
Qed.

Lemma down : forall n, wrap T (counter C n) = counter T n.
Proof. intros. apply counter_down; lia. Qed.

Lemma rel_step : forall s t now o, rel s t -> custom_call_ok I L T s now o ->
  rel (watch_step s now o) (fst (c_call I L T C t now o)).
Proof.
  intros s t now o HR Hc. pose proof pL.
  destruct HR as (R1 & R2 & R3 & R4 & R5 & R6).
  unfold rel, c_call, watch_step, stopwatch_start, stopwatch_stop, c_pause, stopwatch_restart,
    stopwatch_change, stopwatch_set, stopwatch_set_elapsed, stopwatch_stop, elapsed.
  destruct o; cbn [sstate]; rewrite ?R1; unfold state_of; destruct (wphase s) eqn:Ep;
    cbn [fst snd sstate starting_time elapsed_time total_time wphase acc period];
    unfold custom_call_ok in Hc;
    try (rewrite R1, ?Ep); repeat split;
    cbn [fst snd sstate starting_time elapsed_time total_time wphase acc period] in *;
    rewrite ?down; rewrite ?Z.mod_0_l by lia; try lia; try assumption; try (rewrite Ep in R6; exact R6);
    try (rewrite Z.mod_small; lia).
  all: try exact (down now); unfold stretch_fits in Hc; rewrite Ep in Hc; destruct Hc as (Hc1 & Hc2); try lia.
  rewrite R6, R4, interval_run by assumption. unfold wrap. now rewrite Z.add_mod_idemp_l by lia.
Qed.

Lemma rel_run : forall h s t, rel s t -> custom_history_ok I L T s h ->
  rel (watch_run s h) (c_run I L T C t h).
Proof.
  induction h as [|[now o] h IH]; intros s t HR Hh; [exact HR|].
  destruct Hh as (Hc & Hh). cbn. apply IH; [|exact Hh]. now apply rel_step.
Qed.

Lemma rel_elapsed : forall s t now, rel s t -> stretch_fits I T s now ->
  c_get_elapsed I L T t (counter C now) = elapsed s now mod 2 ^ L.
Proof.
  intros s t now (R1 & R2 & R3 & R4 & R5 & R6) Hs. pose proof pL.
  unfold c_get_elapsed, elapsed. rewrite R1. unfold stretch_fits in Hs.
  destruct (wphase s); cbn [state_of]; try exact R4. destruct Hs.
  rewrite down, R6, R4, interval_run by assumption. unfold wrap. now rewrite Z.add_mod_idemp_l by lia.
Qed.

Lemma elapsed_nonneg : forall s t now, rel s t -> stretch_fits I T s now -> 0 <= elapsed s now.
Proof.
  intros s t now (R1 & R2 & R3 & R4 & R5 & R6) Hs. unfold elapsed, stretch_fits in *.
  destruct (wphase s); lia.
Qed.

Lemma rel_remaining : forall s t now, rel s t -> stretch_fits I T s now -> elapsed s now < 2 ^ L ->
  c_get_remaining I L T t (counter C now) = Z.max 0 (period s - elapsed s now).
Proof.
  intros s t now HR Hs He. unfold c_get_remaining. rewrite (rel_elapsed s) by assumption.
  pose proof (elapsed_nonneg s t now HR Hs).
  destruct HR as (R1 & R2 & R3 & R4 & R5 & R6). rewrite R2. cbv zeta.
  rewrite Z.mod_small by lia.
  destruct (Z.ltb_spec (elapsed s now) (period s)); [|lia].
  rewrite wrap_small by lia. lia.
Qed.

Lemma rel_reached : forall s t now, rel s t -> acc s < 2 ^ L ->
  c_is_timer_reached I L T t (counter C now) =
    match wphase s with
    | Idle => false
    | Held => period s <=? acc s
    | Running since =>
        (left_at_start s <=? 0) ||
        (if T <? I then counter T since + left_at_start s mod 2 ^ T <=? counter T now
         else (now - since) mod 2 ^ T =? left_at_start s mod 2 ^ T)
    end.
Proof.
  intros s t now (R1 & R2 & R3 & R4 & R5 & R6) Ha. pose proof pL. pose proof pT.
  unfold c_is_timer_reached, left_at_start. rewrite R1, R2, R4. rewrite Z.mod_small by lia.
  destruct (wphase s) as [|since|]; cbn [state_of]; try reflexivity.
  destruct (Z.ltb_spec (acc s) (period s)).
  - destruct (Z.leb_spec (period s - acc s) 0); [lia|]. cbn [orb].
    rewrite R6, down, (wrap_small L (period s - acc s)) by lia.
    set (p := period s - acc s). unfold wrap. pose proof (Z.mod_pos_bound p (2 ^ T) ltac:(lia)) as Rp.
    pose proof (cT since). pose proof (cT now). destruct HI as [Hi|Hi].
    + destruct (narrow_long_all_l I L T (counter T since) (counter T now) (p mod 2 ^ T)) as (_ & _ & E & _);
        try lia.
      rewrite E. destruct (Z.ltb_spec T I); [lia|]. unfold counter.
      rewrite <- Zplus_mod. apply Bool.eq_iff_eq_true. rewrite !Z.eqb_eq. split; intros X.
      * rewrite Zminus_mod, X, <- Zminus_mod. f_equal. lia.
      * replace now with (since + (now - since)) at 1 by lia.
        rewrite Zplus_mod, X, <- Zplus_mod. reflexivity.
    + destruct (narrow_int_expired_l I L T (counter T since) (counter T now) (p mod 2 ^ T)) as (E & _);
        try lia.
      rewrite E. destruct (Z.ltb_spec T I); [reflexivity|lia].
  - destruct (Z.leb_spec (period s - acc s) 0); [reflexivity|lia].
Qed.

Lemma custom_elapsed_l : forall t h now, custom_history_ok I L T new_watch h ->
  let s := watch_run new_watch h in let m := c_run I L T C (stopwatch_init t) h in
  stretch_fits I T s now ->
  c_get_elapsed I L T m (counter C now) = elapsed s now mod 2 ^ L /\
  (elapsed s now < 2 ^ L ->
   c_get_remaining I L T m (counter C now) = Z.max 0 (period s - elapsed s now)) /\
  stopwatch_get_state m = state_of (wphase s).
Proof.
  intros t h now Hh s m Hs.
  pose proof (rel_run h _ _ (rel_init t) Hh) as HR.
  split; [now apply rel_elapsed|]. split; [intros; now apply rel_remaining|].
  apply HR.
Qed.

Lemma custom_reached_l : forall t h now, custom_history_ok I L T new_watch h ->
  let s := watch_run new_watch h in let m := c_run I L T C (stopwatch_init t) h in
  acc s < 2 ^ L ->
  c_is_timer_reached I L T m (counter C now) =
    match wphase s with
    | Idle => false
    | Held => period s <=? acc s
    | Running since =>
        (left_at_start s <=? 0) ||
        (if T <? I then counter T since + left_at_start s mod 2 ^ T <=? counter T now
         else (now - since) mod 2 ^ T =? left_at_start s mod 2 ^ T)
    end.
Proof.
  intros t h now Hh s m Ha.
  pose proof (rel_run h _ _ (rel_init t) Hh) as HR. now apply rel_reached.
Qed.

End P.
