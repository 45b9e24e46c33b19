(** Pulses of bouncing signals are counted once each; the count cannot grow faster than the filter allows. *)
From Coq Require Import ZifyBool.
From Verif Require Import Base BaseLemmas PulseModel PulseSpec PulseSystem PulseProofs PulseRateSpec.

Section P.
Variables (d : Z) (high : bool).
Hypothesis Hd : 0 <= d.

Definition cs (s : (bool * Z) * Z) (b : bool) : (bool * Z) * Z :=
  let lr' := debounced d (fst s) b in (lr', if counted high (fst (fst s)) (fst lr') then snd s + 1 else snd s).

Lemma ref_samples : forall init i words,
  pulse_ref high d init i (map PFilter words) = fold_left cs (map (fun x => Z.testbit x i) words) (Z.testbit init i, 0, 0).
Proof.
  intros init i words. unfold pulse_ref. generalize (Z.testbit init i, 0, 0).
  induction words as [|x words IH]; intros s; [reflexivity|]. cbn [map fold_left]. rewrite IH. f_equal.
  destruct s as [lr n]. reflexivity.
Qed.

(** Contrary samples in a row: the level changes at the one that completes [d]+1. *)
Lemma run_changes : forall k lv run n, 0 <= run <= d -> (Z.of_nat k + run = d + 1)%Z -> (0 < k)%nat ->
  fold_left cs (repeat (negb lv) k) (lv, run, n) = (negb lv, 0, if eqb lv high then n + 1 else n).
Proof.
  induction k as [|k IH]; intros lv run n Hr Hk H0; [lia|]. cbn [repeat fold_left]. unfold cs at 2. cbn [fst snd debounced].
  replace (eqb (negb lv) lv) with false by now destruct lv. destruct (Z.eqb_spec run d) as [->|Hne].
  - assert (k = 0%nat) by lia. subst k. cbn [repeat fold_left fst]. unfold counted. now destruct high, lv.
  - destruct k as [|k]; [lia|]. cbn [fst]. replace (counted high lv lv) with false by (unfold counted; now destruct high, lv).
    rewrite (IH lv (run + 1) n); try lia. reflexivity.
Qed.

Lemma cs_run : forall lv run n b, 0 <= run <= d -> 0 <= snd (fst (cs (lv, run, n) b)) <= d.
Proof.
  intros lv run n b Hr. unfold cs. cbn [fst snd debounced]. destruct (eqb b lv); cbn; [lia|].
  destruct (Z.eqb_spec run d); cbn; lia.
Qed.

Lemma stays_no_count : forall lv, counted high lv lv = false.
Proof. intros lv. unfold counted. now destruct high, lv. Qed.

(** At the latest when [d]+1 contrary samples in a row have come, the level changes; until then nothing is counted. *)
Lemma accept_l : forall l lv run n, 0 <= run <= d -> has_run d (negb lv) l ->
  exists x y, l = x ++ y /\ fold_left cs x (lv, run, n) = (negb lv, 0, if eqb lv high then n + 1 else n).
Proof.
  induction l as [|b l IH]; intros lv run n Hr (x & y & E).
  - destruct x; [|discriminate]. cbn [app] in E. rewrite Nat.add_1_r in E. discriminate.
  - unfold cs in *. destruct (eqb b lv) eqn:Eb.
    + (* an agreeing sample *)
      apply eqb_prop in Eb. subst b.
      assert (Hh : has_run d (negb lv) l).
      { destruct x as [|b x].
        - cbn [app] in E. rewrite Nat.add_1_r in E. cbn [repeat app] in E. injection E as Eb _. now destruct lv.
        - cbn [app] in E. injection E as _ E. exists x, y. exact E. }
      destruct (IH lv 0 n ltac:(lia) Hh) as (x' & y' & -> & E'). exists (lv :: x'), y'. split; [reflexivity|].
      cbn [fold_left fst snd debounced]. rewrite eqb_reflx. cbn [fst]. rewrite stays_no_count. exact E'.
    + assert (b = negb lv) by (destruct b, lv; discriminate || reflexivity). subst b.
      destruct (Z.eqb_spec run d) as [->|Hne].
      * exists [negb lv], l. split; [reflexivity|]. cbn [fold_left fst snd debounced]. rewrite Eb, Z.eqb_refl. cbn [fst].
        unfold counted. now destruct high, lv.
      * destruct x as [|b x].
        -- (* the run starts here *)
           cbn [app] in E. set (k := Z.to_nat (d + 1 - run)).
           exists (repeat (negb lv) k), (repeat (negb lv) (Z.to_nat d + 1 - k) ++ y). split.
           ++ rewrite E, app_assoc, <- repeat_app. f_equal. f_equal. unfold k. lia.
           ++ fold cs. apply run_changes; unfold k; lia.
        -- cbn [app] in E. injection E as _ E. assert (Hh : has_run d (negb lv) l) by (exists x, y; exact E).
           destruct (IH lv (run + 1) n ltac:(lia) Hh) as (x' & y' & -> & E').
           exists (negb lv :: x'), y'. split; [reflexivity|]. cbn [fold_left fst snd debounced]. rewrite Eb.
           destruct (Z.eqb_spec run d); [contradiction|]. cbn [fst]. rewrite stays_no_count. exact E'.
Qed.

(** Without [d]+1 contrary samples in a row (counting the pending ones) the level stays. *)
Lemma stays_l : forall l lv run n, 0 <= run <= d -> ~ has_run d (negb lv) (repeat (negb lv) (Z.to_nat run) ++ l) ->
  exists run', 0 <= run' <= d /\ fold_left cs l (lv, run, n) = (lv, run', n).
Proof.
  induction l as [|b l IH]; intros lv run n Hr Hn; [now exists run|]. cbn [fold_left]. unfold cs at 2. cbn [fst snd debounced].
  destruct (eqb b lv) eqn:Eb.
  - cbn [fst]. rewrite stays_no_count. apply IH; [lia|]. intros (x & y & E). apply Hn.
    exists (repeat (negb lv) (Z.to_nat run) ++ b :: x), y. cbn in E. rewrite E, <- app_assoc. reflexivity.
  - assert (b = negb lv) by (destruct b, lv; discriminate || reflexivity). subst b.
    assert (HE : repeat (negb lv) (Z.to_nat run) ++ negb lv :: l = repeat (negb lv) (Z.to_nat (run + 1)) ++ l).
    { replace (Z.to_nat (run + 1)) with (Z.to_nat run + 1)%nat by lia. rewrite repeat_app, <- app_assoc. reflexivity. }
    rewrite HE in Hn. destruct (Z.eqb_spec run d) as [->|Hne].
    + exfalso. apply Hn. exists [], l. cbn [app]. f_equal. f_equal. lia.
    + cbn [fst]. rewrite stays_no_count. apply IH; [lia|exact Hn].
Qed.

Lemma bouncing_l : forall stretches lv run n, 0 <= run <= d -> bouncing d lv stretches ->
  exists lv' run', fold_left cs (concat stretches) (lv, run, n) = (lv', run', n + pulses high lv (length stretches)) /\
    lv' = (if Nat.even (length stretches) then lv else negb lv).
Proof.
  induction stretches as [|s r IH]; intros lv run n Hr Hb.
  - exists lv, run. cbn. split; [f_equal; lia|reflexivity].
  - cbn [bouncing] in Hb. destruct Hb as (H1 & H2 & H3). cbn [concat length pulses]. rewrite fold_left_app.
    destruct (accept_l s lv run n Hr H1) as (x & y & -> & E). rewrite fold_left_app, E.
    destruct (stays_l y (negb lv) 0 (if eqb lv high then n + 1 else n) ltac:(lia)) as (run' & Hr' & E').
    { rewrite negb_involutive. cbn. intros (a & b & Eab). apply H2. exists (x ++ a), b. rewrite Eab, <- app_assoc. reflexivity. }
    rewrite E'. destruct (IH (negb lv) run' (if eqb lv high then n + 1 else n) Hr' H3) as (lv' & run2 & E2 & EL).
    exists lv', run2. split.
    + rewrite E2. f_equal. destruct (eqb lv high); lia.
    + rewrite EL. rewrite Nat.even_succ, <- Nat.negb_even. destruct (Nat.even (length r)); cbn; [reflexivity|apply negb_involutive].
Qed.

(** Every change of the level takes [d]+1 samples. *)
Lemma rate_l : forall l lv0 lv run n T, 0 <= run <= d -> 0 <= T ->
  lv = (if Z.even T then lv0 else negb lv0) ->
  2 * n <= T + (if eqb lv0 high then (if Z.even T then 0 else 1) else (if Z.even T then 0 else -1)) ->
  exists lv' run' n' T', fold_left cs l (lv, run, n) = (lv', run', n') /\ 0 <= run' <= d /\
    T' * (d + 1) + run' <= T * (d + 1) + run + Z.of_nat (length l) /\
    2 * n' <= T' + (if eqb lv0 high then 1 else 0).
Proof.
  induction l as [|b l IH]; intros lv0 lv run n T Hr HT Hlv Hn.
  - exists lv, run, n, T. cbn [fold_left length]. split; [reflexivity|]. split; [exact Hr|]. split; [lia|].
    destruct (eqb lv0 high), (Z.even T); lia.
  - cbn [fold_left length]. unfold cs at 2. cbn [fst snd debounced]. destruct (eqb b lv) eqn:Eb.
    + cbn [fst]. rewrite stays_no_count.
      destruct (IH lv0 lv 0 n T ltac:(lia) HT Hlv Hn) as (lv' & run' & n' & T' & E & H1 & H2 & H3).
      exists lv', run', n', T'. split; [exact E|]. split; [exact H1|]. split; [lia|exact H3].
    + assert (b = negb lv) by (destruct b, lv; discriminate || reflexivity). subst b.
      destruct (Z.eqb_spec run d) as [->|Hne].
      * cbn [fst].
        destruct (IH lv0 (negb lv) 0 (if counted high lv (negb lv) then n + 1 else n) (T + 1)) as (lv' & run' & n' & T' & E & H1 & H2 & H3); try lia.
        { rewrite Hlv, Z.even_add. destruct (Z.even T); cbn; [reflexivity|apply negb_involutive]. }
        { rewrite Z.even_add. cbn [Z.even]. unfold counted. subst lv. destruct (Z.even T) eqn:ET; destruct high, lv0; cbn [negb andb eqb] in *; lia. }
        exists lv', run', n', T'. split; [exact E|]. split; [exact H1|]. split; [lia|exact H3].
      * cbn [fst]. rewrite stays_no_count.
        destruct (IH lv0 lv (run + 1) n T ltac:(lia) HT Hlv Hn) as (lv' & run' & n' & T' & E & H1 & H2 & H3).
        exists lv', run', n', T'. split; [exact E|]. split; [exact H1|]. split; [lia|exact H3].
Qed.

Lemma count_grows : forall l s, snd s <= snd (fold_left cs l s).
Proof.
  induction l as [|b l IH]; intros s; [cbn; lia|]. cbn [fold_left]. specialize (IH (cs s b)). unfold cs in IH at 1.
  cbn [snd] in IH. destruct (counted _ _ _); lia.
Qed.
End P.
