(** Proofs about timecheck.h. *)
From Coq Require Import ZifyBool.
From Verif Require Import Base BaseLemmas TimeModel TimeSpec.

Lemma pow_half : forall w, 0 < w -> 2 ^ w = 2 * 2 ^ (w - 1) /\ 0 < 2 ^ (w - 1).
Proof.
  intros w Hw. split.
  - replace w with (Z.succ (w - 1)) at 1 by lia. rewrite Z.pow_succ_r; lia.
  - apply Z.pow_pos_nonneg; lia.
Qed.

Lemma swrap_mod : forall w x, swrap w (x mod 2 ^ w) = swrap w x.
Proof. intros. unfold swrap. cbv zeta. destruct (Z.eq_dec (2 ^ w) 0) as [->|].
  - now rewrite !Zmod_0_r.
  - now rewrite Z.mod_mod by assumption.
Qed.

Lemma swrap_eqm : forall w x y, x mod 2 ^ w = y mod 2 ^ w -> swrap w x = swrap w y.
Proof. intros w x y H. now rewrite <- (swrap_mod w x), <- (swrap_mod w y), H. Qed.

(** The default type (and any type as wide as long, long not narrower than int). *)
Lemma arith_wide : forall I w x, I <= w -> arith I w x = wrap w x.
Proof. intros. unfold arith. destruct (Z.ltb_spec w I); [lia|reflexivity]. Qed.

Lemma diff_counter : forall I w t u, 0 < w -> I <= w ->
  arith I w (counter w u - counter w t) = (u - t) mod 2 ^ w.
Proof. intros. rewrite arith_wide by assumption. unfold wrap, counter. now rewrite <- Zminus_mod. Qed.

Lemma sdiff_counter : forall I w t u, 0 < w -> I <= w ->
  swrap w (arith I w (counter w u - counter w t)) = swrap w (u - t).
Proof. intros. rewrite diff_counter by assumption. apply swrap_mod. Qed.

Lemma time_after_swrap : forall I w t u, 0 < w -> I <= w ->
  time_after I w w (counter w t) (counter w u) = (swrap w (u - t) <? 0).
Proof. intros. unfold time_after. now rewrite sdiff_counter. Qed.

Lemma time_after_l : forall I w t u, 0 < w -> I <= w -> close w t u ->
  time_after I w w (counter w t) (counter w u) = (u <? t).
Proof.
  intros I w t u Hw Hi Hc. rewrite time_after_swrap by assumption.
  rewrite swrap_small by (unfold close in Hc; lia). lia.
Qed.

Lemma time_after_or_equal_l : forall I w t u, 0 < w -> I <= w -> close w t u ->
  time_after_or_equal I w w (counter w t) (counter w u) = (u <=? t).
Proof.
  intros I w t u Hw Hi Hc. unfold time_after_or_equal. rewrite sdiff_counter by assumption.
  rewrite swrap_small by (unfold close in Hc; lia). lia.
Qed.

Lemma time_before_l : forall I w t u, 0 < w -> I <= w -> close w t u ->
  time_before I w w (counter w t) (counter w u) = (t <? u).
Proof. intros I w t u Hw Hi Hc. unfold time_before. apply time_after_l; try assumption. unfold close in *. lia. Qed.

(** Half the range apart: each instant is after the other one. *)
Lemma time_after_half_l : forall I w t, 0 < w -> I <= w ->
  time_after I w w (counter w t) (counter w (t + 2 ^ (w - 1))) = true /\
  time_after I w w (counter w (t + 2 ^ (w - 1))) (counter w t) = true.
Proof.
  intros I w t Hw Hi. rewrite !time_after_swrap by assumption.
  destruct (pow_half w Hw). split.
  - rewrite (swrap_eqm w _ (- 2 ^ (w - 1))).
    + rewrite swrap_small by lia. lia.
    + replace (t + 2 ^ (w - 1) - t) with (- 2 ^ (w - 1) + 1 * 2 ^ w) by lia. apply Z.mod_add. lia.
  - replace (t - (t + 2 ^ (w - 1))) with (- 2 ^ (w - 1)) by lia. rewrite swrap_small by lia. lia.
Qed.

Lemma time_interval_l : forall I w t u, 0 < w -> I <= w -> close w t u ->
  time_interval I w w (counter w t) (counter w u) = Z.abs (t - u).
Proof.
  intros I w t u Hw Hi Hc. unfold time_interval. rewrite time_after_l by assumption.
  rewrite diff_counter by assumption. destruct (pow_half w Hw). unfold wrap, close in *.
  destruct (Z.ltb_spec u t).
  - assert (E : - ((u - t) mod 2 ^ w) = (t - u) + ((u - t) / 2 ^ w) * 2 ^ w).
    { pose proof (Z.div_mod (u - t) (2 ^ w) ltac:(lia)). lia. }
    rewrite E. rewrite Z.mod_add by lia. rewrite Z.mod_small; lia.
  - rewrite Z.mod_mod by lia. rewrite Z.mod_small; lia.
Qed.

(** The interval for every distance: the shorter way around the counter. *)
Lemma time_interval_far_l : forall I w t d, 0 < w -> I <= w -> 0 <= d < 2 ^ w ->
  time_interval I w w (counter w t) (counter w (t + d)) = Z.min d (2 ^ w - d).
Proof.
  intros I w t d Hw Hi Hd. destruct (pow_half w Hw).
  unfold time_interval. rewrite time_after_swrap, diff_counter by assumption.
  replace (t + d - t) with d by lia. rewrite (Z.mod_small d) by lia.
  unfold swrap. cbv zeta. rewrite (Z.mod_small d) by lia. unfold wrap.
  destruct (Z.ltb_spec d (2 ^ (w - 1))).
  - destruct (Z.ltb_spec d 0); [lia|]. rewrite Z.mod_small by lia. lia.
  - destruct (Z.ltb_spec (d - 2 ^ w) 0); [|lia].
    replace (- d) with (2 ^ w - d + (-1) * 2 ^ w) by lia. rewrite Z.mod_add by lia.
    rewrite Z.mod_small by lia. lia.
Qed.

Lemma plus_counter : forall I w t d, 0 < w -> I <= w ->
  arith I w (counter w t + d) = counter w (t + d).
Proof.
  intros. rewrite arith_wide by assumption. unfold wrap, counter. apply Z.add_mod_idemp_l.
  destruct (pow_half w); lia.
Qed.

Lemma is_expired_l : forall I w start now delay, 0 < w -> I <= w -> close w now (start + delay) ->
  is_expired I w w (counter w start) (counter w now) delay = (start + delay <=? now).
Proof.
  intros. unfold is_expired, is_loosely_expired. rewrite plus_counter by assumption.
  now apply time_after_or_equal_l.
Qed.

Lemma is_strictly_expired_l : forall I w start now delay, 0 < w -> I <= w -> close w now (start + delay) ->
  is_strictly_expired I w w (counter w start) (counter w now) delay = (start + delay <? now).
Proof. intros. unfold is_strictly_expired. rewrite plus_counter by assumption. now apply time_after_l. Qed.

(** Narrower types. *)
Lemma narrow_long_l : forall I L w a b, 0 < w -> I <= w -> w < L -> time_after I L w a b = false.
Proof.
  intros I L w a b Hw Hi HL. unfold time_after. rewrite arith_wide by assumption.
  pose proof (wrap_range w (b - a) ltac:(lia)).
  assert (2 ^ w <= 2 ^ (L - 1)) by (apply Z.pow_le_mono_r; lia).
  rewrite swrap_small by lia. lia.
Qed.

Lemma narrow_int_l : forall I L w a b, 0 < w -> w < I -> I <= L -> 0 <= a < 2 ^ w -> 0 <= b < 2 ^ w ->
  time_after I L w a b = (b <? a) /\ time_after_or_equal I L w a b = (b <=? a) /\
  time_interval I L w a b = Z.abs (a - b).
Proof.
  intros I L w a b Hw Hi HL Ha Hb.
  assert (H2 : 2 ^ w <= 2 ^ (L - 1)) by (apply Z.pow_le_mono_r; lia).
  assert (E : time_after I L w a b = (b <? a)).
  { unfold time_after, arith. destruct (Z.ltb_spec w I); [|lia]. rewrite swrap_small by lia. lia. }
  split; [exact E|]. split.
  - unfold time_after_or_equal, arith. destruct (Z.ltb_spec w I); [|lia]. rewrite swrap_small by lia. lia.
  - unfold time_interval. rewrite E. unfold arith. destruct (Z.ltb_spec w I); [|lia].
    destruct (Z.ltb_spec b a); rewrite wrap_small; lia.
Qed.

Lemma narrow_long_all_l : forall I L w a b d, 0 < w -> I <= w -> w < L ->
  0 <= a < 2 ^ w -> 0 <= b < 2 ^ w -> 0 <= d < 2 ^ w ->
  time_after_or_equal I L w a b = (a =? b) /\
  time_interval I L w a b = (b - a) mod 2 ^ w /\
  is_expired I L w a b d = (b =? (a + d) mod 2 ^ w) /\
  is_strictly_expired I L w a b d = false.
Proof.
  intros I L w a b d Hw Hi HL Ha Hb Hd.
  assert (P : 0 < 2 ^ w) by (apply Z.pow_pos_nonneg; lia).
  assert (H2 : 2 ^ w <= 2 ^ (L - 1)) by (apply Z.pow_le_mono_r; lia).
  assert (E : forall x y, 0 <= x < 2 ^ w -> 0 <= y < 2 ^ w -> time_after_or_equal I L w x y = (x =? y)).
  { intros x y Hx Hy. unfold time_after_or_equal. rewrite arith_wide by assumption.
    pose proof (wrap_range w (y - x) ltac:(lia)). rewrite swrap_small by lia.
    unfold wrap in *. destruct (Z.eqb_spec x y) as [->|N].
    - rewrite Z.sub_diag, Z.mod_0_l by lia. reflexivity.
    - apply Z.leb_gt. destruct (Z.ltb_spec x y).
      + rewrite Z.mod_small by lia. lia.
      + rewrite <- (Z_mod_plus_full (y - x) 1). rewrite Z.mod_small by lia. lia. }
  split; [now apply E|]. split.
  { unfold time_interval. rewrite narrow_long_l, arith_wide by assumption. unfold wrap.
    now rewrite Z.mod_mod by lia. }
  split.
  - unfold is_expired, is_loosely_expired. rewrite arith_wide by assumption. unfold wrap.
    apply E; [assumption|]. apply Z.mod_pos_bound; lia.
  - unfold is_strictly_expired. now apply narrow_long_l.
Qed.

Lemma narrow_int_expired_l : forall I L w a b d, 0 < w -> w + 1 < I -> I <= L ->
  0 <= a < 2 ^ w -> 0 <= b < 2 ^ w -> 0 <= d < 2 ^ w ->
  is_expired I L w a b d = (a + d <=? b) /\ is_strictly_expired I L w a b d = (a + d <? b).
Proof.
  intros I L w a b d Hw Hi HL Ha Hb Hd.
  assert (H2 : 2 ^ (w + 1) <= 2 ^ (L - 1)) by (apply Z.pow_le_mono_r; lia).
  rewrite Z.pow_add_r in H2 by lia. change (2 ^ 1) with 2 in H2.
  unfold is_expired, is_loosely_expired, is_strictly_expired, time_after_or_equal, time_after, arith.
  destruct (Z.ltb_spec w I); [|lia]. rewrite swrap_small by lia. split; lia.
Qed.
