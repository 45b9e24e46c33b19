(** Results of the operations of Coq.Floats.SpecFloat are numbers of the format. *)
From Verif Require Import Base BaseLemmas.
From Coq Require Import Floats.SpecFloat.

Lemma digits_bound : forall p, 2 ^ (Zpos (digits2_pos p) - 1) <= Zpos p < 2 ^ Zpos (digits2_pos p).
Proof.
  induction p as [p IH|p IH|]; cbn [digits2_pos]; try rewrite Pos2Z.inj_succ.
  - rewrite Z.pow_succ_r by lia. replace (Z.succ (Zpos (digits2_pos p)) - 1) with (Z.succ (Zpos (digits2_pos p) - 1)) by lia.
    rewrite Z.pow_succ_r by lia. lia.
  - rewrite Z.pow_succ_r by lia. replace (Z.succ (Zpos (digits2_pos p)) - 1) with (Z.succ (Zpos (digits2_pos p) - 1)) by lia.
    rewrite Z.pow_succ_r by lia. lia.
  - cbn. lia.
Qed.

Lemma pow_lt_inv : forall a b, 0 <= b -> 2 ^ a < 2 ^ b -> a < b.
Proof. intros a b Hb H. apply (Z.pow_lt_mono_r_iff 2); lia. Qed.

Lemma digits_le : forall p k, 0 <= k -> Zpos p < 2 ^ k -> Zpos (digits2_pos p) <= k.
Proof. intros p k Hk H. pose proof (digits_bound p). assert (Zpos (digits2_pos p) - 1 < k) by (apply pow_lt_inv; lia). lia. Qed.

Lemma digits_ge : forall p k, 0 <= k -> 2 ^ k <= Zpos p -> k < Zpos (digits2_pos p).
Proof. intros p k Hk H. pose proof (digits_bound p). apply pow_lt_inv; lia. Qed.

Lemma shr_1_m : forall r, 0 <= shr_m r -> shr_m (shr_1 r) = shr_m r / 2.
Proof.
  intros [m r s] H. cbn [shr_m] in *. unfold shr_1. destruct m as [|p|p]; [reflexivity| |lia].
  destruct p as [p|p|]; cbn [shr_m]; [| |reflexivity].
  - rewrite Pos2Z.inj_xI. apply (Z.div_unique _ _ _ 1); lia.
  - rewrite Pos2Z.inj_xO. apply (Z.div_unique _ _ _ 0); lia.
Qed.

Lemma iter_shr : forall n r, 0 <= shr_m r -> shr_m (iter_pos shr_1 n r) = shr_m r / 2 ^ Zpos n.
Proof.
  assert (D : forall x a b, 0 <= a -> 0 <= b -> x / 2 ^ a / 2 ^ b = x / 2 ^ (a + b)).
  { intros x a b Ha Hb. rewrite Z.pow_add_r by lia. apply Z.div_div; [apply Z.pow_nonzero|apply Z.pow_pos_nonneg]; lia. }
  assert (P : forall x a, 0 <= x -> 0 <= a -> 0 <= x / 2 ^ a).
  { intros x a Hx Ha. apply Z.div_pos; [exact Hx|apply Z.pow_pos_nonneg; lia]. }
  induction n as [n IH|n IH|]; intros r H; cbn [iter_pos].
  - assert (H1 : 0 <= shr_m (shr_1 r)) by (rewrite shr_1_m by exact H; apply Z.div_pos; lia).
    rewrite IH by (rewrite IH by exact H1; apply P; lia). rewrite IH by exact H1. rewrite shr_1_m by exact H.
    change (shr_m r / 2) with (shr_m r / 2 ^ 1). rewrite !D by lia. f_equal. f_equal. lia.
  - rewrite IH by (rewrite IH by exact H; apply P; lia). rewrite IH by exact H. rewrite D by lia. f_equal. f_equal. lia.
  - apply shr_1_m. exact H.
Qed.

Lemma round_even : forall m l, round_nearest_even m l = m \/ round_nearest_even m l = m + 1.
Proof. intros m l. destruct l as [|[]]; cbn; auto. destruct (Z.even m); auto. Qed.

Section Format.
Variables prec emax : Z.
Hypothesis Hprec : 1 < prec.

Notation fexp := (fexp prec emax).
Notation emin := (emin prec emax).

Lemma shr_fexp_l : forall m e l r e', 0 <= m -> shr_fexp prec emax m e l = (r, e') ->
  e' = Z.max e (fexp (Zdigits2 m + e)) /\ shr_m r = m / 2 ^ (e' - e).
Proof.
  intros m e l r e' Hm H. unfold shr_fexp, shr in H. set (n := fexp (Zdigits2 m + e) - e) in *.
  assert (En : fexp (Zdigits2 m + e) = n + e) by (unfold n; lia). rewrite En. clearbody n.
  assert (Hs : shr_m (shr_record_of_loc m l) = m) by (destruct l as [|[]]; reflexivity).
  destruct n as [|n|n]; injection H as <- <-.
  - split; [lia|]. rewrite Hs. replace (e - e) with 0 by lia. change (2 ^ 0) with 1. rewrite Z.div_1_r. reflexivity.
  - split; [lia|]. rewrite iter_shr by (rewrite Hs; exact Hm). rewrite Hs. f_equal. f_equal. lia.
  - split; [lia|]. rewrite Hs. replace (e - e) with 0 by lia. change (2 ^ 0) with 1. rewrite Z.div_1_r. reflexivity.
Qed.

(** After the shift the mantissa is short enough. *)
Lemma shifted : forall m e e', 0 <= m -> e <= fexp (Zdigits2 m + e) -> e' = fexp (Zdigits2 m + e) ->
  0 <= m / 2 ^ (e' - e) < 2 ^ prec /\ emin <= e' /\ (emin < e' -> 2 ^ (prec - 1) <= m / 2 ^ (e' - e)).
Proof using Hprec.
  intros m e e' Hm He Ee. assert (P : 0 < 2 ^ (e' - e)) by (apply Z.pow_pos_nonneg; lia).
  destruct m as [|m|m]; [| |lia].
  - rewrite Z.div_0_l by lia. cbn [Zdigits2] in *. unfold SpecFloat.fexp in *. assert (0 < 2 ^ prec) by (apply Z.pow_pos_nonneg; lia).
    split; [lia|]. split; [lia|]. intros. lia.
  - cbn [Zdigits2] in *. pose proof (digits_bound m) as [B1 B2]. set (d := Zpos (digits2_pos m)) in *.
    assert (Hd : 1 <= d) by (unfold d; lia). unfold SpecFloat.fexp in *.
    split; [|split; [lia|]].
    + split; [apply Z.div_pos; lia|]. apply Z.div_lt_upper_bound; [exact P|]. rewrite <- Z.pow_add_r by lia.
      apply Z.lt_le_trans with (2 ^ d); [exact B2|]. apply Z.pow_le_mono_r; lia.
    + intros Hlt. apply Z.div_le_lower_bound; [exact P|]. rewrite <- Z.pow_add_r by lia.
      replace (e' - e + (prec - 1)) with (d - 1) by lia. exact B1.
Qed.

Definition is_finite (x : spec_float) : Prop := match x with S754_zero _ | S754_finite _ _ _ => True | _ => False end.

Definition good (x : spec_float) : Prop := valid_binary prec emax x = true /\ x <> S754_nan.

Lemma good_finite : forall s m e, emin <= e <= emax - prec -> Zpos m < 2 ^ prec -> (emin < e -> 2 ^ (prec - 1) <= Zpos m) ->
  good (S754_finite s m e).
Proof using Hprec.
  intros s m e He Hm Hn. split; [|discriminate]. cbn [valid_binary]. unfold bounded, canonical_mantissa.
  pose proof (digits_le m prec ltac:(lia) Hm) as D1.
  assert (D2 : emin < e -> prec <= Zpos (digits2_pos m)) by (intros H; pose proof (digits_ge m (prec - 1) ltac:(lia) (Hn H)); lia).
  rewrite (proj2 (Z.leb_le _ _)) by lia. rewrite andb_true_r. apply Zeq_is_eq_bool. unfold SpecFloat.fexp. lia.
Qed.

Lemma finite_good : forall s m e, good (S754_finite s m e) ->
  emin <= e <= emax - prec /\ Zpos m < 2 ^ prec /\ (emin < e -> 2 ^ (prec - 1) <= Zpos m).
Proof using Hprec.
  intros s m e [H _]. cbn [valid_binary] in H. unfold bounded, canonical_mantissa in H. apply andb_prop in H. destruct H as [H1 H2].
  apply Zeq_bool_eq in H1. apply Z.leb_le in H2. unfold SpecFloat.fexp in H1. pose proof (digits_bound m) as [B1 B2].
  split; [lia|]. split.
  - apply Z.lt_le_trans with (1 := B2). apply Z.pow_le_mono_r; lia.
  - intros Hlt. apply Z.le_trans with (2 := B1). apply Z.pow_le_mono_r; lia.
Qed.

Lemma round_aux_good : forall s m e l, 0 <= m -> e <= fexp (Zdigits2 m + e) -> good (binary_round_aux prec emax s m e l) /\
  (fexp (Zdigits2 m + e) < emax - prec -> is_finite (binary_round_aux prec emax s m e l)).
Proof using Hprec.
  intros s m e l Hm He. unfold binary_round_aux.
  destruct (shr_fexp prec emax m e l) as [r1 e1] eqn:E1. apply shr_fexp_l in E1; [|exact Hm]. destruct E1 as [E1 S1].
  rewrite Z.max_r in E1 by exact He. destruct (shifted m e e1 Hm He E1) as (M1 & F1 & L1). rewrite <- S1 in *.
  rewrite <- E1. clear S1 He E1 Hm m e.
  set (m1 := round_nearest_even (shr_m r1) (loc_of_shr_record r1)).
  assert (Hm1 : 0 <= m1 <= 2 ^ prec /\ (emin < e1 -> 2 ^ (prec - 1) <= m1)).
  { unfold m1. destruct (round_even (shr_m r1) (loc_of_shr_record r1)) as [-> | ->]; lia. }
  clearbody m1. destruct Hm1 as [H1 H2].
  destruct (shr_fexp prec emax m1 e1 loc_Exact) as [r2 e2] eqn:E2. apply shr_fexp_l in E2; [|lia]. destruct E2 as [E2 S2].
  assert (P : 2 ^ prec = 2 * 2 ^ (prec - 1)) by (rewrite <- Z.pow_succ_r by lia; f_equal; lia).
  assert (P0 : 0 < 2 ^ (prec - 1)) by (apply Z.pow_pos_nonneg; lia).
  assert (C : 0 <= shr_m r2 < 2 ^ prec /\ emin <= e2 /\ e2 <= e1 + 1 /\ (0 < shr_m r2 -> emin < e2 -> 2 ^ (prec - 1) <= shr_m r2)).
  { destruct (Z.eq_dec m1 (2 ^ prec)) as [Em|Em].
    - assert (Ed : Zdigits2 m1 = prec + 1).
      { destruct m1 as [|q|q]; [lia| |lia]. cbn [Zdigits2]. pose proof (digits_ge q prec ltac:(lia) ltac:(lia)).
        pose proof (digits_le q (prec + 1) ltac:(lia) ltac:(rewrite Z.pow_add_r by lia; change (2 ^ 1) with 2; lia)). lia. }
      rewrite Ed in E2. unfold SpecFloat.fexp in E2. assert (Q : e2 = e1 + 1) by lia. clear E2. subst e2.
      replace (e1 + 1 - e1) with 1 in S2 by lia. change (2 ^ 1) with 2 in S2. rewrite Em, P, (Z.mul_comm 2), Z.div_mul in S2 by lia. lia.
    - assert (Ed : Zdigits2 m1 <= prec).
      { destruct m1 as [|q|q]; [cbn; lia| |lia]. cbn [Zdigits2]. apply digits_le; lia. }
      assert (Q : e2 = e1) by (unfold SpecFloat.fexp in E2; lia). clear E2. subst e2. replace (e1 - e1) with 0 in S2 by lia.
      change (2 ^ 0) with 1 in S2. rewrite Z.div_1_r in S2. lia. }
  destruct C as (C1 & C2 & C4 & C3). destruct (shr_m r2) as [|q|q]; [split; [split; [reflexivity|discriminate]|intros _; exact I]| |lia].
  destruct (Z.leb_spec e2 (emax - prec)) as [Hle|Hgt].
  - split; [|intros _; exact I]. apply good_finite; [lia|lia|]. apply C3. lia.
  - split; [split; [reflexivity|discriminate]|intros; lia].
Qed.

Lemma shift_pos_mul : forall d m, Zpos (shift_pos d m) = Zpos m * 2 ^ Zpos d.
Proof. intros d m. rewrite shift_pos_correct. rewrite Z.pow_pos_fold. lia. Qed.

Lemma digits_shift : forall d m, Zpos (digits2_pos (shift_pos d m)) = Zpos (digits2_pos m) + Zpos d.
Proof.
  intros d m. pose proof (digits_bound m) as [B1 B2].
  assert (P : 0 < 2 ^ Zpos d) by (apply Z.pow_pos_nonneg; lia).
  pose proof (digits_ge (shift_pos d m) (Zpos (digits2_pos m) + Zpos d - 1)) as G.
  pose proof (digits_le (shift_pos d m) (Zpos (digits2_pos m) + Zpos d)) as L.
  rewrite shift_pos_mul in G, L. replace (Zpos (digits2_pos m) + Zpos d - 1) with (Zpos (digits2_pos m) - 1 + Zpos d) in G by lia.
  rewrite Z.pow_add_r in G by lia. rewrite Z.pow_add_r in L by lia. specialize (G ltac:(lia)). specialize (L ltac:(lia)).
  assert (2 ^ (Zpos (digits2_pos m) - 1) * 2 ^ Zpos d <= Zpos m * 2 ^ Zpos d) by (apply Z.mul_le_mono_nonneg_r; lia).
  assert (Zpos m * 2 ^ Zpos d < 2 ^ Zpos (digits2_pos m) * 2 ^ Zpos d) by (apply Z.mul_lt_mono_pos_r; lia). lia.
Qed.

Lemma normalize_good : forall m e s, good (binary_normalize prec emax m e s) /\
  forall k, 0 <= k -> Z.abs m < 2 ^ k -> k + e < emax -> emin < emax - prec -> is_finite (binary_normalize prec emax m e s).
Proof using Hprec.
  assert (R : forall s m e, good (binary_round prec emax s m e) /\ (fexp (Zpos (digits2_pos m) + e) < emax - prec -> is_finite (binary_round prec emax s m e))).
  { intros s m e. unfold binary_round, shl_align.
    destruct (fexp (Zpos (digits2_pos m) + e) - e) as [|d|d] eqn:E; try (apply round_aux_good; cbn [Zdigits2]; lia).
    pose proof (round_aux_good s (Zpos (shift_pos d m)) (fexp (Zpos (digits2_pos m) + e)) loc_Exact) as A.
    cbn [Zdigits2] in A. rewrite digits_shift in A.
    replace (Zpos (digits2_pos m) + Zpos d + fexp (Zpos (digits2_pos m) + e)) with (Zpos (digits2_pos m) + e) in A by lia.
    apply A; lia. }
  assert (B : forall m e k, 0 <= k -> Zpos m < 2 ^ k -> k + e < emax -> emin < emax - prec -> fexp (Zpos (digits2_pos m) + e) < emax - prec).
  { intros m e k Hk Hm H1 H2. pose proof (digits_le m k Hk Hm). unfold SpecFloat.fexp. lia. }
  intros [|m|m] e s; cbn [binary_normalize].
  - split; [split; [reflexivity|discriminate]|intros; exact I].
  - destruct (R false m e) as [R1 R2]. split; [exact R1|]. intros k Hk Hm H1 H2. apply R2, (B m e k); assumption.
  - destruct (R true m e) as [R1 R2]. split; [exact R1|]. intros k Hk Hm H1 H2. apply R2, (B m e k); assumption.
Qed.

Lemma add_good : forall x y, good x -> good y -> is_finite x -> good (SFadd prec emax x y).
Proof using Hprec.
  intros x y Gx Gy Fx. destruct x as [sx|sx| |sx mx ex]; try contradiction; destruct y as [sy|sy| |sy my ey]; cbn [SFadd]; try assumption.
  - destruct (Bool.eqb sx sy); [assumption|split; [reflexivity|discriminate]].
  - apply normalize_good.
Qed.

Lemma mul_good : forall x y, emin <= 0 -> good x -> good y -> is_finite x -> is_finite y -> good (SFmul prec emax x y).
Proof using Hprec.
  intros x y Hmin Gx Gy Fx Fy. destruct x as [sx|sx| |sx mx ex]; try contradiction; destruct y as [sy|sy| |sy my ey]; try contradiction;
    cbn [SFmul]; try (split; [reflexivity|discriminate]).
  apply finite_good in Gx. apply finite_good in Gy. destruct Gx as (X1 & X2 & X3). destruct Gy as (Y1 & Y2 & Y3).
  apply round_aux_good; [lia|]. cbn [Zdigits2]. unfold SpecFloat.fexp.
  assert (P0 : 0 < 2 ^ (prec - 1)) by (apply Z.pow_pos_nonneg; lia).
  assert (emin < ex \/ emin < ey \/ (ex = emin /\ ey = emin)) as [H|[H|[-> ->]]] by lia; [| |lia].
  - specialize (X3 H). pose proof (digits_ge (mx * my) (prec - 1) ltac:(lia) ltac:(nia)). lia.
  - specialize (Y3 H). pose proof (digits_ge (mx * my) (prec - 1) ltac:(lia) ltac:(nia)). lia.
Qed.

End Format.
