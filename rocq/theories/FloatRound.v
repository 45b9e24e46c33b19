(** Rounding to nearest even: what it computes, that it is monotone, and its error. *)
From Verif Require Import Base Float FloatProofs FloatSpec FloatExact.
From Coq Require Import Floats.SpecFloat ZifyBool.

(** * Order of numbers *)

Lemma le_iff : forall a i b j c, c <= i -> c <= j -> (le_number a i b j <-> a * 2 ^ (i - c) <= b * 2 ^ (j - c)).
Proof.
  intros a i b j c Hi Hj. unfold le_number. set (d := Z.min i j). assert (Hd : c <= d <= i /\ d <= j) by lia. clearbody d.
  replace (i - c) with (i - d + (d - c)) by lia. replace (j - c) with (j - d + (d - c)) by lia. rewrite !Z.pow_add_r by lia.
  assert (P : 0 < 2 ^ (d - c)) by (apply Z.pow_pos_nonneg; lia). rewrite !Z.mul_assoc. split; intros H.
  - apply Z.mul_le_mono_nonneg_r; lia.
  - apply Z.mul_le_mono_pos_r in H; [exact H|lia].
Qed.

Lemma le_trans : forall a i b j c k, le_number a i b j -> le_number b j c k -> le_number a i c k.
Proof.
  intros a i b j c k. set (d := Z.min i (Z.min j k)).
  rewrite (le_iff a i b j d), (le_iff b j c k d), (le_iff a i c k d) by lia. lia.
Qed.

Lemma le_same : forall a i b j, same_number a i b j -> le_number a i b j.
Proof. intros a i b j H. unfold same_number in H. unfold le_number. lia. Qed.

Lemma le_opp : forall a i b j, le_number a i b j -> le_number (- b) j (- a) i.
Proof. intros a i b j. rewrite (le_iff a i b j (Z.min i j)), (le_iff (- b) j (- a) i (Z.min i j)) by lia. lia. Qed.

Lemma le_sgn : forall a i b j, le_number a i b j -> Z.sgn a <= Z.sgn b.
Proof.
  intros a i b j H. unfold le_number in H. assert (0 < 2 ^ (i - Z.min i j)) by (apply Z.pow_pos_nonneg; lia).
  assert (0 < 2 ^ (j - Z.min i j)) by (apply Z.pow_pos_nonneg; lia). destruct a as [|a|a], b as [|b|b]; cbn [Z.sgn]; try lia; nia.
Qed.

(** * Rounding an integer quotient *)

(** a / 2^n, rounded to the nearest integer, half-way cases to the even one. *)
Definition rne (a n : Z) : Z :=
  let q := a / 2 ^ n in let r := a mod 2 ^ n in
  if 2 * r <? 2 ^ n then q else if 2 ^ n <? 2 * r then q + 1 else if Z.even q then q else q + 1.

Lemma rne_near : forall a n, 0 <= n -> 2 * Z.abs (rne a n * 2 ^ n - a) <= 2 ^ n.
Proof.
  intros a n Hn. assert (P : 0 < 2 ^ n) by (apply Z.pow_pos_nonneg; lia). pose proof (Z.div_mod a (2 ^ n) ltac:(lia)) as E.
  pose proof (Z.mod_pos_bound a (2 ^ n) P) as B. unfold rne. set (q := a / 2 ^ n) in *. set (r := a mod 2 ^ n) in *. clearbody q r.
  replace (q * 2 ^ n - a) with (- r) by lia. assert (E' : (q + 1) * 2 ^ n - a = 2 ^ n - r) by lia.
  destruct (Z.ltb_spec (2 * r) (2 ^ n)); [lia|]. destruct (Z.ltb_spec (2 ^ n) (2 * r)); [rewrite E'; lia|].
  destruct (Z.even q); [replace (q * 2 ^ n - a) with (- r) by lia; lia|rewrite E'; lia].
Qed.

Lemma rne_bound : forall a n, 0 <= n -> a / 2 ^ n <= rne a n <= a / 2 ^ n + 1.
Proof. intros a n Hn. unfold rne. destruct (_ <? _); [lia|]. destruct (_ <? _); [lia|]. destruct (Z.even _); lia. Qed.

Lemma rne_mono : forall a b n, 0 <= n -> a <= b -> rne a n <= rne b n.
Proof.
  intros a b n Hn H. assert (P : 0 < 2 ^ n) by (apply Z.pow_pos_nonneg; lia).
  pose proof (rne_bound a n Hn). pose proof (rne_bound b n Hn). pose proof (Z.div_le_mono a b (2 ^ n) P H).
  destruct (Z.eq_dec (a / 2 ^ n) (b / 2 ^ n)) as [E|E]; [|lia]. unfold rne. rewrite <- E.
  pose proof (Z.div_mod a (2 ^ n) ltac:(lia)). pose proof (Z.div_mod b (2 ^ n) ltac:(lia)).
  assert (a mod 2 ^ n <= b mod 2 ^ n) by (rewrite E in *; lia).
  destruct (Z.ltb_spec (2 * (a mod 2 ^ n)) (2 ^ n)); destruct (Z.ltb_spec (2 * (b mod 2 ^ n)) (2 ^ n));
    destruct (Z.ltb_spec (2 ^ n) (2 * (a mod 2 ^ n))); destruct (Z.ltb_spec (2 ^ n) (2 * (b mod 2 ^ n))); destruct (Z.even (a / 2 ^ n)); lia.
Qed.

Lemma rne_scale : forall a n j, 0 <= n -> 0 <= j -> rne (a * 2 ^ j) (n + j) = rne a n.
Proof.
  intros a n j Hn Hj. unfold rne. rewrite Z.pow_add_r by lia.
  assert (P : 0 < 2 ^ n) by (apply Z.pow_pos_nonneg; lia). assert (Q : 0 < 2 ^ j) by (apply Z.pow_pos_nonneg; lia).
  rewrite Z.div_mul_cancel_r by lia. rewrite Z.mul_mod_distr_r by lia. set (r := a mod 2 ^ n). set (q := a / 2 ^ n).
  replace (2 * (r * 2 ^ j)) with (2 * r * 2 ^ j) by ring.
  assert (E1 : (2 * r * 2 ^ j <? 2 ^ n * 2 ^ j) = (2 * r <? 2 ^ n)).
  { destruct (Z.ltb_spec (2 * r) (2 ^ n)) as [H|H]; [apply Z.ltb_lt; apply Z.mul_lt_mono_pos_r; lia|apply Z.ltb_ge; apply Z.mul_le_mono_nonneg_r; lia]. }
  assert (E2 : (2 ^ n * 2 ^ j <? 2 * r * 2 ^ j) = (2 ^ n <? 2 * r)).
  { destruct (Z.ltb_spec (2 ^ n) (2 * r)) as [H|H]; [apply Z.ltb_lt; apply Z.mul_lt_mono_pos_r; lia|apply Z.ltb_ge; apply Z.mul_le_mono_nonneg_r; lia]. }
  rewrite E1, E2. reflexivity.
Qed.

Lemma rne_0 : forall a, rne a 0 = a.
Proof. intros a. unfold rne. change (2 ^ 0) with 1. rewrite Z.mod_1_r, Z.div_1_r. reflexivity. Qed.

(** a * 2^i in units of 2^f. *)
Definition in_units (a i f : Z) : Z := let c := Z.min i f in rne (a * 2 ^ (i - c)) (f - c).

Lemma in_units_iff : forall a i f c, c <= i -> c <= f -> in_units a i f = rne (a * 2 ^ (i - c)) (f - c).
Proof.
  intros a i f c Hi Hf. unfold in_units. set (d := Z.min i f). assert (Hd : c <= d <= i /\ d <= f) by lia. clearbody d.
  replace (i - c) with (i - d + (d - c)) by lia. replace (f - c) with (f - d + (d - c)) by lia.
  rewrite Z.pow_add_r, Z.mul_assoc by lia. symmetry. apply rne_scale; lia.
Qed.

Lemma in_units_mono : forall a i b j f, le_number a i b j -> in_units a i f <= in_units b j f.
Proof.
  intros a i b j f H. set (c := Z.min f (Z.min i j)). rewrite (in_units_iff a i f c), (in_units_iff b j f c) by lia.
  rewrite (le_iff a i b j c) in H by lia. apply rne_mono; [lia|exact H].
Qed.

Lemma in_units_near : forall a i f c, c <= i -> c <= f -> 2 * Z.abs (in_units a i f * 2 ^ (f - c) - a * 2 ^ (i - c)) <= 2 ^ (f - c).
Proof. intros a i f c Hi Hf. rewrite (in_units_iff a i f c) by lia. apply rne_near. lia. Qed.

(** * The bits shifted out *)

Definition shifted_out (a n : Z) (r : shr_record) : Prop :=
  shr_m r = a / 2 ^ n /\ shr_r r = (2 ^ n <=? 2 * (a mod 2 ^ n)) /\ shr_s r = negb ((2 * (a mod 2 ^ n)) mod 2 ^ n =? 0).

Lemma shr_1_bits : forall r, 0 <= shr_m r -> shr_m (shr_1 r) = shr_m r / 2 /\ shr_r (shr_1 r) = Z.odd (shr_m r) /\ shr_s (shr_1 r) = (shr_r r || shr_s r)%bool.
Proof.
  intros r H. split; [now apply shr_1_m|]. destruct r as [m b s]. cbn [shr_m] in H. destruct m as [|[p|p|]|p]; cbn; auto; try lia.
Qed.

Lemma shr_1_out : forall a n r, 0 <= a -> 0 <= n -> shifted_out a n r -> shifted_out a (n + 1) (shr_1 r).
Proof.
  intros a n r Ha Hn (Hm & Hr & Hs). assert (P : 0 < 2 ^ n) by (apply Z.pow_pos_nonneg; lia).
  assert (H0 : 0 <= shr_m r) by (rewrite Hm; apply Z.div_pos; lia).
  destruct (shr_1_bits r H0) as (B1 & B2 & B3). unfold shifted_out. rewrite B1, B2, B3, Hm, Hr, Hs.
  rewrite Z.pow_add_r by lia. change (2 ^ 1) with 2.
  pose proof (Z.div_mod a (2 ^ n) ltac:(lia)) as E. pose proof (Z.mod_pos_bound a (2 ^ n) P) as B.
  rewrite Z.div_div by lia. split; [reflexivity|].
  rewrite (Z.rem_mul_r a (2 ^ n) 2) by lia. set (q := a / 2 ^ n) in *. set (t := a mod 2 ^ n) in *. clearbody q t.
  rewrite Zodd_mod. pose proof (Z.mod_pos_bound q 2 ltac:(lia)) as B2'.
  split.
  - assert (q mod 2 = 0 \/ q mod 2 = 1) as [-> | ->] by lia.
    + change (Zeq_bool 0 1) with false. symmetry. apply Z.leb_gt. lia.
    + change (Zeq_bool 1 1) with true. symmetry. apply Z.leb_le. lia.
  - assert (D : (2 * (t + 2 ^ n * (q mod 2))) mod (2 ^ n * 2) = 2 * t).
    { symmetry. apply Z.mod_unique_pos with (q mod 2); lia. }
    rewrite D. destruct (Z.leb_spec (2 ^ n) (2 * t)) as [L|L]; cbn [orb]; [lia|].
    rewrite (Z.mod_small (2 * t) (2 ^ n)) by lia. reflexivity.
Qed.

Lemma iter_out : forall p a n r, 0 <= a -> 0 <= n -> shifted_out a n r -> shifted_out a (n + Zpos p) (iter_pos shr_1 p r).
Proof.
  induction p as [p IH|p IH|]; intros a n r Ha Hn H; cbn [iter_pos].
  - replace (n + Zpos p~1) with (n + 1 + Zpos p + Zpos p) by lia. apply IH; [lia|lia|]. apply IH; [lia|lia|]. now apply shr_1_out.
  - replace (n + Zpos p~0) with (n + Zpos p + Zpos p) by lia. apply IH; [lia|lia|]. now apply IH.
  - now apply shr_1_out.
Qed.

Lemma out_round : forall a n r, 0 <= n -> shifted_out a n r -> round_nearest_even (shr_m r) (loc_of_shr_record r) = rne a n.
Proof.
  intros a n [m b s] Hn (Hm & Hr & Hs). cbn [shr_m shr_r shr_s] in *. unfold rne. rewrite <- Hm. assert (P : 0 < 2 ^ n) by (apply Z.pow_pos_nonneg; lia).
  pose proof (Z.mod_pos_bound a (2 ^ n) P) as B. set (t := a mod 2 ^ n) in *. clearbody t.
  assert (Q : 2 ^ n <= 2 * t -> (2 * t) mod 2 ^ n = 2 * t - 2 ^ n).
  { intros L. symmetry. apply Z.mod_unique_pos with 1; lia. }
  destruct b, s; cbn [loc_of_shr_record round_nearest_even].
  - specialize (Q ltac:(lia)). replace (2 * t <? 2 ^ n) with false by lia. replace (2 ^ n <? 2 * t) with true by lia. reflexivity.
  - specialize (Q ltac:(lia)). replace (2 * t <? 2 ^ n) with false by lia. replace (2 ^ n <? 2 * t) with false by lia. reflexivity.
  - replace (2 * t <? 2 ^ n) with true by lia. reflexivity.
  - replace (2 * t <? 2 ^ n) with true by lia. reflexivity.
Qed.

Section Format.
Variables prec emax : Z.
Hypothesis Hprec : 1 < prec.
Hypothesis Hemax : prec < emax.

Notation fexp := (SpecFloat.fexp prec emax).

(** The unit in which m * 2^e is rounded. *)
Definition unit (m : positive) (e : Z) : Z := fexp (Zpos (digits2_pos m) + e).

Lemma digits_iff : forall m e k c, c <= e -> c <= k -> (Zpos (digits2_pos m) + e <= k <-> Zpos m * 2 ^ (e - c) < 2 ^ (k - c)).
Proof.
  intros m e k c He Hk. pose proof (digits_bound m) as [B1 B2]. assert (P : 0 < 2 ^ (e - c)) by (apply Z.pow_pos_nonneg; lia). split; intros H.
  - apply Z.lt_le_trans with (2 ^ Zpos (digits2_pos m) * 2 ^ (e - c)); [apply Z.mul_lt_mono_pos_r; lia|].
    rewrite <- Z.pow_add_r by lia. apply Z.pow_le_mono_r; lia.
  - assert (2 ^ (Zpos (digits2_pos m) - 1 + (e - c)) < 2 ^ (k - c)).
    { rewrite Z.pow_add_r by lia. apply Z.le_lt_trans with (2 := H). apply Z.mul_le_mono_nonneg_r; lia. }
    apply pow_lt_inv in H0; lia.
Qed.

(** The rounded mantissa. *)
Lemma unit_bound : forall m e, let f := unit m e in let r := in_units (Zpos m) e f in
  3 - emax - prec <= f /\ 0 <= r <= 2 ^ prec /\ (3 - emax - prec < f -> 2 ^ (prec - 1) <= r) /\
  le_number r f 1 (Z.max (Zpos (digits2_pos m) + e) f) /\ (3 - emax - prec < f -> le_number 1 (Zpos (digits2_pos m) + e - 1) r f).
Proof using Hprec.
  intros m e f r. set (d := Zpos (digits2_pos m) + e). assert (Ef : f = Z.max (d - prec) (3 - emax - prec)) by (unfold f, unit; apply fexp_eq).
  set (c := Z.min (Z.min e f) (d - 1)). assert (Er : r = rne (Zpos m * 2 ^ (e - c)) (f - c)) by (apply in_units_iff; lia).
  assert (A : Zpos m * 2 ^ (e - c) < 2 ^ (d - c)) by (apply (digits_iff m e d c); lia).
  assert (A' : 2 ^ (d - 1 - c) <= Zpos m * 2 ^ (e - c)).
  { destruct (Z.le_gt_cases (2 ^ (d - 1 - c)) (Zpos m * 2 ^ (e - c))) as [L|L]; [exact L|]. apply (digits_iff m e (d - 1) c) in L; unfold d in *; lia. }
  set (a := Zpos m * 2 ^ (e - c)) in *. assert (Ha : 0 <= a) by (unfold a; pose proof (Z.pow_nonneg 2 (e - c)); lia). clearbody a.
  assert (P : 0 < 2 ^ (f - c)) by (apply Z.pow_pos_nonneg; lia). pose proof (rne_bound a (f - c) ltac:(lia)) as B. rewrite <- Er in B.
  assert (Q0 : 0 <= a / 2 ^ (f - c)) by (apply Z.div_pos; lia).
  assert (Q1 : r * 2 ^ (f - c) <= 2 ^ (Z.max d f - c)).
  { replace (Z.max d f - c) with (Z.max d f - f + (f - c)) by lia. rewrite Z.pow_add_r by lia. apply Z.mul_le_mono_nonneg_r; [lia|].
    assert (a / 2 ^ (f - c) < 2 ^ (Z.max d f - f)); [|lia]. apply Z.div_lt_upper_bound; [exact P|]. rewrite <- Z.pow_add_r by lia.
    apply Z.lt_le_trans with (1 := A). apply Z.pow_le_mono_r; lia. }
  split; [lia|]. split; [split; [lia|]|split; [|split]].
  - assert (a / 2 ^ (f - c) < 2 ^ prec); [|lia]. apply Z.div_lt_upper_bound; [exact P|]. rewrite <- Z.pow_add_r by lia.
    apply Z.lt_le_trans with (1 := A). apply Z.pow_le_mono_r; lia.
  - intros L. assert (2 ^ (prec - 1) <= a / 2 ^ (f - c)); [|lia]. apply Z.div_le_lower_bound; [exact P|]. rewrite <- Z.pow_add_r by lia.
    replace (f - c + (prec - 1)) with (d - 1 - c) by lia. exact A'.
  - rewrite (le_iff r f 1 (Z.max d f) c) by lia. lia.
  - intros L. rewrite (le_iff 1 (d - 1) r f c) by lia. rewrite Z.mul_1_l.
    assert (2 ^ (d - 1 - f) <= a / 2 ^ (f - c)).
    { apply Z.div_le_lower_bound; [exact P|]. rewrite <- Z.pow_add_r by lia. replace (f - c + (d - 1 - f)) with (d - 1 - c) by lia. exact A'. }
    replace (d - 1 - c) with (d - 1 - f + (f - c)) by lia. rewrite Z.pow_add_r by lia. apply Z.mul_le_mono_nonneg_r; lia.
Qed.

(** What rounding m * 2^e gives: [r] units of 2^f. *)
Definition result (s : bool) (r f : Z) (x : spec_float) : Prop :=
  match x with
  | S754_zero t => t = s /\ r = 0
  | S754_finite t m e => t = s /\ same_number (Zpos m) e r f /\ ~ le_number 1 emax r f
  | S754_infinity t => t = s /\ le_number 1 emax r f
  | S754_nan => False
  end.

Lemma round_aux_result : forall s m e, e <= unit m e ->
  result s (in_units (Zpos m) e (unit m e)) (unit m e) (binary_round_aux prec emax s (Zpos m) e loc_Exact).
Proof using Hprec Hemax.
  intros s m e He. destruct (unit_bound m e) as (F1 & R1 & R2 & _ & _). unfold binary_round_aux, shr_fexp. cbn [Zdigits2 shr_record_of_loc].
  fold (unit m e). set (f := unit m e) in *. set (r := in_units (Zpos m) e f) in *.
  assert (S : exists rec, shr {| shr_m := Zpos m; shr_r := false; shr_s := false |} e (f - e) = (rec, f) /\ shifted_out (Zpos m) (f - e) rec).
  { assert (O : shifted_out (Zpos m) 0 {| shr_m := Zpos m; shr_r := false; shr_s := false |}).
    { unfold shifted_out. change (2 ^ 0) with 1. rewrite Z.div_1_r, Z.mod_1_r. repeat split. }
    unfold shr. destruct (f - e) as [|n|n] eqn:En; [| |lia].
    - eexists. split; [f_equal; lia|]. exact O.
    - eexists. split; [f_equal; lia|]. exact (iter_out n (Zpos m) 0 _ ltac:(lia) ltac:(lia) O). }
  destruct S as (rec & S1 & S2). rewrite S1. rewrite (out_round (Zpos m) (f - e) rec ltac:(lia) S2).
  replace (rne (Zpos m) (f - e)) with r by (unfold r; rewrite (in_units_iff (Zpos m) e f e) by lia; rewrite Z.sub_diag; change (2 ^ 0) with 1; now rewrite Z.mul_1_r).
  clearbody r f. clear S1 S2 rec He m e.
  assert (P : 2 ^ prec = 2 * 2 ^ (prec - 1)) by (rewrite <- Z.pow_succ_r by lia; f_equal; lia).
  assert (P0 : 0 < 2 ^ (prec - 1)) by (apply Z.pow_pos_nonneg; lia).
  assert (G : forall r', 0 <= r' < 2 ^ prec -> forall f', 3 - emax - prec <= f' -> (3 - emax - prec < f' -> 2 ^ (prec - 1) <= r') -> same_number r' f' r f ->
    result s r f (match r' with Z0 => S754_zero s | Zpos m => if f' <=? emax - prec then S754_finite s m f' else S754_infinity s | Zneg _ => S754_nan end)).
  { intros r' H1 f' H2 H3 H4. destruct r' as [|q|q]; [| |lia].
    - cbn [result]. split; [reflexivity|]. apply same_sym, same_zero in H4. exact H4.
    - destruct (Z.leb_spec f' (emax - prec)) as [L|L]; cbn [result].
      + split; [reflexivity|]. split; [exact H4|]. intros I.
        assert (I' : le_number 1 emax (Zpos q) f') by (apply (le_trans _ _ _ _ _ _ I), le_same, same_sym, H4).
        rewrite (le_iff 1 emax _ _ f') in I' by lia. rewrite Z.sub_diag, Z.mul_1_l, Z.mul_1_r in I'.
        pose proof (Z.pow_le_mono_r 2 prec (emax - f') ltac:(lia) ltac:(lia)). lia.
      + split; [reflexivity|]. apply (le_trans 1 emax (Zpos q) f'); [|apply le_same, H4].
        specialize (H3 ltac:(lia)). set (c := Z.min emax f'). rewrite (le_iff 1 emax _ _ c) by lia. rewrite Z.mul_1_l.
        apply Z.le_trans with (2 ^ (prec - 1) * 2 ^ (f' - c)).
        * rewrite <- Z.pow_add_r by lia. apply Z.pow_le_mono_r; lia.
        * apply Z.mul_le_mono_nonneg_r; [apply Z.pow_nonneg; lia|exact H3]. }
  unfold shr_fexp. cbn [shr_record_of_loc].
  destruct (Z.eq_dec r (2 ^ prec)) as [Er|Er].
  - assert (Ed : Zdigits2 r = prec + 1).
    { destruct r as [|q|q]; [lia| |lia]. cbn [Zdigits2]. pose proof (digits_ge q prec ltac:(lia) ltac:(lia)).
      pose proof (digits_le q (prec + 1) ltac:(lia) ltac:(rewrite Z.pow_add_r by lia; change (2 ^ 1) with 2; lia)). lia. }
    rewrite Ed, fexp_eq. replace (Z.max (prec + 1 + f - prec) (3 - emax - prec) - f) with 1 by lia. cbn [shr iter_pos].
    replace {| shr_m := r; shr_r := false; shr_s := false |} with {| shr_m := 2 ^ (prec - 1) * 2 ^ 1; shr_r := false; shr_s := false |} by (f_equal; rewrite Er, P; change (2 ^ 1) with 2; ring).
    pose proof (iter_shr_exact 1 (2 ^ (prec - 1)) ltac:(lia)) as I1. cbn [iter_pos] in I1. rewrite I1. cbn [shr_m].
    apply (G (2 ^ (prec - 1)) ltac:(lia) (f + 1)); [lia|lia|]. rewrite (same_iff _ (f + 1) _ f f) by lia. rewrite Z.sub_diag, Er, P.
    replace (f + 1 - f) with 1 by lia. change (2 ^ 1) with 2. change (2 ^ 0) with 1. ring.
  - assert (Ed : Zdigits2 r <= prec).
    { destruct r as [|q|q]; [cbn; lia| |lia]. cbn [Zdigits2]. apply digits_le; lia. }
    assert (Es : shr {| shr_m := r; shr_r := false; shr_s := false |} f (fexp (Zdigits2 r + f) - f) = ({| shr_m := r; shr_r := false; shr_s := false |}, f)).
    { rewrite fexp_eq. unfold shr. destruct (Z.max (Zdigits2 r + f - prec) (3 - emax - prec) - f) as [|n|n] eqn:En; [reflexivity|lia|reflexivity]. }
    rewrite Es. cbn [shr_m]. apply G; [lia|lia|exact R2|apply same_refl].
Qed.

Lemma unit_shift : forall m e d, unit (shift_pos d m) (e - Zpos d) = unit m e.
Proof. intros m e d. unfold unit. rewrite digits_shift. f_equal. lia. Qed.

Lemma round_result : forall s m e, result s (in_units (Zpos m) e (unit m e)) (unit m e) (binary_round prec emax s m e).
Proof using Hprec Hemax.
  intros s m e. unfold binary_round, shl_align. fold (unit m e).
  destruct (unit m e - e) as [|d|d] eqn:E; try (apply round_aux_result; lia).
  assert (U : unit (shift_pos d m) (unit m e) = unit m e) by (transitivity (unit (shift_pos d m) (e - Zpos d)); [f_equal; lia|apply unit_shift]).
  pose proof (round_aux_result s (shift_pos d m) (unit m e) ltac:(lia)) as A. rewrite U in A.
  replace (in_units (Zpos m) e (unit m e)) with (in_units (Zpos (shift_pos d m)) (unit m e) (unit m e)); [exact A|].
  rewrite (in_units_iff _ _ _ (unit m e)), (in_units_iff _ e _ (unit m e)) by lia. f_equal. rewrite shift_pos_mul, Z.sub_diag. change (2 ^ 0) with 1.
  rewrite Z.mul_1_r. do 2 f_equal. lia.
Qed.

(** ** Monotone *)

Lemma unit_mono : forall m e n i, le_number (Zpos m) e (Zpos n) i ->
  Zpos (digits2_pos m) + e <= Zpos (digits2_pos n) + i /\ unit m e <= unit n i.
Proof using Hprec.
  intros m e n i H.
  assert (D : Zpos (digits2_pos m) + e <= Zpos (digits2_pos n) + i).
  { set (k := Zpos (digits2_pos n) + i). set (c := Z.min (Z.min e i) k). apply (digits_iff m e k c); [lia|lia|].
    rewrite (le_iff _ e _ i c) in H by lia. apply Z.le_lt_trans with (1 := H). apply (digits_iff n i k c); lia. }
  split; [exact D|]. unfold unit. rewrite !fexp_eq. lia.
Qed.

Lemma in_units_le : forall m e n i, le_number (Zpos m) e (Zpos n) i ->
  le_number (in_units (Zpos m) e (unit m e)) (unit m e) (in_units (Zpos n) i (unit n i)) (unit n i).
Proof using Hprec.
  intros m e n i H. destruct (unit_mono m e n i H) as [D U].
  destruct (Z.eq_dec (unit m e) (unit n i)) as [E|E].
  - rewrite <- E. unfold le_number. rewrite Z.min_id, Z.sub_diag. apply Z.mul_le_mono_nonneg_r; [lia|]. apply in_units_mono. exact H.
  - destruct (unit_bound m e) as (A1 & A2 & A3 & A4 & _). destruct (unit_bound n i) as (B1 & B2 & B3 & _ & B5).
    apply (le_trans _ _ _ _ _ _ A4). specialize (B5 ltac:(lia)). refine (le_trans _ _ _ _ _ _ _ B5).
    assert (L : Z.max (Zpos (digits2_pos m) + e) (unit m e) <= Zpos (digits2_pos n) + i - 1).
    { clear - E U D Hprec. unfold unit in *. rewrite !fexp_eq in *. lia. }
    set (p := Z.max _ _) in *. set (q := _ + i - 1) in *. clearbody p q. rewrite (le_iff 1 p 1 q p) by lia. rewrite Z.sub_diag, !Z.mul_1_l.
    apply Z.pow_le_mono_r; lia.
Qed.

Lemma round_mono : forall m e n i, le_number (Zpos m) e (Zpos n) i ->
  SFleb (binary_round prec emax false m e) (binary_round prec emax false n i) = true.
Proof using Hprec Hemax.
  intros m e n i H. pose proof (in_units_le m e n i H) as L. pose proof (round_result false m e) as A. pose proof (round_result false n i) as B.
  assert (G : forall m e, number prec emax (binary_round prec emax false m e)).
  { intros m' e'. pose proof (proj1 (proj1 (normalize_good prec emax Hprec (Zpos m') e' false))). exact H0. }
  pose proof (G m e) as Gm. pose proof (G n i) as Gn.
  set (x := binary_round prec emax false m e) in *. set (y := binary_round prec emax false n i) in *. clearbody x y.
  set (r := in_units (Zpos m) e (unit m e)) in *. set (t := in_units (Zpos n) i (unit n i)) in *.
  set (f := unit m e) in *. set (g := unit n i) in *. clearbody r t f g.
  destruct x as [sx|sx| |sx mx ex]; cbn [result] in A; try contradiction; destruct y as [sy|sy| |sy my ey]; cbn [result] in B; try contradiction.
  - reflexivity.
  - destruct B as [-> _]. reflexivity.
  - destruct B as [-> _]. reflexivity.
  - destruct A as [_ A], B as [_ B]. subst t. apply (le_trans _ _ _ _ _ _ A), le_sgn in L. cbn in L. lia.
  - destruct A as [-> _], B as [-> _]. reflexivity.
  - destruct A as [_ A], B as (_ & B & C). exfalso. apply C. exact (le_trans _ _ _ _ _ _ A L).
  - destruct A as (_ & A & _), B as [_ B]. subst t. apply (le_trans _ _ _ _ _ _ (le_same _ _ _ _ A)), le_sgn in L. cbn in L. lia.
  - destruct A as [-> _], B as [-> _]. reflexivity.
  - destruct A as (-> & A & _), B as (-> & B & _). set (c := Z.min ex ey).
    assert (K : le_number (Zpos mx) ex (Zpos my) ey) by (apply (le_trans _ _ _ _ _ _ (le_same _ _ _ _ A)), (le_trans _ _ _ _ _ _ L), le_same, same_sym, B).
    rewrite (leb_exact prec emax Hprec _ _ (Zpos mx * 2 ^ (ex - c)) (Zpos my * 2 ^ (ey - c)) c Gm Gn).
    + apply Z.leb_le. rewrite (le_iff _ _ _ _ c) in K by lia. exact K.
    + cbn [worth]. rewrite (same_iff _ ex _ c c) by lia. rewrite Z.sub_diag. change (2 ^ 0) with 1. lia.
    + cbn [worth]. rewrite (same_iff _ ey _ c c) by lia. rewrite Z.sub_diag. change (2 ^ 0) with 1. lia.
Qed.

(** ** Signs *)

Lemma round_aux_opp : forall m e l, binary_round_aux prec emax true m e l = SFopp (binary_round_aux prec emax false m e l).
Proof.
  intros m e l. unfold binary_round_aux. destruct (shr_fexp prec emax m e l) as [r1 e1]. destruct (shr_fexp prec emax _ e1 loc_Exact) as [r2 e2].
  destruct (shr_m r2) as [|p|p]; [reflexivity| |reflexivity]. destruct (e2 <=? emax - prec); reflexivity.
Qed.

Lemma round_opp : forall m e, binary_round prec emax true m e = SFopp (binary_round prec emax false m e).
Proof. intros m e. unfold binary_round. destruct (shl_align m e _) as [m' e']. apply round_aux_opp. Qed.

Lemma leb_opp : forall x y, SFleb (SFopp y) (SFopp x) = SFleb x y.
Proof.
  intros x y. unfold SFleb. destruct x as [sx|sx| |sx mx ex], y as [sy|sy| |sy my ey]; cbn [SFopp SFcompare]; try reflexivity;
    try (destruct sx; reflexivity); try (destruct sy; reflexivity); try (destruct sx, sy; reflexivity).
  destruct sx, sy; cbn [negb]; try reflexivity.
  - rewrite (Z.compare_antisym ex ey). destruct (ex ?= ey); cbn [CompOpp]; try reflexivity.
    change (Pos.compare_cont Eq my mx) with (Pos.compare my mx). change (Pos.compare_cont Eq mx my) with (Pos.compare mx my).
    rewrite (Pos.compare_antisym mx my). destruct (Pos.compare mx my); reflexivity.
  - rewrite (Z.compare_antisym ex ey). destruct (ex ?= ey); cbn [CompOpp]; try reflexivity.
    change (Pos.compare_cont Eq my mx) with (Pos.compare my mx). change (Pos.compare_cont Eq mx my) with (Pos.compare mx my).
    rewrite (Pos.compare_antisym mx my). destruct (Pos.compare mx my); reflexivity.
Qed.

Lemma result_sign : forall s r f x, result s r f x -> match x with S754_nan => False | S754_zero t | S754_infinity t | S754_finite t _ _ => t = s end.
Proof. intros s r f [t|t| |t m e] H; try contradiction; apply H. Qed.

Lemma normalize_mono : forall a i s b j t, le_number a i b j ->
  SFleb (binary_normalize prec emax a i s) (binary_normalize prec emax b j t) = true.
Proof using Hprec Hemax.
  intros a i s b j t H. pose proof (le_sgn _ _ _ _ H) as S.
  destruct a as [|a|a], b as [|b|b]; cbn [Z.sgn] in S; try lia; cbn [binary_normalize].
  - reflexivity.
  - pose proof (result_sign _ _ _ _ (round_result false b j)). destruct (binary_round prec emax false b j); try contradiction; subst; reflexivity.
  - now apply round_mono.
  - pose proof (result_sign _ _ _ _ (round_result true a i)). destruct (binary_round prec emax true a i); try contradiction; subst; reflexivity.
  - pose proof (result_sign _ _ _ _ (round_result true a i)). pose proof (result_sign _ _ _ _ (round_result false b j)).
    destruct (binary_round prec emax true a i); try contradiction; destruct (binary_round prec emax false b j); try contradiction; subst; reflexivity.
  - rewrite !round_opp, leb_opp. apply round_mono. apply le_opp in H. exact H.
Qed.

(** Products are rounded like everything else. *)
Lemma mul_round : forall s m e t n i, 3 - emax - prec <= 0 -> number prec emax (S754_finite s m e) -> number prec emax (S754_finite t n i) ->
  SFmul prec emax (S754_finite s m e) (S754_finite t n i) = binary_round prec emax (xorb s t) (m * n) (e + i) /\ e + i <= unit (m * n) (e + i).
Proof using Hprec Hemax.
  intros s m e t n i Hmin Nx Ny.
  assert (Gx : good prec emax (S754_finite s m e)) by (split; [exact Nx|discriminate]).
  assert (Gy : good prec emax (S754_finite t n i)) by (split; [exact Ny|discriminate]).
  apply finite_good in Gx; [|exact Hprec]. apply finite_good in Gy; [|exact Hprec]. destruct Gx as (X1 & X2 & X3), Gy as (Y1 & Y2 & Y3).
  assert (L : e + i <= unit (m * n) (e + i)).
  { unfold SpecFloat.emin in *. unfold unit. rewrite fexp_eq. assert (P0 : 0 < 2 ^ (prec - 1)) by (apply Z.pow_pos_nonneg; lia).
    assert (3 - emax - prec < e \/ 3 - emax - prec < i \/ (e = 3 - emax - prec /\ i = 3 - emax - prec)) as [K|[K|[-> ->]]] by lia; [| |lia].
    - specialize (X3 K). pose proof (digits_ge (m * n) (prec - 1) ltac:(lia) ltac:(nia)). lia.
    - specialize (Y3 K). pose proof (digits_ge (m * n) (prec - 1) ltac:(lia) ltac:(nia)). lia. }
  split; [|exact L]. cbn [SFmul]. unfold binary_round, shl_align. fold (unit (m * n) (e + i)).
  destruct (unit (m * n) (e + i) - (e + i)) as [|d|d] eqn:E; try reflexivity. lia.
Qed.

Lemma mul_normalize : forall x y a i b j, 3 - emax - prec <= 0 -> number prec emax x -> number prec emax y -> worth x a i -> worth y b j ->
  exists c k s, SFmul prec emax x y = binary_normalize prec emax c k s /\ same_number c k (a * b) (i + j).
Proof using Hprec Hemax.
  intros x y a i b j Hmin Nx Ny Wx Wy. destruct x as [s|s| |s m e]; try contradiction; destruct y as [t|t| |t n f]; try contradiction; cbn [worth] in *.
  - exists 0, 0, (xorb s t). subst. split; [reflexivity|]. apply same_sym, same_zero. lia.
  - exists 0, 0, (xorb s t). subst. split; [reflexivity|]. apply same_sym, same_zero. lia.
  - exists 0, 0, (xorb s t). subst. split; [reflexivity|]. apply same_sym, same_zero. lia.
  - destruct (mul_round s m e t n f Hmin Nx Ny) as [E _]. rewrite E.
    exists (if xorb s t then Zneg (m * n) else Zpos (m * n)), (e + f), false. split; [destruct (xorb s t); reflexivity|].
    replace (if xorb s t then Zneg (m * n) else Zpos (m * n)) with ((if s then Zneg m else Zpos m) * (if t then Zneg n else Zpos n)) by (destruct s, t; reflexivity).
    now apply same_mul.
Qed.

Lemma same_le_mul : forall a i b j c k, 0 <= c -> le_number a i b j -> le_number (c * a) (k + i) (c * b) (k + j).
Proof.
  intros a i b j c k Hc H. set (d := Z.min i j). rewrite (le_iff _ _ _ _ d) in H by lia. rewrite (le_iff _ _ _ _ (k + d)) by lia.
  replace (k + i - (k + d)) with (i - d) by lia. replace (k + j - (k + d)) with (j - d) by lia. rewrite <- !Z.mul_assoc. apply Z.mul_le_mono_nonneg_l; lia.
Qed.

Lemma mul_mono : forall k x y c l a i b j, 3 - emax - prec <= 0 -> number prec emax k -> number prec emax x -> number prec emax y ->
  worth k c l -> worth x a i -> worth y b j -> 0 <= c -> le_number a i b j ->
  SFleb (SFmul prec emax k x) (SFmul prec emax k y) = true.
Proof using Hprec Hemax.
  intros k x y c l a i b j Hmin Nk Nx Ny Wk Wx Wy Hc H.
  destruct (mul_normalize k x c l a i Hmin Nk Nx Wk Wx) as (p & u & s & E1 & S1).
  destruct (mul_normalize k y c l b j Hmin Nk Ny Wk Wy) as (q & v & t & E2 & S2). rewrite E1, E2. apply normalize_mono.
  apply (le_trans _ _ _ _ _ _ (le_same _ _ _ _ S1)). refine (le_trans _ _ _ _ _ _ _ (le_same _ _ _ _ (same_sym _ _ _ _ S2))). now apply same_le_mul.
Qed.

(** Every finite number is worth something. *)
Definition mantissa (x : spec_float) : Z := match x with S754_finite s m _ => if s then Zneg m else Zpos m | _ => 0 end.
Definition exponent (x : spec_float) : Z := match x with S754_finite _ _ e => e | _ => 0 end.

Lemma worth_self : forall x, is_finite x -> worth x (mantissa x) (exponent x).
Proof. intros [s|s| |s m e] H; try contradiction; [reflexivity|apply same_refl]. Qed.

Lemma worth_at : forall x c, is_finite x -> c <= exponent x -> worth x (mantissa x * 2 ^ (exponent x - c)) c.
Proof.
  intros x c F H. apply (worth_same _ _ _ _ _ (worth_self x F)). rewrite (same_iff _ _ _ _ c) by lia. rewrite Z.sub_diag. change (2 ^ 0) with 1. lia.
Qed.

Lemma leb_le : forall x y, number prec emax x -> number prec emax y -> is_finite x -> is_finite y ->
  (SFleb x y = true <-> le_number (mantissa x) (exponent x) (mantissa y) (exponent y)).
Proof using Hprec Hemax.
  intros x y Nx Ny Fx Fy. set (c := Z.min (exponent x) (exponent y)).
  rewrite (leb_exact prec emax Hprec x y _ _ c Nx Ny (worth_at x c Fx ltac:(lia)) (worth_at y c Fy ltac:(lia))).
  rewrite Z.leb_le, (le_iff _ _ _ _ c) by lia. apply iff_refl.
Qed.

Lemma quot_mono : forall a b c, 0 < c -> a <= b -> Z.quot a c <= Z.quot b c.
Proof. intros a b c Hc H. apply Z.quot_le_mono; lia. Qed.

Lemma trunc_mono : forall x y a b, number prec emax x -> number prec emax y -> SFleb x y = true -> trunc x = Some a -> trunc y = Some b -> a <= b.
Proof using Hprec Hemax.
  intros x y a b Nx Ny H Ha Hb.
  assert (Fx : is_finite x) by (destruct x; try discriminate; exact I). assert (Fy : is_finite y) by (destruct y; try discriminate; exact I).
  set (c := Z.min (-1) (Z.min (exponent x) (exponent y))). assert (Hc : c < 0) by (unfold c; lia).
  pose proof (worth_at x c Fx ltac:(lia)) as Wx. pose proof (worth_at y c Fy ltac:(lia)) as Wy.
  rewrite (leb_exact prec emax Hprec x y _ _ c Nx Ny Wx Wy) in H. rewrite (trunc_exact _ _ _ Wx) in Ha. rewrite (trunc_exact _ _ _ Wy) in Hb.
  clearbody c. rewrite (proj2 (Z.leb_gt 0 c) Hc) in Ha, Hb. injection Ha as <-. injection Hb as <-. apply quot_mono; [apply Z.pow_pos_nonneg; lia|lia].
Qed.

(** ** Error *)

Lemma result_units : forall s m e, is_finite (binary_round prec emax s m e) ->
  worth (binary_round prec emax false m e) (in_units (Zpos m) e (unit m e)) (unit m e).
Proof using Hprec Hemax.
  intros s m e F. assert (F' : is_finite (binary_round prec emax false m e)) by (destruct s; [rewrite round_opp in F; destruct (binary_round prec emax false m e); try contradiction; exact I|exact F]).
  pose proof (round_result false m e) as R. destruct (binary_round prec emax false m e) as [t|t| |t n f]; try contradiction; cbn [result worth] in *.
  - apply R.
  - destruct R as (-> & R & _). exact R.
Qed.

(** The error is at most half a unit, and the unit at most 2^(1-prec) of the number, unless it is the smallest one. *)
Lemma round_error : forall m e c, let f := unit m e in let r := in_units (Zpos m) e f in c <= e -> c <= f ->
  2 * Z.abs (r * 2 ^ (f - c) - Zpos m * 2 ^ (e - c)) <= 2 ^ (f - c) /\
  (f = 3 - emax - prec \/ 2 ^ (prec - 1) * 2 ^ (f - c) <= Zpos m * 2 ^ (e - c)) /\
  (f = 3 - emax - prec -> Zpos m * 2 ^ (e - c) < 2 ^ prec * 2 ^ (f - c)).
Proof using Hprec Hemax.
  intros m e c f r He Hf. split; [apply in_units_near; lia|].
  set (d := Zpos (digits2_pos m) + e). assert (Ef : f = Z.max (d - prec) (3 - emax - prec)) by (unfold f, unit; apply fexp_eq).
  split.
  - destruct (Z.eq_dec f (3 - emax - prec)) as [E|E]; [left; exact E|right]. rewrite <- Z.pow_add_r by lia.
    replace (prec - 1 + (f - c)) with (d - 1 - c) by lia.
    destruct (Z.le_gt_cases (2 ^ (d - 1 - c)) (Zpos m * 2 ^ (e - c))) as [L|L]; [exact L|]. apply (digits_iff m e (d - 1) c) in L; unfold d in *; lia.
  - intros E. rewrite <- Z.pow_add_r by lia. replace (prec + (f - c)) with (prec + f - c) by lia. apply (digits_iff m e (prec + f) c); lia.
Qed.

End Format.
