(** Proofs about parameters: values in memory. *)
From Verif Require Import Base BaseLemmas Loop Float ParameterModel ParameterSpec.
From Coq Require Import Floats.SpecFloat.

(** * Bytes *)

Lemma le_bytes_length : forall n v, length (le_bytes n v) = n.
Proof. induction n; intros; cbn; auto. Qed.

Lemma pow256_S : forall n, 256 ^ Z.of_nat (S n) = 256 * 256 ^ Z.of_nat n.
Proof. intros. rewrite Nat2Z.inj_succ, Z.pow_succ_r by lia. reflexivity. Qed.

Lemma pow256_pos : forall n, 0 < 256 ^ n \/ n < 0.
Proof. intros. destruct (Z.ltb_spec n 0); [lia|]. left. apply Z.pow_pos_nonneg; lia. Qed.

Lemma pow256_2 : forall n, 0 <= n -> 256 ^ n = 2 ^ (8 * n).
Proof. intros. rewrite Z.pow_mul_r by lia. reflexivity. Qed.

Lemma le_bytes_nth : forall n v i, (i < n)%nat ->
  nth_error (le_bytes n v) i = Some ((v / 256 ^ Z.of_nat i) mod 256).
Proof.
  induction n as [|n IH]; intros v i H; [lia|].
  destruct i as [|i]; cbn [le_bytes nth_error].
  - change (256 ^ Z.of_nat 0) with 1. rewrite Z.div_1_r. reflexivity.
  - rewrite IH by lia. rewrite pow256_S.
    rewrite Z.div_div by (try lia; apply Z.pow_pos_nonneg; lia). reflexivity.
Qed.

Lemma le_value_bytes : forall n v, le_value (le_bytes n v) = v mod 256 ^ Z.of_nat n.
Proof.
  induction n as [|n IH]; intros v; cbn [le_bytes le_value].
  - change (256 ^ Z.of_nat 0) with 1. rewrite Z.mod_1_r. reflexivity.
  - rewrite IH, pow256_S. rewrite Z.rem_mul_r by (try lia; apply Z.pow_pos_nonneg; lia). reflexivity.
Qed.

Lemma size_pos : forall ty, 1 <= size ty <= 8.
Proof. destruct ty; cbn; lia. Qed.

(** Bit pattern at an address. *)
Definition raw_at (m : mem) (p n raw : Z) : Prop :=
  0 <= p /\ forall i, 0 <= i < n -> nth_error m (Z.to_nat (p + i)) = Some ((raw / 256 ^ i) mod 256).

Lemma raw_at_inside : forall m p n raw, 0 < n -> raw_at m p n raw -> inside m p n.
Proof.
  intros m p n raw Hn [Hp H]. split; [exact Hp|].
  assert (E := H (n - 1) ltac:(lia)).
  assert (nth_error m (Z.to_nat (p + (n - 1))) <> None) as E' by congruence.
  apply nth_error_Some in E'. unfold zlen. lia.
Qed.

Lemma raw_at_bytes : forall m p n raw, 0 < n -> raw_at m p n raw ->
  firstn (Z.to_nat n) (skipn (Z.to_nat p) m) = le_bytes (Z.to_nat n) raw.
Proof.
  intros m p n raw Hn [Hp H]. apply nth_error_ext. intros i.
  rewrite nth_error_firstn, nth_error_skipn.
  destruct (Nat.ltb_spec i (Z.to_nat n)) as [L|L].
  - rewrite le_bytes_nth by exact L.
    specialize (H (Z.of_nat i) ltac:(lia)).
    replace (Z.to_nat (p + Z.of_nat i)) with (Z.to_nat p + i)%nat in H by lia. exact H.
  - symmetry. apply nth_error_None. rewrite le_bytes_length. exact L.
Qed.

Lemma load_ok : forall m p n raw, 0 < n -> raw_at m p n raw -> load m p n = Done (raw mod 256 ^ n).
Proof.
  intros m p n raw Hn H. destruct (raw_at_inside _ _ _ _ Hn H) as [I1 I2]. unfold load.
  rewrite zread_ok by lia. cbn [obind]. rewrite (raw_at_bytes m p n raw) by assumption.
  rewrite le_value_bytes. f_equal. f_equal. f_equal. lia.
Qed.

Lemma store_ok : forall m p n v, 0 < n -> inside m p n ->
  exists m', store m p n v = Done m' /\ raw_at m' p n v /\ changed_only m m' p n.
Proof.
  intros m p n v Hn [I1 I2].
  assert (L : length (le_bytes (Z.to_nat n) v) = Z.to_nat n) by apply le_bytes_length.
  assert (B : (Z.to_nat p + Z.to_nat n <= length m)%nat) by (unfold zlen in I2; lia).
  eexists. unfold store. rewrite zwrite_ok by (try assumption; unfold zlen; rewrite L; unfold zlen in I2; lia).
  split; [reflexivity|]. rewrite L.
  set (bs := le_bytes (Z.to_nat n) v) in *. split; [split; [exact I1|] | split].
  - intros i Hi. rewrite nth_error_app2 by (rewrite firstn_length; lia).
    rewrite firstn_length, Nat.min_l by lia.
    rewrite nth_error_app1 by (rewrite L; lia).
    replace (Z.to_nat (p + i) - Z.to_nat p)%nat with (Z.to_nat i) by lia.
    unfold bs. rewrite le_bytes_nth by lia. rewrite Z2Nat.id by lia. reflexivity.
  - rewrite !app_length, firstn_length, skipn_length, L. lia.
  - intros a Ha Hd. destruct (Z.ltb_spec a p).
    + rewrite nth_error_app1 by (rewrite firstn_length; lia).
      rewrite nth_error_firstn. destruct (Nat.ltb_spec (Z.to_nat a) (Z.to_nat p)); [reflexivity|lia].
    + rewrite nth_error_app2 by (rewrite firstn_length; lia).
      rewrite firstn_length, Nat.min_l by lia.
      rewrite nth_error_app2 by (rewrite L; lia). rewrite L, nth_error_skipn. f_equal. lia.
Qed.

Lemma raw_at_frame : forall m m' p n q k raw, changed_only m m' q k -> disjoint p n q k ->
  raw_at m p n raw -> raw_at m' p n raw.
Proof.
  intros m m' p n q k raw [_ C] D [Hp H]. split; [exact Hp|]. intros i Hi. rewrite C; [auto|lia|].
  unfold disjoint in D. lia.
Qed.

Lemma byte_mod : forall raw n i, 0 <= i < n -> (raw mod 256 ^ n / 256 ^ i) mod 256 = (raw / 256 ^ i) mod 256.
Proof.
  intros raw n i Hi.
  replace n with (i + 1 + (n - (i + 1))) by lia.
  rewrite Z.pow_add_r by lia.
  assert (P1 : 0 < 256 ^ (i + 1)) by (apply Z.pow_pos_nonneg; lia).
  assert (P2 : 0 < 256 ^ (n - (i + 1))) by (apply Z.pow_pos_nonneg; lia).
  assert (P3 : 0 < 256 ^ i) by (apply Z.pow_pos_nonneg; lia).
  rewrite Z.rem_mul_r by lia.
  assert (E : 256 ^ (i + 1) = 256 ^ i * 256) by (rewrite Z.pow_add_r by lia; reflexivity).
  rewrite E. rewrite (Z.rem_mul_r raw (256 ^ i) 256) by lia.
  set (A := (raw / (256 ^ i * 256)) mod 256 ^ (n - (i + 1))).
  set (b := (raw / 256 ^ i) mod 256).
  assert (0 <= b < 256) by (apply Z.mod_pos_bound; lia).
  assert (0 <= raw mod 256 ^ i < 256 ^ i) by (apply Z.mod_pos_bound; lia).
  replace (raw mod 256 ^ i + 256 ^ i * b + 256 ^ i * 256 * A) with (raw mod 256 ^ i + (b + 256 * A) * 256 ^ i) by ring.
  rewrite Z.div_add by lia. rewrite Z.div_small by assumption.
  replace (0 + (b + 256 * A)) with (b + A * 256) by ring.
  rewrite Z.mod_add by lia. apply Z.mod_small. assumption.
Qed.

Lemma raw_at_mod : forall m p n raw, raw_at m p n (raw mod 256 ^ n) <-> raw_at m p n raw.
Proof.
  intros m p n raw. unfold raw_at.
  split; intros [Hp H]; (split; [exact Hp|]); intros i Hi; rewrite H by exact Hi; f_equal;
    [|symmetry]; apply byte_mod; exact Hi.
Qed.

(** * Integer values *)

Definition bits (ty : ptype) : Z := 8 * size ty.

Lemma pow_bits : forall ty, 256 ^ size ty = 2 ^ bits ty.
Proof. destruct ty; reflexivity. Qed.

Lemma int_value_mod : forall ty v, is_int ty = true -> representable ty v ->
  int_value ty (v mod 2 ^ bits ty) = v.
Proof.
  intros ty v Hi [H1 H2]. destruct ty; cbn in H1, H2; try discriminate Hi; unfold int_value, bits; cbn [size].
  all: try (change (2 ^ (8 * 1)) with 256; apply Z.mod_small; lia).
  all: try (change (2 ^ (8 * 2)) with 65536; apply Z.mod_small; lia).
  all: try (change (2 ^ (8 * 4)) with 4294967296; apply Z.mod_small; lia).
  all: try (change (2 ^ (8 * 8)) with 18446744073709551616; apply Z.mod_small; lia).
  all: unfold swrap; rewrite Z.mod_mod by (cbn; lia).
  - change (v mod 2 ^ (8 * 1)) with (v mod 2 ^ 8). change (2 ^ 8) with 256. change (2 ^ (8 - 1)) with 128.
    destruct (Z.ltb_spec (v mod 256) 128); Z.div_mod_to_equations; lia.
  - change (2 ^ (8 * 2)) with 65536. change (2 ^ 16) with 65536. change (2 ^ (16 - 1)) with 32768.
    destruct (Z.ltb_spec (v mod 65536) 32768); Z.div_mod_to_equations; lia.
  - change (2 ^ (8 * 4)) with 4294967296. change (2 ^ 32) with 4294967296. change (2 ^ (32 - 1)) with 2147483648.
    destruct (Z.ltb_spec (v mod 4294967296) 2147483648); Z.div_mod_to_equations; lia.
  - change (2 ^ (8 * 8)) with 18446744073709551616. change (2 ^ 64) with 18446744073709551616.
    change (2 ^ (64 - 1)) with 9223372036854775808.
    destruct (Z.ltb_spec (v mod 18446744073709551616) 9223372036854775808); Z.div_mod_to_equations; lia.
Qed.

Lemma holds_raw : forall m p ty v, holds m p ty v -> raw_at m p (size ty) v.
Proof. intros m p ty v (H1 & H2 & H3 & H4). split; assumption. Qed.

Lemma raw_holds : forall m p ty v, is_int ty = true -> representable ty v -> raw_at m p (size ty) v -> holds m p ty v.
Proof. intros m p ty v H1 H2 [H3 H4]. repeat split; try assumption; apply H2. Qed.

Lemma holds_load : forall m p ty v, holds m p ty v -> load m p (size ty) = Done (v mod 2 ^ bits ty).
Proof.
  intros m p ty v H. rewrite (load_ok m p (size ty) v); [rewrite pow_bits; reflexivity| |apply holds_raw; exact H].
  pose proof (size_pos ty). lia.
Qed.

Lemma union_field : forall u ty v, union_holds u ty v -> field ty u = v mod 2 ^ bits ty.
Proof. intros u ty v (H1 & H2 & H3). exact H3. Qed.

Lemma limit_lower : forall h m v, limit m (pmin h) (minv h) (ptype_of h) v ->
  lower h m = Done (v mod 2 ^ bits (ptype_of h)).
Proof.
  intros h m v H. unfold lower, limit in *. destruct (pmin h); [apply holds_load; exact H|].
  f_equal. apply union_field. exact H.
Qed.

Lemma limit_upper : forall h m v, limit m (pmax h) (maxv h) (ptype_of h) v ->
  upper h m = Done (v mod 2 ^ bits (ptype_of h)).
Proof.
  intros h m v H. unfold upper, limit in *. destruct (pmax h); [apply holds_load; exact H|].
  f_equal. apply union_field. exact H.
Qed.

Lemma limit_rep : forall m p u ty v, limit m p u ty v -> is_int ty = true /\ representable ty v.
Proof. intros m p u ty v H. destruct p; destruct H as (H1 & H2 & _); auto. Qed.

Lemma gt_int : forall ty a b, is_int ty = true -> representable ty a -> representable ty b ->
  gt ty (a mod 2 ^ bits ty) (b mod 2 ^ bits ty) = (b <? a).
Proof.
  intros ty a b Hi Ha Hb. unfold gt.
  destruct ty; try discriminate Hi;
    rewrite (int_value_mod _ a), (int_value_mod _ b) by assumption; reflexivity.
Qed.

(** Every bit pattern is that of a representable value. *)
Lemma raw_value : forall ty raw, is_int ty = true -> 0 <= raw < 2 ^ bits ty ->
  representable ty (int_value ty raw) /\ (int_value ty raw) mod 2 ^ bits ty = raw.
Proof.
  intros ty raw Hi H. destruct ty; try discriminate Hi; unfold int_value, bits in *; cbn [size] in *;
    unfold representable, rep_min, rep_max.
  all: try change (2 ^ (8 * 1)) with 256 in *; try change (2 ^ (8 * 2)) with 65536 in *;
       try change (2 ^ (8 * 4)) with 4294967296 in *; try change (2 ^ (8 * 8)) with 18446744073709551616 in *.
  all: try (split; [lia | apply Z.mod_small; lia]).
  all: unfold swrap.
  - change (2 ^ 8) with 256. change (2 ^ (8 - 1)) with 128.
    destruct (Z.ltb_spec (raw mod 256) 128); Z.div_mod_to_equations; lia.
  - change (2 ^ 16) with 65536. change (2 ^ (16 - 1)) with 32768.
    destruct (Z.ltb_spec (raw mod 65536) 32768); Z.div_mod_to_equations; lia.
  - change (2 ^ 32) with 4294967296. change (2 ^ (32 - 1)) with 2147483648.
    destruct (Z.ltb_spec (raw mod 4294967296) 2147483648); Z.div_mod_to_equations; lia.
  - change (2 ^ 64) with 18446744073709551616. change (2 ^ (64 - 1)) with 9223372036854775808.
    destruct (Z.ltb_spec (raw mod 18446744073709551616) 9223372036854775808); Z.div_mod_to_equations; lia.
Qed.

Lemma bits_pos : forall ty, 0 < 2 ^ bits ty.
Proof. destruct ty; reflexivity. Qed.

(** * Stepping *)

Lemma signed_done : forall w x y, signed w x = Done y -> y = x /\ - 2 ^ (w - 1) <= x < 2 ^ (w - 1).
Proof.
  intros w x y H. unfold signed in H.
  destruct ((- 2 ^ (w - 1) <=? x) && (x <? 2 ^ (w - 1))) eqn:E; [|discriminate].
  injection H as ->. apply andb_true_iff in E. lia.
Qed.

Lemma signed_ok : forall w x, - 2 ^ (w - 1) <= x < 2 ^ (w - 1) -> signed w x = Done x.
Proof.
  intros w x H. unfold signed.
  destruct (Z.leb_spec (- 2 ^ (w - 1)) x); [|lia]. destruct (Z.ltb_spec x (2 ^ (w - 1))); [reflexivity|lia].
Qed.

Lemma add_steps_raw : forall ty a b mod_ x, is_int ty = true -> add_steps ty a b mod_ = Done x -> 0 <= x < 2 ^ bits ty.
Proof.
  intros ty a b mod_ x Hi H. unfold add_steps in H.
  destruct ty; try discriminate Hi; cbn [obind] in H;
    repeat match type of H with
    | obind ?e _ = _ => destruct e; cbn [obind] in H; try discriminate H
    end; injection H as <-; apply Z.mod_pos_bound; reflexivity.
Qed.

Lemma holds_inside : forall m p ty v, holds m p ty v -> inside m p (size ty).
Proof.
  intros m p ty v H. apply raw_at_inside with v; [pose proof (size_pos ty); lia|apply holds_raw; exact H].
Qed.

(** What happens to integer parameters. *)
Lemma operator_int : forall h m mod_ lo hi v newv,
  limit m (pmin h) (minv h) (ptype_of h) lo -> limit m (pmax h) (maxv h) (ptype_of h) hi ->
  holds m (pointer h) (ptype_of h) v ->
  add_steps (ptype_of h) (v mod 2 ^ bits (ptype_of h)) (field (ptype_of h) (step h)) mod_ = Done newv ->
  let x := int_value (ptype_of h) newv in
  exists m', parameter_operator (Some h) m mod_ = Done (m', 0) /\
    changed_only m m' (pointer h) (size (ptype_of h)) /\
    holds m' (pointer h) (ptype_of h)
      (if (x <=? hi) && (lo <=? x) then x else if 0 <? mod_ then lo else if mod_ <? 0 then hi else x).
Proof.
  intros h m mod_ lo hi v newv Hlo Hhi Hv Ha x.
  destruct (limit_rep _ _ _ _ _ Hlo) as [Hi Rlo]. destruct (limit_rep _ _ _ _ _ Hhi) as [_ Rhi].
  pose proof (add_steps_raw _ _ _ _ _ Hi Ha) as Rn.
  destruct (raw_value _ _ Hi Rn) as [Rx Ex]. fold x in Rx, Ex.
  unfold parameter_operator, APPLY_OPERATOR, CHECK_RANGE_AGAINST.
  rewrite (holds_load _ _ _ _ Hv), (limit_lower h m lo Hlo), (limit_upper h m hi Hhi). cbn [obind].
  rewrite Ha. cbn [obind]. rewrite <- Ex. rewrite !gt_int by assumption.
  set (r := if hi <? x then 1 else if x <? lo then -1 else 0).
  set (y := if (x <=? hi) && (lo <=? x) then x else if 0 <? mod_ then lo else if mod_ <? 0 then hi else x).
  replace (if negb (r =? 0) && (0 <? mod_) then lo mod 2 ^ bits (ptype_of h)
           else if negb (r =? 0) && (mod_ <? 0) then hi mod 2 ^ bits (ptype_of h) else x mod 2 ^ bits (ptype_of h))
    with (y mod 2 ^ bits (ptype_of h)).
  2:{ unfold y, r. clear. destruct (Z.ltb_spec hi x); destruct (Z.leb_spec x hi); try lia; cbn [andb negb Z.eqb].
      - destruct (0 <? mod_), (mod_ <? 0); reflexivity.
      - destruct (Z.ltb_spec x lo); destruct (Z.leb_spec lo x); try lia; cbn [andb negb Z.eqb]; [|reflexivity].
        destruct (0 <? mod_), (mod_ <? 0); reflexivity. }
  assert (Ry : representable (ptype_of h) y).
  { unfold y. destruct ((x <=? hi) && (lo <=? x)); [exact Rx|]. destruct (0 <? mod_); [exact Rlo|].
    destruct (mod_ <? 0); [exact Rhi|exact Rx]. }
  destruct (store_ok m (pointer h) (size (ptype_of h)) (y mod 2 ^ bits (ptype_of h))) as (m' & Es & Rs & Cs).
  { pose proof (size_pos (ptype_of h)); lia. } { apply holds_inside with v. exact Hv. }
  exists m'. rewrite Es. cbn [obind]. split; [reflexivity|]. split; [exact Cs|].
  rewrite <- pow_bits in Rs. apply raw_holds; [exact Hi|exact Ry|]. apply raw_at_mod. exact Rs.
Qed.

Lemma operator_done : forall h m mod_ m' r v lo hi,
  limit m (pmin h) (minv h) (ptype_of h) lo -> limit m (pmax h) (maxv h) (ptype_of h) hi ->
  holds m (pointer h) (ptype_of h) v ->
  parameter_operator (Some h) m mod_ = Done (m', r) ->
  exists newv, add_steps (ptype_of h) (v mod 2 ^ bits (ptype_of h)) (field (ptype_of h) (step h)) mod_ = Done newv.
Proof.
  intros h m mod_ m' r v lo hi Hlo Hhi Hv H.
  unfold parameter_operator, APPLY_OPERATOR in H.
  rewrite (holds_load _ _ _ _ Hv), (limit_lower h m lo Hlo), (limit_upper h m hi Hhi) in H. cbn [obind] in H.
  destruct (add_steps _ _ _ _) as [newv| | |]; try discriminate H. eauto.
Qed.

Lemma add_steps_zero : forall ty v s newv, is_int ty = true -> representable ty v ->
  add_steps ty (v mod 2 ^ bits ty) s 0 = Done newv -> int_value ty newv = v.
Proof.
  intros ty v s newv Hi Hr H. unfold add_steps in H. rewrite int_value_mod in H by assumption.
  rewrite Z.mul_0_r in H.
  destruct ty; try discriminate Hi; cbn [obind signed] in H;
    repeat match type of H with
    | obind (signed ?w ?x) _ = _ => let E := fresh in destruct (signed w x) eqn:E; cbn [obind] in H; try discriminate H;
        apply signed_done in E; destruct E as [-> _]
    end; injection H as <-;
    rewrite ?Z.add_0_r; try (change (wrap 32 0) with 0); try (change (wrap 64 0) with 0);
    rewrite ?Z.mul_0_r; try (change (wrap 32 0) with 0); try (change (wrap 64 0) with 0); rewrite ?Z.add_0_r;
    apply (int_value_mod _ v Hi Hr).
Qed.

Lemma operator_range_l : forall h m mod_ m' r lo hi v,
  limit m (pmin h) (minv h) (ptype_of h) lo -> limit m (pmax h) (maxv h) (ptype_of h) hi -> lo <= hi ->
  holds m (pointer h) (ptype_of h) v ->
  mod_ <> 0 \/ lo <= v <= hi ->
  parameter_operator (Some h) m mod_ = Done (m', r) ->
  r = 0 /\ changed_only m m' (pointer h) (size (ptype_of h)) /\
  exists v', holds m' (pointer h) (ptype_of h) v' /\ lo <= v' <= hi.
Proof.
  intros h m mod_ m' r lo hi v Hlo Hhi L Hv Hm H.
  destruct (operator_done _ _ _ _ _ _ _ _ Hlo Hhi Hv H) as [newv Ha].
  destruct (operator_int _ _ _ _ _ _ _ Hlo Hhi Hv Ha) as (m1 & E & C & V).
  rewrite E in H. injection H as <- <-. split; [reflexivity|]. split; [exact C|].
  eexists. split; [exact V|].
  set (x := int_value (ptype_of h) newv) in *.
  destruct (Z.leb_spec x hi); destruct (Z.leb_spec lo x); cbn [andb]; try lia.
  - destruct (Z.ltb_spec 0 mod_); [lia|]. destruct (Z.ltb_spec mod_ 0); [lia|].
    assert (mod_ = 0) by lia. subst mod_.
    destruct Hv as (Hi & Hr & _). pose proof (add_steps_zero _ _ _ _ Hi Hr Ha). fold x in H2. lia.
  - destruct (Z.ltb_spec 0 mod_); [lia|]. destruct (Z.ltb_spec mod_ 0); [lia|].
    assert (mod_ = 0) by lia. subst mod_.
    destruct Hv as (Hi & Hr & _). pose proof (add_steps_zero _ _ _ _ Hi Hr Ha). fold x in H2. lia.
Qed.

Lemma add_steps_exact : forall ty v s mod_, is_int ty = true -> representable ty v -> representable ty s ->
  computable ty (s * mod_) -> representable ty (v + s * mod_) ->
  exists newv, add_steps ty (v mod 2 ^ bits ty) (s mod 2 ^ bits ty) mod_ = Done newv /\ int_value ty newv = v + s * mod_.
Proof.
  intros ty v s mod_ Hi Hv Hs Hc Hx. exists ((v + s * mod_) mod 2 ^ bits ty).
  split; [|apply int_value_mod; assumption].
  unfold add_steps. rewrite !int_value_mod by assumption.
  set (p := s * mod_) in *.
  destruct ty; try discriminate Hi; unfold computable, representable, INT_MIN, INT_MAX, rep_min, rep_max in *;
    try (rewrite (signed_ok _ p) by (cbn; lia); cbn [obind]; rewrite signed_ok by (cbn; lia); reflexivity).
  - f_equal. unfold wrap, bits. cbn [size]. change (8 * 4) with 32.
    rewrite <- Zplus_mod_idemp_r. rewrite Z.mod_mod by (cbn; lia). rewrite Zmult_mod_idemp_r.
    fold p. rewrite Zplus_mod_idemp_r. reflexivity.
  - f_equal. unfold wrap, bits. cbn [size]. change (8 * 8) with 64.
    rewrite <- Zplus_mod_idemp_r. rewrite Z.mod_mod by (cbn; lia). rewrite Zmult_mod_idemp_r.
    fold p. rewrite Zplus_mod_idemp_r. reflexivity.
Qed.

Lemma operator_steps_l : forall h m mod_ lo hi v s,
  limit m (pmin h) (minv h) (ptype_of h) lo -> limit m (pmax h) (maxv h) (ptype_of h) hi ->
  holds m (pointer h) (ptype_of h) v -> union_holds (step h) (ptype_of h) s ->
  computable (ptype_of h) (s * mod_) -> representable (ptype_of h) (v + s * mod_) ->
  exists m', parameter_operator (Some h) m mod_ = Done (m', 0) /\
    changed_only m m' (pointer h) (size (ptype_of h)) /\ holds m' (pointer h) (ptype_of h) (stepped lo hi v s mod_).
Proof.
  intros h m mod_ lo hi v s Hlo Hhi Hv Hs Hc Hx.
  destruct Hs as (Hi & Rs & Es).
  destruct (add_steps_exact (ptype_of h) v s mod_ Hi) as (newv & Ha & Hn); try assumption.
  { apply Hv. }
  assert (Ef : field (ptype_of h) (step h) = s mod 2 ^ bits (ptype_of h)) by exact Es.
  rewrite <- Ef in Ha.
  destruct (operator_int _ _ _ _ _ _ _ Hlo Hhi Hv Ha) as (m1 & E & C & V).
  exists m1. split; [exact E|]. split; [exact C|]. rewrite Hn in V. unfold stepped.
  rewrite (andb_comm (lo <=? v + s * mod_)).
  destruct ((v + s * mod_ <=? hi) && (lo <=? v + s * mod_)); [exact V|].
  destruct (Z.ltb_spec 0 mod_); [exact V|]. destruct (Z.ltb_spec mod_ 0); [exact V|].
  replace (v + s * mod_) with v in V; [exact V|]. replace mod_ with 0 by lia. lia.
Qed.

(** * Conversions *)

Lemma to_long_l : forall h m v, holds m (pointer h) (ptype_of h) v -> v <= 9223372036854775807 ->
  ptype_of h <> INT8 \/ 0 <= v ->
  parameter_to_long (Some h) m = Done v.
Proof.
  intros h m v Hv Hl Hn. pose proof (holds_load _ _ _ _ Hv) as L.
  destruct Hv as (Hi & Hr & _). pose proof (int_value_mod _ _ Hi Hr) as V.
  unfold parameter_to_long.
  assert (S64 : forall x, -9223372036854775808 <= x <= 9223372036854775807 -> swrap 64 x = x).
  { intros x Hx. apply swrap_small; [lia|]. change (2 ^ (64 - 1)) with 9223372036854775808. lia. }
  destruct (ptype_of h); try discriminate Hi; try (rewrite L; cbn [obind]; rewrite V; f_equal; apply S64;
    unfold representable, rep_min, rep_max in Hr; lia).
  cbn [size] in L. rewrite L. cbn [obind]. f_equal. unfold int_value. apply Z.mod_small.
  unfold representable, rep_min, rep_max in Hr. change (2 ^ bits INT8) with 256. destruct Hn; [congruence|lia].
Qed.

Lemma to_index_l : forall h m v, holds m (pointer h) (ptype_of h) v ->
  ptype_of h <> INT8 \/ 0 <= v ->
  parameter_to_index (Some h) m = Done (v mod 2 ^ 64).
Proof.
  intros h m v Hv Hn. pose proof (holds_load _ _ _ _ Hv) as L.
  destruct Hv as (Hi & Hr & _). pose proof (int_value_mod _ _ Hi Hr) as V.
  unfold parameter_to_index.
  destruct (ptype_of h); try discriminate Hi; try (rewrite L; cbn [obind]; rewrite V; reflexivity).
  cbn [size] in L. rewrite L. cbn [obind]. f_equal. unfold int_value.
  unfold representable, rep_min, rep_max in Hr.
  change (2 ^ bits INT8) with 256. change (2 ^ 64) with 18446744073709551616.
  destruct Hn; [congruence|]. rewrite !Z.mod_small by lia. reflexivity.
Qed.

Lemma index_l : forall h m v, holds m (pointer h) (ptype_of h) v -> 0 <= v -> parameter_to_index (Some h) m = Done v.
Proof.
  intros h m v Hv Hp. rewrite (to_index_l h m v Hv) by (right; exact Hp). f_equal. apply Z.mod_small.
  destruct Hv as (Hi & Hr & _). unfold representable in Hr. change (2 ^ 64) with 18446744073709551616.
  destruct (ptype_of h); cbn [rep_max] in Hr; lia.
Qed.

Lemma to_bool_l : forall h m v, holds m (pointer h) (ptype_of h) v ->
  parameter_to_bool (Some h) m = Done (if v =? 0 then 0 else 1).
Proof.
  intros h m v Hv. pose proof (holds_load _ _ _ _ Hv) as L.
  pose proof (to_index_l h m v Hv) as TI. unfold parameter_to_bool.
  destruct Hv as (Hi & Hr & _).
  assert (G : ptype_of h = INT8 \/ ptype_of h <> INT8) by (destruct (ptype_of h); (left; reflexivity) || (right; discriminate)).
  destruct G as [G|G].
  - unfold parameter_to_index. rewrite G in *. cbn [size] in L. rewrite L. cbn [obind int_value].
    unfold representable, rep_min, rep_max in Hr. change (2 ^ bits INT8) with 256. f_equal.
    destruct (Z.eqb_spec v 0) as [->|N]; [reflexivity|].
    destruct (Z.ltb_spec 0 (v mod 256)); [reflexivity|]. exfalso. Z.div_mod_to_equations. lia.
  - rewrite TI by (left; exact G). cbn [obind]. f_equal. change (2 ^ 64) with 18446744073709551616.
    assert (-9223372036854775808 <= v <= 18446744073709551615).
    { unfold representable in Hr. destruct (ptype_of h); cbn in Hr; lia. }
    destruct (Z.eqb_spec v 0) as [->|N]; [reflexivity|].
    destruct (Z.ltb_spec 0 (v mod 18446744073709551616)); [reflexivity|].
    exfalso. clear - N H H0. Z.div_mod_to_equations. lia.
Qed.

(** * Totals *)

Lemma total_l : forall h m lo hi,
  limit m (pmin h) (minv h) (ptype_of h) lo -> limit m (pmax h) (maxv h) (ptype_of h) hi -> lo <= hi ->
  match ptype_of h with
  | INT32 => hi - lo + 1 <= INT_MAX
  | INT64 => hi - lo + 1 <= 9223372036854775807
  | UINT32 => hi - lo + 1 <= 4294967295
  | UINT64 => hi - lo + 1 <= 18446744073709551615
  | _ => True
  end ->
  parameter_get_total_values (Some h) m = Done (hi - lo + 1).
Proof.
  intros h m lo hi Hlo Hhi L B.
  destruct (limit_rep _ _ _ _ _ Hlo) as [Hi Rlo]. destruct (limit_rep _ _ _ _ _ Hhi) as [_ Rhi].
  unfold parameter_get_total_values. rewrite (limit_lower h m lo Hlo), (limit_upper h m hi Hhi). cbn [obind].
  pose proof (int_value_mod _ _ Hi Rlo) as V1. pose proof (int_value_mod _ _ Hi Rhi) as V2.
  unfold representable in *. unfold INT_MAX in B.
  destruct (ptype_of h); try discriminate Hi; cbn [rep_min rep_max] in Rlo, Rhi;
    try (rewrite V1, V2; rewrite signed_ok by (cbn; lia); cbn [obind]; rewrite signed_ok by (cbn; lia);
         cbn [obind]; rewrite wrap64_small by lia; reflexivity).
  - change (2 ^ bits UINT32) with 4294967296. rewrite !Z.mod_small by lia.
    rewrite !wrap32_small; [f_equal; lia|lia|rewrite wrap32_small; lia].
  - change (2 ^ bits UINT64) with 18446744073709551616. rewrite !Z.mod_small by lia.
    rewrite !wrap64_small; [f_equal; lia|lia|rewrite wrap64_small; lia].
Qed.

(** * Macros *)

Lemma c99_l : forall ty x, is_int ty = true -> representable ty x -> union_holds (C99_CAST ty x) ty x.
Proof.
  intros ty x Hi Hr. split; [exact Hi|]. split; [exact Hr|].
  destruct ty; try discriminate Hi; unfold C99_CAST, wrap; apply Z.mod_mod; cbn; lia.
Qed.

Lemma land_ones : forall x n, 0 <= n -> Z.land x (2 ^ n - 1) = x mod 2 ^ n.
Proof. intros. rewrite <- Z.land_ones by lia. f_equal. rewrite Z.ones_equiv. lia. Qed.

Lemma option_l : forall ty x, is_int ty = true -> representable ty x ->
  match ty with UINT64 | INT64 => 0 <= x < 4294967296 | _ => True end ->
  union_holds (LIMIT_VALUE_OPTION ty x) ty x.
Proof.
  intros ty x Hi Hr B. split; [exact Hi|]. split; [exact Hr|].
  unfold LIMIT_VALUE_OPTION.
  change 255 with (2 ^ 8 - 1). change 65535 with (2 ^ 16 - 1). change 4294967295 with (2 ^ 32 - 1).
  change 18446744073709551615 with (2 ^ 64 - 1).
  destruct ty; try discriminate Hi; rewrite land_ones by lia; unfold wrap, size;
    try change (8 * 1) with 8; try change (8 * 2) with 16; try change (8 * 4) with 32; try change (8 * 8) with 64;
    rewrite ?Z.mod_mod by (cbn; lia); try reflexivity.
  - rewrite swrap_small; [reflexivity|lia|]. unfold representable, rep_min, rep_max in Hr. cbn. lia.
  - rewrite (Z.mod_small x (2 ^ 32)) by (change (2 ^ 32) with 4294967296; lia). reflexivity.
  - rewrite (Z.mod_small x (2 ^ 32)) by (change (2 ^ 32) with 4294967296; lia). reflexivity.
Qed.

(** * Copies *)

Lemma zread_nth : forall (m : mem) p n bs, zread m p n = Done bs ->
  0 <= p /\ 0 <= n /\ p + n <= zlen m /\ length bs = Z.to_nat n /\
  forall i, 0 <= i < n -> nth_error bs (Z.to_nat i) = nth_error m (Z.to_nat (p + i)).
Proof.
  intros m p n bs H. unfold zread in H.
  destruct (Z.ltb_spec p 0); [discriminate|]. destruct (Z.ltb_spec n 0); [discriminate|].
  destruct (Z.ltb_spec (zlen m) (p + n)); [discriminate|]. cbn [orb] in H. injection H as <-.
  unfold zlen in *. repeat split; try lia.
  - rewrite firstn_length, skipn_length. lia.
  - intros i Hi. rewrite nth_error_firstn, nth_error_skipn.
    destruct (Nat.ltb_spec (Z.to_nat i) (Z.to_nat n)); [f_equal; lia|lia].
Qed.

Lemma zwrite_nth : forall (m : mem) p bs, 0 <= p -> p + zlen bs <= zlen m ->
  exists m', zwrite m p bs = Done m' /\ changed_only m m' p (zlen bs) /\
  forall i, 0 <= i < zlen bs -> nth_error m' (Z.to_nat (p + i)) = nth_error bs (Z.to_nat i).
Proof.
  intros m p bs Hp Hb. eexists. rewrite zwrite_ok by assumption. split; [reflexivity|]. unfold zlen in *.
  split; [split|].
  - rewrite !app_length, firstn_length, skipn_length. lia.
  - intros a Ha Hd. destruct (Z.ltb_spec a p).
    + rewrite nth_error_app1 by (rewrite firstn_length; lia).
      rewrite nth_error_firstn. destruct (Nat.ltb_spec (Z.to_nat a) (Z.to_nat p)); [reflexivity|lia].
    + rewrite nth_error_app2 by (rewrite firstn_length; lia). rewrite firstn_length, Nat.min_l by lia.
      rewrite nth_error_app2 by lia. rewrite nth_error_skipn. f_equal. lia.
  - intros i Hi. rewrite nth_error_app2 by (rewrite firstn_length; lia).
    rewrite firstn_length, Nat.min_l by lia. rewrite nth_error_app1 by lia. f_equal. lia.
Qed.

Lemma type_code_inj : forall a b, type_code a = type_code b -> a = b.
Proof. destruct a, b; cbn; intros; congruence. Qed.

Lemma copy_same_l : forall d s m, ptype_of d = ptype_of s ->
  inside m (pointer s) (size (ptype_of s)) -> inside m (pointer d) (size (ptype_of s)) ->
  disjoint (pointer s) (size (ptype_of s)) (pointer d) (size (ptype_of s)) ->
  exists m', parameter_copy_value (Some d) (Some s) m = Done (m', 0) /\
    same_bytes m (pointer s) m' (pointer d) (size (ptype_of s)) /\
    changed_only m m' (pointer d) (size (ptype_of s)).
Proof.
  intros d s m E [S1 S2] [D1 D2] D. unfold parameter_copy_value. rewrite E, Z.eqb_refl.
  pose proof (size_pos (ptype_of s)) as P. set (n := size (ptype_of s)) in *.
  replace ((pointer d <? pointer s + n) && (pointer s <? pointer d + n)) with false.
  2:{ unfold disjoint in D. destruct (Z.ltb_spec (pointer d) (pointer s + n)), (Z.ltb_spec (pointer s) (pointer d + n));
      try reflexivity; lia. }
  assert (R : exists bs, zread m (pointer s) n = Done bs) by (rewrite zread_ok by lia; eauto).
  destruct R as [bs R]. rewrite R. cbn [obind]. apply zread_nth in R. destruct R as (_ & _ & _ & L & R).
  assert (ZL : zlen bs = n) by (unfold zlen; lia).
  destruct (zwrite_nth m (pointer d) bs) as (m' & W & C & N); [lia|lia|].
  exists m'. rewrite W. cbn [obind]. split; [reflexivity|]. rewrite ZL in *. split; [|exact C].
  intros i Hi. rewrite N by lia. apply R. exact Hi.
Qed.

Lemma copy_diff_l : forall d s m, ptype_of d <> ptype_of s -> parameter_copy_value (Some d) (Some s) m = Done (m, -1).
Proof.
  intros d s m H. unfold parameter_copy_value.
  destruct (Z.eqb_spec (type_code (ptype_of s)) (type_code (ptype_of d))) as [E|E]; [|reflexivity].
  apply type_code_inj in E. congruence.
Qed.

Lemma clone_buffer_l : forall s buffer m,
  inside m (pointer s) (size (ptype_of s)) -> inside m buffer (size (ptype_of s)) ->
  disjoint (pointer s) (size (ptype_of s)) buffer (size (ptype_of s)) ->
  exists m', parameter_clone_with_buffer s buffer m = Done (set_pointer s buffer, m') /\
    same_bytes m (pointer s) m' buffer (size (ptype_of s)) /\
    changed_only m m' buffer (size (ptype_of s)).
Proof.
  intros s buffer m H1 H2 H3. unfold parameter_clone_with_buffer.
  destruct (copy_same_l (set_pointer s buffer) s m) as (m' & E & B & C); try assumption; [reflexivity|].
  exists m'. rewrite E. cbn [obind]. split; [reflexivity|]. split; assumption.
Qed.

Lemma raw_exists : forall m p n, Forall byte m -> 0 < n -> inside m p n ->
  exists raw, 0 <= raw < 256 ^ n /\ raw_at m p n raw.
Proof.
  intros m p n HB Hn. revert p. pattern n. apply Zlt_lower_bound_ind with (z := 1); [|lia]. clear n Hn.
  intros n IH Hn p [I1 I2]. unfold zlen in I2.
  destruct (nth_error m (Z.to_nat p)) as [b|] eqn:Eb; [|apply nth_error_None in Eb; lia].
  assert (Bb : byte b) by (rewrite Forall_forall in HB; apply HB; apply nth_error_In in Eb; exact Eb).
  unfold byte in Bb.
  destruct (Z.eqb_spec n 1) as [->|N].
  - exists b. split; [change (256 ^ 1) with 256; lia|]. split; [lia|]. intros i Hi. replace i with 0 by lia.
    rewrite Z.add_0_r, Eb. change (256 ^ 0) with 1. rewrite Z.div_1_r. f_equal. symmetry. apply Z.mod_small. lia.
  - destruct (IH (n - 1) ltac:(lia) (p + 1)) as (raw & R1 & R2 & R3); [split; unfold zlen; lia|].
    assert (E256 : 256 ^ n = 256 * 256 ^ (n - 1)) by (rewrite <- Z.pow_succ_r by lia; f_equal; lia).
    exists (b + 256 * raw). split; [lia|]. split; [lia|]. intros i Hi.
    destruct (Z.eqb_spec i 0) as [->|Ni].
    + rewrite Z.add_0_r, Eb. change (256 ^ 0) with 1. rewrite Z.div_1_r. f_equal.
      replace (b + 256 * raw) with (b + raw * 256) by ring. rewrite Z.mod_add by lia. symmetry. apply Z.mod_small. lia.
    + specialize (R3 (i - 1) ltac:(lia)). replace (p + 1 + (i - 1)) with (p + i) in R3 by lia. rewrite R3.
      assert (E2 : 256 ^ i = 256 * 256 ^ (i - 1)) by (rewrite <- Z.pow_succ_r by lia; f_equal; lia).
      rewrite E2, <- Z.div_div by (try lia; apply Z.pow_pos_nonneg; lia).
      replace (b + 256 * raw) with (raw * 256 + b) by ring. rewrite Z.div_add_l by lia.
      rewrite (Z.div_small b) by lia. rewrite Z.add_0_r. reflexivity.
Qed.

Lemma clone_l : forall d s p m, Forall byte m ->
  inside m (pointer s) (size (ptype_of s)) -> inside m p (size (ptype_of s)) ->
  exists m', parameter_clone (Some d) (Some s) (Some p) m = Done (Some (set_pointer s p), m') /\
    same_bytes m (pointer s) m' p (size (ptype_of s)) /\
    changed_only m m' p (size (ptype_of s)).
Proof.
  intros d s p m HB H1 H2. unfold parameter_clone. pose proof (size_pos (ptype_of s)) as P.
  destruct (raw_exists m (pointer s) (size (ptype_of s)) HB) as (raw & R & RA); [lia|assumption|].
  rewrite (load_ok _ _ _ raw) by (try assumption; lia). cbn [obind].
  change (pointer (set_pointer s p)) with p.
  destruct (store_ok m p (size (ptype_of s)) (raw mod 256 ^ size (ptype_of s))) as (m' & E & RA' & C); [lia|assumption|].
  exists m'. rewrite E. cbn [obind]. split; [reflexivity|]. split; [|exact C].
  intros i Hi. destruct RA' as [_ RA']. rewrite RA' by exact Hi.
  rewrite byte_mod by exact Hi. destruct RA as [_ RA]. rewrite RA by exact Hi. reflexivity.
Qed.
