(** What integer parameters do with every value, limit, step and number of steps. *)
From Verif Require Import Base ParameterModel ParameterSpec ParameterProofs.

Lemma in_type_rep : forall ty x, is_int ty = true -> representable ty (in_type ty x).
Proof.
  intros ty x Hi. unfold representable, in_type.
  pose proof (Z.mod_pos_bound (x - rep_min ty) (2 ^ (8 * size ty)) (bits_pos ty)) as B.
  destruct ty; try discriminate Hi; cbn [rep_min rep_max] in *;
    match type of B with _ <= _ < ?k => let n := eval vm_compute in k in change k with n in * end;
    lia.
Qed.

Lemma in_type_mod : forall ty x, in_type ty x mod 2 ^ (8 * size ty) = x mod 2 ^ (8 * size ty).
Proof.
  intros ty x. unfold in_type. rewrite Zplus_mod_idemp_r. f_equal. lia.
Qed.

Lemma in_type_value : forall ty x, is_int ty = true -> int_value ty (x mod 2 ^ bits ty) = in_type ty x.
Proof.
  intros ty x Hi. rewrite <- (int_value_mod ty (in_type ty x) Hi (in_type_rep ty x Hi)).
  f_equal. symmetry. apply in_type_mod.
Qed.

Lemma in_type_id : forall ty x, is_int ty = true -> representable ty x -> in_type ty x = x.
Proof. intros ty x Hi Hr. rewrite <- in_type_value by exact Hi. apply int_value_mod; assumption. Qed.

Lemma signed_undef : forall w x, ~ - 2 ^ (w - 1) <= x < 2 ^ (w - 1) -> signed w x = Undef.
Proof.
  intros w x H. unfold signed.
  destruct (Z.leb_spec (- 2 ^ (w - 1)) x); [|reflexivity]. destruct (Z.ltb_spec x (2 ^ (w - 1))); [lia|reflexivity].
Qed.

Lemma two_signed : forall w a b (f : Z -> outcome Z),
  ~ (- 2 ^ (w - 1) <= a < 2 ^ (w - 1) /\ - 2 ^ (w - 1) <= b + a < 2 ^ (w - 1)) ->
  (do p <- signed w a; do x <- signed w (b + p); f x) = Undef.
Proof.
  intros w a b f H. unfold signed at 1.
  destruct (Z.leb_spec (- 2 ^ (w - 1)) a); [|reflexivity]. destruct (Z.ltb_spec a (2 ^ (w - 1))); [|reflexivity].
  cbn [andb obind]. rewrite signed_undef; [reflexivity|]. lia.
Qed.

Lemma signed_next : forall w a (f : Z -> outcome Z),
  ~ (- 2 ^ (w - 1) <= a < 2 ^ (w - 1) /\ - 2 ^ (w - 1) <= a + 1 < 2 ^ (w - 1)) ->
  (do p <- signed w a; do x <- signed w (p + 1); f x) = Undef.
Proof.
  intros w a f H. unfold signed at 1.
  destruct (Z.leb_spec (- 2 ^ (w - 1)) a); [|reflexivity]. destruct (Z.ltb_spec a (2 ^ (w - 1))); [|reflexivity].
  cbn [andb obind]. rewrite signed_undef; [reflexivity|]. lia.
Qed.

Lemma add_steps_all : forall ty v s mod_, is_int ty = true -> representable ty v -> representable ty s ->
  (computable ty (s * mod_) /\ computable ty (v + s * mod_) ->
   exists newv, add_steps ty (v mod 2 ^ bits ty) (s mod 2 ^ bits ty) mod_ = Done newv /\
     int_value ty newv = in_type ty (v + s * mod_)) /\
  (~ (computable ty (s * mod_) /\ computable ty (v + s * mod_)) ->
   add_steps ty (v mod 2 ^ bits ty) (s mod 2 ^ bits ty) mod_ = Undef).
Proof.
  intros ty v s mod_ Hi Hv Hs. split.
  - intros [C1 C2]. exists ((v + s * mod_) mod 2 ^ bits ty).
    split; [|apply in_type_value; assumption].
    unfold add_steps. rewrite !int_value_mod by assumption. clear Hv Hs.
    set (p := s * mod_) in *.
    destruct ty; try discriminate Hi; unfold computable, INT_MIN, INT_MAX in *;
      try (rewrite (signed_ok _ p) by (cbn; lia); cbn [obind]; rewrite signed_ok by (cbn; lia); reflexivity).
    + f_equal. unfold wrap, bits. cbn [size]. change (8 * 4) with 32.
      rewrite <- Zplus_mod_idemp_r. rewrite Z.mod_mod by (cbn; lia). rewrite Zmult_mod_idemp_r.
      fold p. rewrite Zplus_mod_idemp_r. reflexivity.
    + f_equal. unfold wrap, bits. cbn [size]. change (8 * 8) with 64.
      rewrite <- Zplus_mod_idemp_r. rewrite Z.mod_mod by (cbn; lia). rewrite Zmult_mod_idemp_r.
      fold p. rewrite Zplus_mod_idemp_r. reflexivity.
  - intros N. unfold add_steps. rewrite !int_value_mod by assumption. clear Hv Hs.
    set (p := s * mod_) in *.
    destruct ty; try discriminate Hi; unfold computable, INT_MIN, INT_MAX in N;
      try (exfalso; apply N; split; exact Logic.I);
      apply two_signed;
      first [change (2 ^ (32 - 1)) with 2147483648|change (2 ^ (64 - 1)) with 9223372036854775808]; lia.
Qed.

Lemma operator_exact_l : forall h m mod_ lo hi v s,
  limit m (pmin h) (minv h) (ptype_of h) lo -> limit m (pmax h) (maxv h) (ptype_of h) hi ->
  holds m (pointer h) (ptype_of h) v -> union_holds (step h) (ptype_of h) s ->
  let ty := ptype_of h in
  let fine := computable ty (s * mod_) /\ computable ty (v + s * mod_) in
  (fine -> exists m', parameter_operator (Some h) m mod_ = Done (m', 0) /\
     changed_only m m' (pointer h) (size ty) /\
     holds m' (pointer h) ty (confined lo hi (in_type ty (v + s * mod_)) mod_)) /\
  (~ fine -> parameter_operator (Some h) m mod_ = Undef).
Proof.
  intros h m mod_ lo hi v s Hlo Hhi Hv Hs ty fine.
  destruct Hs as (Hi & Rs & Es).
  assert (Ef : field (ptype_of h) (step h) = s mod 2 ^ bits (ptype_of h)) by exact Es.
  assert (Rv : representable (ptype_of h) v) by apply Hv.
  destruct (add_steps_all (ptype_of h) v s mod_ Hi Rv Rs) as [A1 A2]. split.
  - intros F. destruct (A1 F) as (newv & Ha & Hn). rewrite <- Ef in Ha.
    destruct (operator_int _ _ _ _ _ _ _ Hlo Hhi Hv Ha) as (m1 & E & C & V).
    exists m1. split; [exact E|]. split; [exact C|]. rewrite Hn in V. fold ty in V. unfold confined.
    rewrite (andb_comm (lo <=? _)). exact V.
  - intros N. specialize (A2 N). rewrite <- Ef in A2.
    unfold parameter_operator, APPLY_OPERATOR.
    rewrite (holds_load _ _ _ _ Hv), (limit_lower h m lo Hlo), (limit_upper h m hi Hhi). cbn [obind].
    rewrite A2. reflexivity.
Qed.

Lemma total_exact_l : forall h m lo hi,
  limit m (pmin h) (minv h) (ptype_of h) lo -> limit m (pmax h) (maxv h) (ptype_of h) hi ->
  let ty := ptype_of h in
  let fine := computable ty (hi - lo) /\ computable ty (hi - lo + 1) in
  (fine -> parameter_get_total_values (Some h) m =
     Done ((hi - lo + 1) mod 2 ^ (if unsigned_word ty then 8 * size ty else 64))) /\
  (~ fine -> parameter_get_total_values (Some h) m = Undef).
Proof.
  intros h m lo hi Hlo Hhi ty fine.
  destruct (limit_rep _ _ _ _ _ Hlo) as [Hi Rlo]. destruct (limit_rep _ _ _ _ _ Hhi) as [_ Rhi].
  unfold parameter_get_total_values. rewrite (limit_lower h m lo Hlo), (limit_upper h m hi Hhi). cbn [obind].
  pose proof (int_value_mod _ _ Hi Rlo) as V1. pose proof (int_value_mod _ _ Hi Rhi) as V2.
  unfold representable in *. subst fine. subst ty.
  destruct (ptype_of h); try discriminate Hi; cbn [unsigned_word size]; unfold computable, INT_MIN, INT_MAX;
    try (rewrite V1, V2; clear V1 V2 Hlo Hhi; split;
         [ intros [C1 C2]; rewrite signed_ok by (cbn; lia); cbn [obind]; rewrite signed_ok by (cbn; lia); reflexivity
         | intros N; apply signed_next;
           first [change (2 ^ (32 - 1)) with 2147483648|change (2 ^ (64 - 1)) with 9223372036854775808]; lia ]).
  - split; [|intros N; exfalso; apply N; split; exact Logic.I]. intros _. f_equal. unfold wrap, bits. cbn [size].
    change (8 * 4) with 32. rewrite <- Zminus_mod. apply Zplus_mod_idemp_l.
  - split; [|intros N; exfalso; apply N; split; exact Logic.I]. intros _. f_equal. unfold wrap, bits. cbn [size].
    change (8 * 8) with 64. rewrite <- Zminus_mod. apply Zplus_mod_idemp_l.
Qed.

Lemma to_long_exact_l : forall h m v, holds m (pointer h) (ptype_of h) v ->
  parameter_to_long (Some h) m =
    Done (match ptype_of h with INT8 => in_type UINT8 v | _ => in_type INT64 v end).
Proof.
  intros h m v Hv. pose proof (holds_load _ _ _ _ Hv) as L.
  destruct Hv as (Hi & Hr & _). pose proof (int_value_mod _ _ Hi Hr) as V.
  unfold parameter_to_long.
  assert (S64 : forall x, swrap 64 x = in_type INT64 x).
  { intros x. rewrite <- in_type_value by reflexivity. unfold int_value, swrap. change (2 ^ bits INT64) with (2 ^ 64).
    rewrite Z.mod_mod by discriminate. reflexivity. }
  destruct (ptype_of h); try discriminate Hi; try (rewrite L; cbn [obind]; rewrite V; f_equal; apply S64).
  cbn [size] in L. rewrite L. cbn [obind]. f_equal. unfold int_value, in_type.
  cbn [rep_min]. rewrite Z.sub_0_r. reflexivity.
Qed.

Lemma to_index_exact_l : forall h m v, holds m (pointer h) (ptype_of h) v ->
  parameter_to_index (Some h) m =
    Done (match ptype_of h with INT8 => in_type UINT8 v | _ => in_type UINT64 v end).
Proof.
  intros h m v Hv. pose proof (holds_load _ _ _ _ Hv) as L.
  destruct Hv as (Hi & Hr & _). pose proof (int_value_mod _ _ Hi Hr) as V.
  unfold parameter_to_index.
  assert (S64 : forall x, wrap 64 x = in_type UINT64 x).
  { intros x. unfold wrap, in_type. cbn [rep_min]. rewrite Z.sub_0_r. reflexivity. }
  destruct (ptype_of h); try discriminate Hi; try (rewrite L; cbn [obind]; rewrite V; f_equal; apply S64).
  cbn [size] in L. rewrite L. cbn [obind]. f_equal. unfold int_value, in_type.
  cbn [rep_min]. rewrite Z.sub_0_r. reflexivity.
Qed.

Lemma option_exact_l : forall ty x, is_int ty = true ->
  union_holds (LIMIT_VALUE_OPTION ty x) ty (in_type ty (if of_64_bits ty then x mod 2 ^ 32 else x)).
Proof.
  intros ty x Hi. split; [exact Hi|]. split; [apply in_type_rep; exact Hi|].
  rewrite in_type_mod. unfold LIMIT_VALUE_OPTION.
  change 255 with (2 ^ 8 - 1). change 65535 with (2 ^ 16 - 1). change 4294967295 with (2 ^ 32 - 1).
  change 18446744073709551615 with (2 ^ 64 - 1).
  destruct ty; try discriminate Hi; cbn [of_64_bits]; rewrite land_ones by lia; unfold wrap, size;
    try change (8 * 1) with 8; try change (8 * 2) with 16; try change (8 * 4) with 32; try change (8 * 8) with 64;
    rewrite ?Z.mod_mod by (cbn; lia); try reflexivity.
  unfold swrap. destruct (Z.ltb_spec (x mod 2 ^ 8) (2 ^ (8 - 1))).
  - apply Z.mod_mod. discriminate.
  - rewrite <- (Z.mod_mod x (2 ^ 8)) at 2 by discriminate. rewrite <- (Z_mod_plus_full (x mod 2 ^ 8 - 2 ^ 8) 1).
    f_equal. lia.
Qed.

Lemma c99_exact_l : forall ty x, is_int ty = true -> union_holds (C99_CAST ty x) ty (in_type ty x).
Proof.
  intros ty x Hi. split; [exact Hi|]. split; [apply in_type_rep; exact Hi|]. rewrite in_type_mod.
  destruct ty; try discriminate Hi; unfold C99_CAST, wrap; apply Z.mod_mod; cbn; lia.
Qed.
