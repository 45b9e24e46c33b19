(** Proofs about the serializer model. *)
From Verif Require Import Base BaseLemmas SerializerModel SerializerSpec SerializerSystem.

(** *** Digits *)

Lemma digits_length : forall n v, length (digits n v) = n.
Proof. induction n; cbn; intros; auto. Qed.

Lemma digits_bytes : forall n v, Forall is_byte (digits n v).
Proof.
  induction n; cbn; intros; constructor; auto. unfold is_byte. apply Z.mod_pos_bound; lia.
Qed.

Lemma number_digits : forall n v, number (digits n v) = v mod 256 ^ Z.of_nat n.
Proof.
  induction n; intros v.
  - cbn. now rewrite Z.mod_1_r.
  - cbn [digits number]. rewrite IHn.
    replace (256 ^ Z.of_nat (S n)) with (256 * 256 ^ Z.of_nat n)
      by (rewrite Nat2Z.inj_succ, Z.pow_succ_r by lia; reflexivity).
    rewrite Z.rem_mul_r by (try apply Z.pow_pos_nonneg; lia). reflexivity.
Qed.

Lemma digits_number : forall ds, Forall is_byte ds -> digits (length ds) (number ds) = ds.
Proof.
  induction 1 as [|d ds Hd Hds IH]; [reflexivity|].
  cbn [length digits number]. unfold is_byte in Hd. f_equal.
  - rewrite Z.mul_comm, Z_mod_plus_full. apply Z.mod_small; lia.
  - rewrite Z.mul_comm, Z.div_add, (Z.div_small d), Z.add_0_l by lia. exact IH.
Qed.

Lemma number_range : forall ds, Forall is_byte ds -> 0 <= number ds < 256 ^ Z.of_nat (length ds).
Proof.
  induction 1 as [|d ds Hd Hds IH]; [cbn; lia|].
  cbn [length number]. rewrite Nat2Z.inj_succ, Z.pow_succ_r by lia. unfold is_byte in Hd. lia.
Qed.

(** *** Buffer accesses *)

Lemma zset_app : forall (pre l : list Z) k a,
  0 <= k < zlen l -> zset (pre ++ l) (zlen pre + k) a = Done (pre ++ upd l (Z.to_nat k) a).
Proof.
  intros. rewrite zset_ok.
  - f_equal. unfold zlen in *.
    replace (Z.to_nat (Z.of_nat (length pre) + k)) with (length pre + Z.to_nat k)%nat by lia.
    induction pre; cbn; auto. f_equal; auto.
  - unfold zlen in *. rewrite app_length. lia.
Qed.

Lemma zget_app : forall (pre l : list Z) k a,
  0 <= k -> nth_error l (Z.to_nat k) = Some a -> zget (pre ++ l) (zlen pre + k) = Done a.
Proof.
  intros pre l k a Hk E. unfold zget, zlen.
  destruct (Z.ltb_spec (Z.of_nat (length pre) + k) 0); [lia|].
  replace (Z.to_nat (Z.of_nat (length pre) + k)) with (length pre + Z.to_nat k)%nat by lia.
  rewrite nth_error_app2 by lia.
  replace (length pre + Z.to_nat k - length pre)%nat with (Z.to_nat k) by lia. now rewrite E.
Qed.

Lemma put_app : forall (pre l : list Z) k v sh,
  0 <= k < zlen l -> 0 <= sh ->
  put (pre ++ l) (zlen pre) k v sh = Done (pre ++ upd l (Z.to_nat k) (v / 2 ^ sh mod 256)).
Proof.
  intros. unfold put. rewrite zset_app by assumption.
  change 255 with (Z.ones 8). rewrite Z.land_ones, Z.shiftr_div_pow2 by lia. reflexivity.
Qed.

Ltac zlen_cons := unfold zlen; cbn [length]; lia.

Lemma len1 : forall (l : list Z), zlen l = 1 -> exists a, l = [a].
Proof. intros [|a [|]] H; unfold zlen in H; cbn [length] in H; try lia. eauto. Qed.
Lemma len2 : forall (l : list Z), zlen l = 2 -> exists a b, l = [a; b].
Proof. intros [|a [|b [|]]] H; unfold zlen in H; cbn [length] in H; try lia. eauto. Qed.
Lemma len4 : forall (l : list Z), zlen l = 4 -> exists a b c d, l = [a; b; c; d].
Proof. intros [|a [|b [|c [|d [|]]]]] H; unfold zlen in H; cbn [length] in H; try lia. eauto. Qed.
Lemma len8 : forall (l : list Z), zlen l = 8 ->
  exists a b c d e f g h, l = [a; b; c; d; e; f; g; h].
Proof.
  intros [|a [|b [|c [|d [|e [|f [|g [|h [|]]]]]]]]] H;
    unfold zlen in H; cbn [length] in H; try lia. do 8 eexists; reflexivity.
Qed.

Ltac put_all :=
  repeat (rewrite put_app by (solve [zlen_cons | split; zlen_cons | lia]); cbn [obind];
          match goal with |- context [Z.to_nat ?k] => let k' := eval cbv in (Z.to_nat k) in change (Z.to_nat k) with k' end;
          cbn [upd]).

Ltac digits_eq :=
  cbn [digits layout rev app];
  rewrite ?Z.div_div by lia; change (2 ^ 0) with 1; rewrite ?Z.div_1_r;
  reflexivity.

Lemma serialize_layout_l : forall w o (pre mid post : list Z) v,
  zlen mid = Z.of_nat (bytes_of w) -> 0 <= v < 2 ^ bits_of w ->
  serialize w o (pre ++ mid ++ post) (zlen pre) v =
    Done (pre ++ layout o (digits (bytes_of w) v) ++ post, Z.of_nat (bytes_of w)).
Proof.
  intros w o pre mid post v Hm Hv.
  destruct w; cbn [bytes_of] in *.
  - destruct (len1 _ Hm) as (a & ->).
    assert (Hvv : v mod 256 = v) by (apply Z.mod_small; exact Hv).
    destruct o; cbn [serialize app]; unfold serialize_uint8;
      rewrite <- (Z.add_0_r (zlen pre)), zset_app by zlen_cons; cbn [obind upd Z.to_nat digits layout rev app];
      rewrite Hvv; reflexivity.
  - destruct (len2 _ Hm) as (a & b & ->).
    destruct o; cbn [serialize app]; unfold serialize_uint16_le, serialize_uint16_be; put_all; digits_eq.
  - destruct (len4 _ Hm) as (a & b & c & d & ->).
    destruct o; cbn [serialize app]; unfold serialize_uint32_le, serialize_uint32_be; put_all; digits_eq.
  - destruct (len8 _ Hm) as (a & b & c & d & e & f & g & h & ->).
    destruct o; cbn [serialize app]; unfold serialize_uint64_le, serialize_uint64_be; put_all; digits_eq.
Qed.

(** *** Reading *)

Lemma lor_shift : forall a c n, 0 <= n -> 0 <= a < 2 ^ n -> Z.lor a (c * 2 ^ n) = a + c * 2 ^ n.
Proof.
  intros a c n Hn Ha.
  assert (Hand : Z.land a (c * 2 ^ n) = 0).
  { apply Z.bits_inj'. intros m Hm. rewrite Z.land_spec, Z.bits_0.
    destruct (Z.lt_ge_cases m n).
    - rewrite Z.mul_pow2_bits_low by lia. apply andb_false_r.
    - destruct (Z.eq_dec a 0) as [->|]; [now rewrite Z.bits_0|].
      rewrite Z.bits_above_log2; [reflexivity|lia|].
      apply Z.log2_lt_pow2; [lia|]. apply Z.lt_le_trans with (2 ^ n); [lia|].
      apply Z.pow_le_mono_r; lia. }
  rewrite <- Z.lxor_lor by exact Hand. symmetry. now apply Z.add_nocarry_lxor.
Qed.

Lemma ushl_ok : forall w x n, 0 <= n -> n + 8 <= w -> is_byte x ->
  ushl w x n = Done (x * 2 ^ n).
Proof.
  intros w x n Hn Hw Hx. unfold ushl. rewrite Z.shiftl_mul_pow2 by lia. f_equal.
  apply wrap_small. unfold is_byte in Hx.
  assert (2 ^ (n + 8) <= 2 ^ w) by (apply Z.pow_le_mono_r; lia).
  rewrite Z.pow_add_r in * by lia. change (2 ^ 8) with 256 in *.
  assert (0 < 2 ^ n) by (apply Z.pow_pos_nonneg; lia). nia.
Qed.

Lemma sshl_small : forall iso w x n, 0 <= n -> n + 9 <= w -> is_byte x ->
  sshl iso w x n = Done (x * 2 ^ n).
Proof.
  intros iso w x n Hn Hw Hx. unfold sshl. rewrite Z.shiftl_mul_pow2 by lia. unfold is_byte in Hx.
  assert (2 ^ (n + 8) <= 2 ^ (w - 1)) by (apply Z.pow_le_mono_r; lia).
  rewrite Z.pow_add_r in * by lia. change (2 ^ 8) with 256 in *.
  assert (0 < 2 ^ n) by (apply Z.pow_pos_nonneg; lia).
  destruct (Z.leb_spec (2 ^ (w - 1)) (x * 2 ^ n)); [nia|].
  rewrite andb_false_r. f_equal. apply swrap_small; [lia|]. nia.
Qed.

Lemma sshl_top_32 : forall iso x, is_byte x ->
  sshl iso 32 x 24 = if iso && (128 <=? x) then Undef
                     else Done ((if 128 <=? x then x - 256 else x) * 2 ^ 24).
Proof.
  intros iso x Hx. unfold is_byte in Hx. unfold sshl. rewrite Z.shiftl_mul_pow2 by lia.
  change (32 - 1) with 31. change (2 ^ 31) with 2147483648. change (2 ^ 24) with 16777216.
  assert (E : (2147483648 <=? x * 16777216) = (128 <=? x)).
  { destruct (Z.leb_spec 128 x); [apply Z.leb_le|apply Z.leb_gt]; lia. }
  rewrite E. destruct (iso && (128 <=? x)); [reflexivity|]. f_equal.
  unfold swrap. change (2 ^ 32) with 4294967296. change (2 ^ (32 - 1)) with 2147483648.
  rewrite (Z.mod_small (x * 16777216)) by lia. cbv zeta.
  destruct (Z.leb_spec 128 x); destruct (Z.ltb_spec (x * 16777216) 2147483648); lia.
Qed.

Lemma sshl_top_64 : forall iso x, is_byte x ->
  sshl iso 64 x 56 = if iso && (128 <=? x) then Undef
                     else Done ((if 128 <=? x then x - 256 else x) * 2 ^ 56).
Proof.
  intros iso x Hx. unfold is_byte in Hx. unfold sshl. rewrite Z.shiftl_mul_pow2 by lia.
  change (64 - 1) with 63. change (2 ^ 63) with 9223372036854775808. change (2 ^ 56) with 72057594037927936.
  assert (E : (9223372036854775808 <=? x * 72057594037927936) = (128 <=? x)).
  { destruct (Z.leb_spec 128 x); [apply Z.leb_le|apply Z.leb_gt]; lia. }
  rewrite E. destruct (iso && (128 <=? x)); [reflexivity|]. f_equal.
  unfold swrap. change (2 ^ 64) with 18446744073709551616. change (2 ^ (64 - 1)) with 9223372036854775808.
  rewrite (Z.mod_small (x * 72057594037927936)) by lia. cbv zeta.
  destruct (Z.leb_spec 128 x); destruct (Z.ltb_spec (x * 72057594037927936) 9223372036854775808); lia.
Qed.

Lemma two_complement_swrap : forall b v, 0 < b -> 0 <= v < 2 ^ b -> swrap b v = two_complement b v.
Proof. intros. unfold swrap, two_complement. now rewrite Z.mod_small. Qed.

(** The seven "or"s become a sum. *)
Ltac lors :=
  repeat match goal with
  | |- context [Z.lor ?a (?c * 2 ^ ?n)] =>
      rewrite (lor_shift a c n) by (cbn -[Z.mul Z.add] in *; lia)
  end.

Ltac gets :=
  repeat (erewrite zget_app by (try lia; reflexivity); cbn [obind]).

Ltac bytes H :=
  repeat match type of H with
  | Forall _ (_ :: _) => let H1 := fresh "Hb" in let H2 := fresh "Hr" in
      inversion H as [|? ? H1 H2]; clear H; subst; rename H2 into H
  end; unfold is_byte in *.

Lemma deserialize_u_l : forall w o (pre ds post : list Z),
  length ds = bytes_of w -> Forall is_byte ds ->
  deserialize_u w o (pre ++ layout o ds ++ post) (zlen pre) =
    Done (number ds, Z.of_nat (bytes_of w)).
Proof.
  intros w o pre ds post Hl Hb.
  destruct w; cbn [bytes_of] in *.
  - destruct (len1 ds) as (a & ->); [zlen_cons|].
    destruct o; cbn [deserialize_u layout rev app number]; unfold deserialize_uint8;
      rewrite <- (Z.add_0_r (zlen pre)); gets; do 2 f_equal; lia.
  - destruct (len2 ds) as (a & b & ->); [zlen_cons|]. bytes Hb.
    destruct o; cbn [deserialize_u layout rev app number];
      unfold deserialize_uint16_le, deserialize_uint16_be; gets;
      rewrite sshl_small by (unfold is_byte; lia); cbn [obind]; lors;
      do 2 f_equal; rewrite wrap_small; cbn -[Z.mul Z.add]; lia.
  - destruct (len4 ds) as (a & b & c & d & ->); [zlen_cons|]. bytes Hb.
    destruct o; cbn [deserialize_u layout rev app number];
      unfold deserialize_uint32_le, deserialize_uint32_be; gets;
      repeat (rewrite ushl_ok by (unfold is_byte; lia); cbn [obind]); lors;
      do 2 f_equal; rewrite wrap_small; cbn -[Z.mul Z.add]; lia.
  - destruct (len8 ds) as (a & b & c & d & e & f & g & h & ->); [zlen_cons|]. bytes Hb.
    destruct o; cbn [deserialize_u layout rev app number];
      unfold deserialize_uint64_le, deserialize_uint64_be; gets;
      repeat (rewrite ushl_ok by (unfold is_byte; lia); cbn [obind]); lors;
      do 2 f_equal; rewrite wrap_small; cbn -[Z.mul Z.add]; lia.
Qed.

(** The most significant byte decides. *)
Definition shift_overflows (w : width) (ds : list Z) : bool :=
  match w with W32 | W64 => 128 <=? last ds 0 | _ => false end.

Lemma deserialize_s_l : forall iso w o (pre ds post : list Z),
  length ds = bytes_of w -> Forall is_byte ds ->
  deserialize_s iso w o (pre ++ layout o ds ++ post) (zlen pre) =
    if iso && shift_overflows w ds then Undef
    else Done (two_complement (bits_of w) (number ds), Z.of_nat (bytes_of w)).
Proof.
  intros iso w o pre ds post Hl Hb.
  destruct w; cbn [bytes_of shift_overflows] in *; rewrite ?andb_false_r.
  - destruct (len1 ds) as (a & ->); [zlen_cons|]. bytes Hb.
    destruct o; cbn [deserialize_s layout rev app number]; unfold deserialize_int8;
      rewrite <- (Z.add_0_r (zlen pre)); gets; do 2 f_equal;
      rewrite two_complement_swrap by (cbn; lia); f_equal; lia.
  - destruct (len2 ds) as (a & b & ->); [zlen_cons|]. bytes Hb.
    destruct o; cbn [deserialize_s layout rev app number];
      unfold deserialize_int16_le, deserialize_int16_be; gets;
      rewrite sshl_small by (unfold is_byte; lia); cbn [obind]; lors;
      do 2 f_equal; rewrite two_complement_swrap by (cbn -[Z.mul Z.add]; lia); f_equal; cbn -[Z.mul Z.add]; lia.
  - destruct (len4 ds) as (a & b & c & d & ->); [zlen_cons|]. bytes Hb.
    destruct o; cbn [deserialize_s layout rev app number last];
      unfold deserialize_int32_le, deserialize_int32_be; gets;
      do 2 (rewrite sshl_small by (unfold is_byte; lia); cbn [obind]);
      rewrite sshl_top_32 by (unfold is_byte; lia);
      (destruct (iso && (128 <=? d)); [reflexivity|]); cbn [obind]; lors;
      do 2 f_equal; unfold two_complement; change (2 ^ (bits_of W32 - 1)) with 2147483648; change (2 ^ bits_of W32) with 4294967296; cbn -[Z.mul Z.add Z.sub swrap];
      (rewrite swrap_small; [|lia|cbn -[Z.mul Z.add Z.sub]; destruct (Z.leb_spec 128 d); lia]);
      destruct (Z.leb_spec 128 d);
      match goal with |- _ = (if ?x <? ?y then _ else _) => destruct (Z.ltb_spec x y) end; lia.
  - destruct (len8 ds) as (a & b & c & d & e & f & g & h & ->); [zlen_cons|]. bytes Hb.
    destruct o; cbn [deserialize_s layout rev app number last];
      unfold deserialize_int64_le, deserialize_int64_be; gets;
      do 6 (rewrite sshl_small by (unfold is_byte; lia); cbn [obind]);
      rewrite sshl_top_64 by (unfold is_byte; lia);
      (destruct (iso && (128 <=? h)); [reflexivity|]); cbn [obind]; lors;
      do 2 f_equal; unfold two_complement; change (2 ^ (bits_of W64 - 1)) with 9223372036854775808; change (2 ^ bits_of W64) with 18446744073709551616; cbn -[Z.mul Z.add Z.sub swrap];
      (rewrite swrap_small; [|lia|cbn -[Z.mul Z.add Z.sub]; destruct (Z.leb_spec 128 h); lia]);
      destruct (Z.leb_spec 128 h);
      match goal with |- _ = (if ?x <? ?y then _ else _) => destruct (Z.ltb_spec x y) end; lia.
Qed.

(** *** Corollaries *)

Lemma pow_bits : forall w, 256 ^ Z.of_nat (bytes_of w) = 2 ^ bits_of w.
Proof. destruct w; reflexivity. Qed.

Lemma u_round_trip_l : forall w o (pre mid post : list Z) v,
  zlen mid = Z.of_nat (bytes_of w) -> 0 <= v < 2 ^ bits_of w ->
  exists buf, serialize w o (pre ++ mid ++ post) (zlen pre) v = Done (buf, Z.of_nat (bytes_of w)) /\
    deserialize_u w o buf (zlen pre) = Done (v, Z.of_nat (bytes_of w)).
Proof.
  intros. eexists. split; [now apply serialize_layout_l|].
  rewrite deserialize_u_l by (apply digits_length || apply digits_bytes).
  rewrite number_digits, pow_bits, Z.mod_small by assumption. reflexivity.
Qed.

Lemma u_round_trip_bytes_l : forall w o (pre mid post pre' bs post' : list Z),
  zlen mid = Z.of_nat (bytes_of w) -> length bs = bytes_of w -> Forall is_byte bs ->
  exists v, deserialize_u w o (pre' ++ bs ++ post') (zlen pre') = Done (v, Z.of_nat (bytes_of w)) /\
    0 <= v < 2 ^ bits_of w /\
    serialize w o (pre ++ mid ++ post) (zlen pre) v = Done (pre ++ bs ++ post, Z.of_nat (bytes_of w)).
Proof.
  intros w o pre mid post pre' bs post' Hm Hl Hb.
  assert (HL : exists ds, bs = layout o ds /\ length ds = bytes_of w /\ Forall is_byte ds).
  { destruct o; [now exists bs|]. exists (rev bs). cbn [layout].
    rewrite rev_involutive, rev_length. repeat split; auto. now apply Forall_rev. }
  destruct HL as (ds & -> & Hdl & Hdb).
  exists (number ds). split; [now apply deserialize_u_l|].
  assert (HR : 0 <= number ds < 2 ^ bits_of w)
    by (rewrite <- pow_bits, <- Hdl; now apply number_range).
  split; [exact HR|].
  rewrite serialize_layout_l by assumption. rewrite <- Hdl at 1. now rewrite digits_number.
Qed.

Lemma s_round_trip_l : forall w o (pre mid post : list Z) v,
  zlen mid = Z.of_nat (bytes_of w) -> - 2 ^ (bits_of w - 1) <= v < 2 ^ (bits_of w - 1) ->
  exists buf, serialize w o (pre ++ mid ++ post) (zlen pre) (wrap (bits_of w) v)
                = Done (buf, Z.of_nat (bytes_of w)) /\
    deserialize_s false w o buf (zlen pre) = Done (v, Z.of_nat (bytes_of w)).
Proof.
  intros w o pre mid post v Hm Hv. eexists.
  assert (HB : 0 < bits_of w) by (destruct w; reflexivity).
  assert (HW : 0 <= wrap (bits_of w) v < 2 ^ bits_of w) by (apply wrap_range; lia).
  split; [now apply serialize_layout_l|].
  rewrite deserialize_s_l by (apply digits_length || apply digits_bytes). cbn [andb].
  rewrite number_digits, pow_bits, Z.mod_small by assumption.
  rewrite <- two_complement_swrap by (assumption || lia).
  replace (swrap (bits_of w) (wrap (bits_of w) v)) with (swrap (bits_of w) v).
  - now rewrite swrap_small.
  - unfold swrap, wrap. now rewrite Z.mod_mod by (apply Z.pow_nonzero; lia).
Qed.
