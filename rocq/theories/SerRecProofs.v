(** Proofs about records written and read field by field. *)
From Coq Require Import ZifyBool.
From Verif Require Import Base BaseLemmas SerializerModel SerializerSpec SerializerSystem
  SerializerProofs SerRecSpec SerRecSystem.

Lemma zlen_app_ : forall (a b : list Z), zlen (a ++ b) = zlen a + zlen b.
Proof. intros. unfold zlen. rewrite app_length. lia. Qed.

Lemma f_size_pos : forall t, 1 <= f_size t.
Proof. intros [s w o]. destruct w; cbv; congruence. Qed.

Lemma record_size_nonneg : forall ts, 0 <= record_size ts.
Proof.
  induction ts as [|t ts IH]; cbn; [lia|]. pose proof (f_size_pos t). unfold record_size in IH. lia.
Qed.

Lemma split_at : forall (l : list Z) n, 0 <= n <= zlen l -> exists a b, l = a ++ b /\ zlen a = n.
Proof.
  intros l n H. exists (firstn (Z.to_nat n) l), (skipn (Z.to_nat n) l).
  split; [now rewrite firstn_skipn|]. unfold zlen in *. rewrite firstn_length. lia.
Qed.

Lemma digits_mod : forall n v, digits n (v mod 256 ^ Z.of_nat n) = digits n v.
Proof.
  induction n; intros v; [reflexivity|].
  rewrite Nat2Z.inj_succ, Z.pow_succ_r by lia. cbn [digits].
  assert (0 < 256 ^ Z.of_nat n) by (apply Z.pow_pos_nonneg; lia).
  rewrite Z.rem_mul_r by lia. f_equal.
  - rewrite Z.mul_comm, Z_mod_plus_full, Z.mod_mod by lia. reflexivity.
  - rewrite <- (IHn (v / 256)). f_equal.
    rewrite Z.mul_comm, Z.div_add by lia.
    rewrite (Z.div_small (v mod 256)) by (apply Z.mod_pos_bound; lia). lia.
Qed.

Lemma layout_zlen : forall o ds, zlen (layout o ds) = zlen ds.
Proof. intros [] ds; cbn [layout]; [reflexivity|]. unfold zlen. now rewrite rev_length. Qed.

Lemma bits_pos : forall w, 0 < bits_of w.
Proof. destruct w; reflexivity. Qed.

Lemma write_one : forall w o (pre mid post : list Z) v,
  zlen mid = Z.of_nat (bytes_of w) ->
  serialize w o (pre ++ mid ++ post) (zlen pre) (wrap (bits_of w) v)
    = Done (pre ++ layout o (digits (bytes_of w) v) ++ post, Z.of_nat (bytes_of w)).
Proof.
  intros w o pre mid post v Hm. pose proof (bits_pos w).
  rewrite serialize_layout_l by (try assumption; apply wrap_range; lia).
  unfold wrap. rewrite <- pow_bits, digits_mod. reflexivity.
Qed.

Lemma record_write_l : forall r (pre mid post : list Z),
  zlen mid = record_size (map fst r) ->
  write_record (pre ++ mid ++ post) (zlen pre) r
    = Done (pre ++ record_bytes r ++ post, zlen pre + record_size (map fst r)).
Proof.
  induction r as [|[t v] r IH]; intros pre mid post Hm.
  - cbn in *. destruct mid; [|unfold zlen in Hm; cbn in Hm; lia]. now rewrite Z.add_0_r.
  - cbn [map fst record_size fold_right] in Hm. fold (record_size (map fst r)) in Hm.
    pose proof (f_size_pos t). pose proof (record_size_nonneg (map fst r)).
    destruct (split_at mid (f_size t)) as (m1 & m2 & -> & H1); [lia|].
    rewrite zlen_app_ in Hm. cbn [write_record].
    rewrite <- app_assoc. rewrite write_one by exact H1. cbn [obind fst snd].
    set (bs := layout (f_order t) (digits (bytes_of (f_width t)) v)).
    assert (Hb : zlen bs = f_size t).
    { unfold bs. rewrite layout_zlen. unfold zlen. now rewrite digits_length. }
    fold (f_size t). rewrite <- Hb, <- zlen_app_, (app_assoc pre bs).
    rewrite IH by lia. rewrite zlen_app_.
    cbn [record_bytes flat_map map fst snd record_size fold_right]. fold bs.
    fold (record_size (map fst r)). fold (record_bytes r).
    rewrite <- !app_assoc. f_equal. f_equal. lia.
Qed.

(** The last digit decides the sign. *)
Lemma last_digit : forall n v, last (digits (S n) v) 0 = v / 256 ^ Z.of_nat n mod 256.
Proof.
  induction n; intros v.
  - cbn. now rewrite Z.div_1_r.
  - change (digits (S (S n)) v) with (v mod 256 :: digits (S n) (v / 256)).
    change (last (v mod 256 :: digits (S n) (v / 256)) 0) with (last (digits (S n) (v / 256)) 0).
    rewrite IHn, Z.div_div by (try apply Z.pow_pos_nonneg; lia).
    now rewrite Nat2Z.inj_succ, Z.pow_succ_r by lia.
Qed.

Lemma top_byte : forall n v, - (128 * 256 ^ Z.of_nat n) <= v < 128 * 256 ^ Z.of_nat n ->
  (128 <=? last (digits (S n) v) 0) = (v <? 0).
Proof.
  intros n v Hv. rewrite last_digit. set (M := 256 ^ Z.of_nat n) in *.
  assert (HM : 0 < M) by (apply Z.pow_pos_nonneg; lia).
  pose proof (Z.div_mod v M ltac:(lia)) as E. pose proof (Z.mod_pos_bound v M HM) as R.
  set (q := v / M) in *. set (x := v mod M) in *. clearbody q x M.
  assert (-128 <= q < 128) by nia.
  destruct (Z.ltb_spec v 0).
  - assert (q < 0) by nia. replace (q mod 256) with (q + 256); [lia|].
    rewrite <- (Z_mod_plus_full q 1 256). rewrite Z.mod_small; lia.
  - assert (0 <= q) by nia. rewrite Z.mod_small by lia. lia.
Qed.

Lemma two_complement_mod : forall b v, 0 < b -> - 2 ^ (b - 1) <= v < 2 ^ (b - 1) ->
  two_complement b (v mod 2 ^ b) = v.
Proof.
  intros b v Hb Hv. rewrite <- (swrap_small b v Hb Hv) at 2. reflexivity.
Qed.

Lemma read_one : forall iso t v (pre post : list Z), f_holds t v ->
  (if f_signed t
   then deserialize_s iso (f_width t) (f_order t)
     (pre ++ layout (f_order t) (digits (bytes_of (f_width t)) v) ++ post) (zlen pre)
   else deserialize_u (f_width t) (f_order t)
     (pre ++ layout (f_order t) (digits (bytes_of (f_width t)) v) ++ post) (zlen pre))
  = if iso && negb (iso_safe (t, v)) then Undef else Done (v, f_size t).
Proof.
  intros iso [s w o] v pre post Hv. unfold f_holds, iso_safe, f_size in *. cbn [f_signed f_width f_order fst snd] in *.
  destruct s; cbn [negb orb] in *.
  - rewrite deserialize_s_l by (apply digits_length || apply digits_bytes).
    rewrite number_digits, pow_bits, two_complement_mod by (assumption || apply bits_pos).
    replace (shift_overflows w (digits (bytes_of w) v))
      with (negb (match w with W8 | W16 => true | W32 | W64 => 0 <=? v end)); [reflexivity|].
    destruct w; cbn [shift_overflows]; try reflexivity; cbn [bytes_of] in *.
    + rewrite (top_byte 3); [lia|]. exact Hv.
    + rewrite (top_byte 7); [lia|]. exact Hv.
  - rewrite deserialize_u_l by (apply digits_length || apply digits_bytes).
    rewrite number_digits, pow_bits, Z.mod_small by assumption. now rewrite andb_false_r.
Qed.

Lemma record_read_l : forall iso r (pre post : list Z), record_fits r ->
  read_record iso (pre ++ record_bytes r ++ post) (zlen pre) (map fst r)
    = if iso && negb (forallb iso_safe r) then Undef
      else Done (map snd r, zlen pre + record_size (map fst r)).
Proof.
  intros iso. induction r as [|[t v] r IH]; intros pre post Hf.
  - cbn. rewrite andb_false_r. now rewrite Z.add_0_r.
  - inversion Hf as [|? ? Hv Hr]; subst. cbn [fst snd] in Hv.
    cbn [map fst read_record record_bytes flat_map]. cbn [snd]. fold (record_bytes r).
    rewrite <- app_assoc. rewrite read_one by exact Hv. cbn [forallb].
    rewrite negb_andb. destruct (iso && negb (iso_safe (t, v))) eqn:E.
    { cbn [obind]. rewrite andb_orb_distrib_r, E. reflexivity. }
    cbn [obind fst snd]. rewrite andb_orb_distrib_r, E, orb_false_l.
    set (bs := layout (f_order t) (digits (bytes_of (f_width t)) v)).
    assert (Hb : zlen bs = f_size t).
    { unfold bs. rewrite layout_zlen. unfold zlen. now rewrite digits_length. }
    rewrite <- Hb, <- zlen_app_, (app_assoc pre bs).
    rewrite IH by exact Hr. destruct (iso && negb (forallb iso_safe r)); [reflexivity|].
    cbn [obind fst snd map record_size fold_right]. fold (record_size (map fst r)).
    now rewrite zlen_app_, Hb, Z.add_assoc.
Qed.

(** Reading any bytes and writing the values back gives the same bytes. *)
Lemma one_value : forall t bs, zlen bs = f_size t -> Forall is_byte bs ->
  exists v, f_holds t v /\ layout (f_order t) (digits (bytes_of (f_width t)) v) = bs.
Proof.
  intros [s w o] bs Hl Hb. unfold f_size, f_holds in *. cbn [f_signed f_width f_order] in *.
  assert (HL : exists ds, bs = layout o ds /\ length ds = bytes_of w /\ Forall is_byte ds).
  { unfold zlen in Hl. destruct o; [exists bs; repeat split; auto; lia|]. exists (rev bs). cbn [layout].
    rewrite rev_involutive, rev_length. repeat split; [lia|]. now apply Forall_rev. }
  destruct HL as (ds & -> & Hdl & Hdb).
  pose proof (number_range ds Hdb) as HR. rewrite Hdl, pow_bits in HR.
  assert (Hn : digits (bytes_of w) (number ds) = ds) by (rewrite <- Hdl; now apply digits_number).
  destruct s.
  - exists (swrap (bits_of w) (number ds)). split; [apply swrap_range, bits_pos|].
    f_equal. rewrite <- Hn at 2. rewrite <- (digits_mod _ (swrap _ _)), <- (digits_mod _ (number ds)).
    f_equal. rewrite pow_bits. unfold swrap.
    rewrite (Z.mod_small (number ds)) by exact HR.
    destruct (number ds <? 2 ^ (bits_of w - 1)).
    + apply Z.mod_small, HR.
    + replace (number ds - 2 ^ bits_of w) with (number ds + (-1) * 2 ^ bits_of w) by lia.
      rewrite Z_mod_plus_full. apply Z.mod_small, HR.
  - exists (number ds). split; [exact HR|]. now rewrite Hn.
Qed.

Lemma record_values : forall ts bs, zlen bs = record_size ts -> Forall is_byte bs ->
  exists r, map fst r = ts /\ record_fits r /\ record_bytes r = bs.
Proof.
  induction ts as [|t ts IH]; intros bs Hl Hb.
  - exists []. repeat split; [constructor|]. cbn in Hl. destruct bs; [reflexivity|unfold zlen in Hl; cbn in Hl; lia].
  - cbn [record_size fold_right] in Hl. fold (record_size ts) in Hl.
    pose proof (f_size_pos t). pose proof (record_size_nonneg ts).
    destruct (split_at bs (f_size t)) as (b1 & b2 & -> & H1); [lia|].
    rewrite zlen_app_ in Hl. apply Forall_app in Hb as [Hb1 Hb2].
    destruct (IH b2) as (r & <- & Hr & <-); [lia|exact Hb2|].
    destruct (one_value t b1 H1 Hb1) as (v & Hv & <-).
    exists ((t, v) :: r). split; [reflexivity|]. split; [now constructor|reflexivity].
Qed.

Lemma record_rewrite_l : forall ts (pre bs post pre' mid post' : list Z),
  zlen bs = record_size ts -> Forall is_byte bs -> zlen mid = record_size ts ->
  exists vs, length vs = length ts /\ record_fits (combine ts vs) /\
    read_record false (pre ++ bs ++ post) (zlen pre) ts = Done (vs, zlen pre + record_size ts) /\
    write_record (pre' ++ mid ++ post') (zlen pre') (combine ts vs)
      = Done (pre' ++ bs ++ post', zlen pre' + record_size ts).
Proof.
  intros ts pre bs post pre' mid post' Hl Hb Hm.
  destruct (record_values ts bs Hl Hb) as (r & <- & Hr & <-).
  assert (Ec : combine (map fst r) (map snd r) = r).
  { clear. induction r as [|[a b] r IH]; cbn; congruence. }
  exists (map snd r). rewrite Ec, !map_length. split; [reflexivity|]. split; [exact Hr|].
  split; [now rewrite record_read_l|]. now apply record_write_l.
Qed.

(** *** Buffers that are too small *)

Lemma zset_inv : forall (l l' : list Z) i a, zset l i a = Done l' -> 0 <= i < zlen l /\ zlen l' = zlen l.
Proof.
  intros l l' i a. unfold zset. destruct (Z.ltb_spec i 0); cbn [orb]; [discriminate|].
  destruct (Z.leb_spec (zlen l) i); [discriminate|]. intros [= <-]. rewrite zlen_upd. lia.
Qed.

Lemma zset_cases : forall (l : list Z) i a, zset l i a = Undef \/ exists l', zset l i a = Done l'.
Proof. intros. unfold zset. destruct (_ || _); eauto. Qed.

Lemma zget_cases : forall (l : list Z) i,
  zget l i = Undef \/ exists a, zget l i = Done a /\ 0 <= i < zlen l.
Proof.
  intros. unfold zget. destruct (Z.ltb_spec i 0); [now left|].
  destruct (nth_error l (Z.to_nat i)) eqn:E; [|now left]. right. eexists. split; [reflexivity|].
  assert (nth_error l (Z.to_nat i) <> None) as HN by congruence. apply nth_error_Some in HN.
  unfold zlen. lia.
Qed.

Lemma serialize_short : forall w o (buf : list Z) i v, 0 <= i ->
  zlen buf < i + Z.of_nat (bytes_of w) -> serialize w o buf i v = Undef.
Proof.
  intros w o buf i v Hi Hs.
  destruct w, o; cbn [serialize bytes_of] in *;
    unfold serialize_uint8, serialize_uint16_le, serialize_uint16_be, serialize_uint32_le,
      serialize_uint32_be, serialize_uint64_le, serialize_uint64_be, put;
    repeat (match goal with |- context [zset ?l ?k ?a] =>
      let E := fresh "E" in let l' := fresh "l" in
      destruct (zset_cases l k a) as [E|(l' & E)]; rewrite E; cbn [obind];
      [reflexivity|apply zset_inv in E] end); exfalso; lia.
Qed.

Lemma deserialize_short : forall iso s w o (buf : list Z) i, 0 <= i ->
  zlen buf < i + Z.of_nat (bytes_of w) ->
  (if s : bool then deserialize_s iso w o buf i else deserialize_u w o buf i) = Undef.
Proof.
  intros iso s w o buf i Hi Hs.
  destruct s, w, o; cbn [deserialize_s deserialize_u bytes_of] in *;
    unfold deserialize_uint8, deserialize_int8, deserialize_uint16_le, deserialize_int16_le,
      deserialize_uint32_le, deserialize_int32_le, deserialize_uint64_le, deserialize_int64_le,
      deserialize_uint16_be, deserialize_int16_be,
      deserialize_uint32_be, deserialize_int32_be, deserialize_uint64_be, deserialize_int64_be;
    repeat (match goal with |- context [zget ?l ?k] =>
      let E := fresh "E" in let a := fresh "a" in let R := fresh "R" in
      destruct (zget_cases l k) as [E|(a & E & R)]; rewrite E; cbn [obind];
      [reflexivity|clear E] end); exfalso; lia.
Qed.

Lemma record_short_l : forall r (buf : list Z) i iso, 0 <= i <= zlen buf ->
  zlen buf < i + record_size (map fst r) -> Forall is_byte buf ->
  write_record buf i r = Undef /\ read_record iso buf i (map fst r) = Undef.
Proof.
  induction r as [|[t v] r IH]; intros buf i iso Hi Hs Hb.
  - cbn in Hs. lia.
  - cbn [map fst record_size fold_right] in Hs. fold (record_size (map fst r)) in Hs.
    cbn [write_record read_record map fst].
    destruct (Z.ltb_spec (zlen buf) (i + f_size t)) as [Hc|Hc].
    + unfold f_size in Hc. rewrite serialize_short by lia. split; [reflexivity|].
      rewrite deserialize_short by lia. reflexivity.
    + destruct (split_at buf i) as (pre & rest & -> & Hp); [lia|].
      pose proof (f_size_pos t). rewrite zlen_app_ in Hc.
      destruct (split_at rest (f_size t)) as (bs & post & -> & H1).
      { pose proof (zlen_nonneg Z rest). lia. }
      apply Forall_app in Hb as [Hb0 Hb]. apply Forall_app in Hb as [Hb1 Hb2].
      rewrite !zlen_app_ in *. rewrite <- Hp in *. split.
      * rewrite write_one by exact H1. cbn [obind fst snd]. fold (f_size t).
        assert (HL : zlen (layout (f_order t) (digits (bytes_of (f_width t)) v)) = f_size t).
        { rewrite layout_zlen. unfold zlen. now rewrite digits_length. }
        apply (IH _ _ iso).
        -- rewrite !zlen_app_, HL. pose proof (zlen_nonneg Z post). pose proof (zlen_nonneg Z pre). lia.
        -- rewrite !zlen_app_, HL. lia.
        -- apply Forall_app. split; [exact Hb0|]. apply Forall_app. split; [|exact Hb2].
           destruct (f_order t); cbn [layout]; [|apply Forall_rev]; apply digits_bytes.
      * destruct (one_value t bs H1 Hb1) as (v' & Hv' & <-).
        rewrite read_one by exact Hv'. destruct (iso && negb (iso_safe (t, v'))); [reflexivity|].
        cbn [obind fst snd].
        set (bs := layout (f_order t) (digits (bytes_of (f_width t)) v')) in *.
        destruct (IH (pre ++ bs ++ post) (zlen pre + f_size t) iso) as [_ E].
        -- rewrite !zlen_app_, H1. pose proof (zlen_nonneg Z post). pose proof (zlen_nonneg Z pre). lia.
        -- rewrite !zlen_app_, H1. lia.
        -- apply Forall_app. split; [exact Hb0|]. apply Forall_app. split; assumption.
        -- rewrite E. reflexivity.
Qed.
