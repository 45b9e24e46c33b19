(** Proofs about the event log. *)
From Coq Require Import ZifyBool ZifyNat.
From Verif Require Import Base BaseLemmas EventLogModel EventLogSpec EventLogSystem.

Section E.
Variables (m es : Z).
Hypothesis Hm : 0 < m <= INT_MAX.
Hypothesis Hes : 0 <= es.

(** [v]: how many of the newest events are sure to be intact. *)
Definition inv (v : Z) (s : list (list Z) * elog) (ev : list (list Z)) : Prop :=
  let (slots, l) := s in
  max_events l = m /\ event_size l = es /\ zlen slots = m /\
  Forall (fun e => zlen e = es) slots /\
  next_position l = zlen ev mod m /\ full_circle l = (m <=? zlen ev) /\
  forall k, 0 <= k < zlen ev -> zlen ev - v <= k ->
    nth_error slots (Z.to_nat (k mod m)) = nth_error ev (Z.to_nat k).

Lemma mod_succ : forall x, 0 <= x -> (x + 1) mod m = if m <=? x mod m + 1 then 0 else x mod m + 1.
Proof.
  intros x Hx. pose proof (Z.mod_pos_bound x m ltac:(lia)). pose proof (Z.div_mod x m ltac:(lia)).
  destruct (Z.leb_spec m (x mod m + 1)).
  - symmetry. apply Z.mod_unique with (q := x / m + 1); lia.
  - symmetry. apply Z.mod_unique with (q := x / m); lia.
Qed.

Lemma mod_inj : forall a b, 0 <= a <= b -> b - a < m -> a mod m = b mod m -> a = b.
Proof.
  intros a b H1 H2 H. pose proof (Z.div_mod a m ltac:(lia)). pose proof (Z.div_mod b m ltac:(lia)).
  assert (m * (b / m - a / m) = b - a) by lia.
  assert (b / m - a / m = 0) by nia. nia.
Qed.

Lemma Forall_upd : forall A (P : A -> Prop) l i a, Forall P l -> P a -> Forall P (upd l i a).
Proof. induction l; intros i b H Hb; [destruct i; constructor|]. apply Forall_cons_iff in H as [H1 H2]. destruct i; constructor; auto. Qed.

Lemma zlen_app1 : forall A (l : list A) a, zlen (l ++ [a]) = zlen l + 1.
Proof. intros. unfold zlen. rewrite app_length. cbn. lia. Qed.

Lemma step_inv : forall v s ev o, 0 <= v <= m -> lop_ok es o -> (v < m \/ untorn o) -> inv v s ev ->
  inv v (fst (lstep s o)) (ev ++ saved [o]) /\
  snd (lstep s o) = match o with LSave _ => 0 | LFail _ c => c | LTorn _ c _ => c end /\
  (forall e c, o = LFail e c -> fst (lstep s o) = s).
Proof.
  intros v [slots l] ev o Hv Ho Ht (I1 & I2 & I3 & I4 & I5 & I6 & I7).
  pose proof (zlen_nonneg _ ev) as Hl. pose proof (Z.mod_pos_bound (zlen ev) m ltac:(lia)) as Hmod.
  unfold lstep, new_event. cbn [fst snd]. destruct o as [e|e c|e c g]; cbn [save_of event_of lop_ok saved flat_map app untorn] in *.
  - cbn [Z.eqb]. rewrite wrap64_small by (unfold INT_MAX in *; lia). rewrite I1, I5.
    assert (HI : forall k, 0 <= k < zlen (ev ++ [e]) -> zlen (ev ++ [e]) - v <= k ->
      nth_error (upd slots (Z.to_nat (zlen ev mod m)) e) (Z.to_nat (k mod m)) = nth_error (ev ++ [e]) (Z.to_nat k)).
    { intros k Hk Hkv. rewrite zlen_app1 in *. pose proof (Z.mod_pos_bound k m ltac:(lia)).
      rewrite nth_error_app. destruct (Z.eq_dec k (zlen ev)) as [->|Hne].
      - rewrite nth_error_upd_eq by (unfold zlen in *; lia). unfold zlen.
        rewrite Nat2Z.id, Nat.ltb_irrefl, Nat.sub_diag. reflexivity.
      - rewrite nth_error_upd_neq.
        + rewrite I7 by lia. destruct (Nat.ltb_spec (Z.to_nat k) (length ev)); [reflexivity|unfold zlen in *; lia].
        + intros E. assert (k mod m = zlen ev mod m) by lia. apply Hne. apply mod_inj; lia. }
    assert (HF : Forall (fun x => zlen x = es) (upd slots (Z.to_nat (zlen ev mod m)) e)) by (now apply Forall_upd).
    pose proof (mod_succ (zlen ev) Hl) as HS.
    pose proof (Z.div_mod (zlen ev) m ltac:(lia)) as HD.
    split; [|split; [destruct (m <=? zlen ev mod m + 1); reflexivity|intros; discriminate]].
    destruct (Z.leb_spec m (zlen ev mod m + 1)); cbn [fst]; unfold inv; cbn [max_events event_size next_position full_circle];
      rewrite zlen_app1 at 1 2; rewrite zlen_upd; (split; [reflexivity || exact I1|]); (split; [exact I2|]);
      (split; [exact I3|]); (split; [exact HF|]); rewrite HS; (split; [reflexivity|]).
    + split; [|exact HI]. symmetry. apply Z.leb_le.
      assert (0 <= zlen ev / m) by (apply Z.div_pos; lia). nia.
    + split; [|exact HI]. rewrite I6. destruct (Z.leb_spec m (zlen ev)), (Z.leb_spec m (zlen ev + 1)); try reflexivity; try lia.
      assert (zlen ev / m = 0) by (apply Z.div_small; lia). lia.
  - destruct (Z.eqb_spec c 0); [contradiction|]. cbn [fst snd]. rewrite app_nil_r.
    split; [unfold inv; auto 10|]. split; reflexivity.
  - destruct Ho as [Hc Hg]. destruct (Z.eqb_spec c 0); [contradiction|]. cbn [fst snd]. rewrite app_nil_r.
    destruct Ht as [Ht|[]]. split; [|split; [reflexivity|intros; discriminate]].
    unfold inv. split; [exact I1|]. split; [exact I2|]. split; [now rewrite zlen_upd|].
    split; [now apply Forall_upd|]. split; [exact I5|]. split; [exact I6|].
    intros k Hk Hkv. rewrite nth_error_upd_neq; [now apply I7|]. rewrite I5.
    pose proof (Z.mod_pos_bound k m ltac:(lia)). intros E.
    assert (k mod m = zlen ev mod m) by lia. assert (k = zlen ev) by (apply mod_inj; lia). lia.
Qed.

Lemma saved_app : forall a b, saved (a ++ b) = saved a ++ saved b.
Proof. intros. unfold saved. apply flat_map_app. Qed.

Lemma run_inv : forall v h s ev, 0 <= v <= m -> Forall (lop_ok es) h -> (v < m \/ Forall untorn h) ->
  inv v s ev -> inv v (lrun s h) (ev ++ saved h).
Proof.
  intros v. induction h as [|o h IH]; intros s ev Hv Hok Ht HI.
  - cbn. now rewrite app_nil_r.
  - apply Forall_cons_iff in Hok as [Ho Hh]. change (o :: h) with ([o] ++ h). rewrite saved_app, app_assoc.
    cbn [lrun fold_left app]. apply IH; try assumption.
    + destruct Ht as [Ht|Ht]; [now left|]. right. now apply Forall_cons_iff in Ht.
    + apply step_inv; try assumption. destruct Ht as [Ht|Ht]; [now left|]. right. now apply Forall_cons_iff in Ht.
Qed.

Lemma fresh_inv : forall v slots, slots_ok m es slots -> inv v (fresh m es slots) [].
Proof.
  intros v slots (H1 & H2). unfold inv, fresh. cbn [max_events event_size next_position full_circle].
  replace (zlen (@nil (list Z))) with 0 by reflexivity. rewrite Z.mod_0_l by lia.
  repeat (split; [reflexivity || assumption|]). split; [symmetry; apply Z.leb_gt; lia|].
  intros k Hk. lia.
Qed.

Lemma history_inv : forall v slots h, 0 <= v <= m -> slots_ok m es slots -> Forall (lop_ok es) h ->
  (v < m \/ Forall untorn h) -> inv v (lrun (fresh m es slots) h) (saved h).
Proof. intros. change (saved h) with ([] ++ saved h). apply run_inv; try assumption. now apply fresh_inv. Qed.

(** Windows. *)
Lemma window_eq : forall ev number jump, 0 <= number -> 0 <= jump <= Z.min m (zlen ev) ->
  let T := Z.min m (zlen ev) in let a := Z.min number (T - jump) in
  window m ev number jump = firstn (Z.to_nat a) (skipn (Z.to_nat (zlen ev - a - jump)) ev).
Proof.
  intros ev number jump Hn Hj T a. unfold window, last_n, drop_last.
  set (kept := skipn (Z.to_nat (zlen ev - m)) ev).
  assert (Hk : zlen kept = T) by (unfold kept, T, zlen in *; rewrite skipn_length; lia).
  rewrite Hk.
  assert (Hd : zlen (firstn (Z.to_nat (T - jump)) kept) = T - jump) by (unfold zlen in *; rewrite firstn_length; lia).
  rewrite Hd. apply nth_error_ext. intros i.
  rewrite nth_error_skipn, nth_error_firstn, nth_error_firstn, nth_error_skipn. unfold kept. rewrite nth_error_skipn.
  destruct (Nat.ltb_spec (Z.to_nat (T - jump - number) + i) (Z.to_nat (T - jump))),
           (Nat.ltb_spec i (Z.to_nat a)); try lia; try reflexivity.
  f_equal. lia.
Qed.

Lemma window_beyond : forall ev number jump, Z.min m (zlen ev) <= jump -> window m ev number jump = [].
Proof.
  intros ev number jump Hj. unfold window, last_n, drop_last.
  set (kept := skipn (Z.to_nat (zlen ev - m)) ev).
  assert (Hk : zlen kept = Z.min m (zlen ev)) by (unfold kept, zlen in *; rewrite skipn_length; lia).
  replace (Z.to_nat (zlen kept - jump)) with 0%nat by lia. cbn. apply skipn_nil.
Qed.

(** A run of slots holds a run of events. *)
Lemma slots_read : forall v slots l ev K i n, inv v (slots, l) ev -> 0 <= i -> 0 <= n -> i + n <= m ->
  0 <= K -> K + n <= zlen ev -> zlen ev - v <= K -> (n = 0 \/ K mod m = i) ->
  zread slots i n = Done (firstn (Z.to_nat n) (skipn (Z.to_nat K) ev)).
Proof.
  intros v slots l ev K i n (I1 & I2 & I3 & I4 & I5 & I6 & I7) Hi Hn Hin HK HKn HKv Hmod.
  rewrite zread_ok by lia. f_equal. apply nth_error_ext. intros q.
  rewrite !nth_error_firstn. destruct (Nat.ltb_spec q (Z.to_nat n)); [|reflexivity].
  rewrite !nth_error_skipn.
  replace (Z.to_nat K + q)%nat with (Z.to_nat (K + Z.of_nat q)) by lia. rewrite <- I7 by lia. f_equal.
  assert (HD : K mod m = i) by lia.
  assert ((K + Z.of_nat q) mod m = i + Z.of_nat q).
  { pose proof (Z.div_mod K m ltac:(lia)). symmetry. apply Z.mod_unique with (q := K / m); lia. }
  lia.
Qed.

Lemma concat_len : forall ls : list (list Z), Forall (fun e => zlen e = es) ls -> zlen (concat ls) = es * zlen ls.
Proof.
  induction ls as [|e ls IH]; intros H; [unfold zlen; cbn; lia|]. apply Forall_cons_iff in H as [H1 H2].
  cbn [concat]. specialize (IH H2). unfold zlen in *. rewrite app_length. cbn [length]. lia.
Qed.

Lemma zwrite_0 : forall (d buf : list Z), zlen d <= zlen buf -> zwrite buf 0 d = Done (d ++ skipn (length d) buf).
Proof. intros. rewrite zwrite_ok by lia. reflexivity. Qed.

Lemma total_eq : forall v slots l ev, inv v (slots, l) ev -> total_events l = Z.min m (zlen ev).
Proof.
  intros v slots l ev (I1 & I2 & I3 & I4 & I5 & I6 & I7). unfold total_events. rewrite I6, I1, I5.
  pose proof (zlen_nonneg _ ev). destruct (Z.leb_spec m (zlen ev)); [lia|]. rewrite Z.mod_small by lia. lia.
Qed.

Lemma start_eq : forall v slots l ev x, inv v (slots, l) ev -> 0 <= x <= Z.min m (zlen ev) ->
  let s := nth_last_event l x in
  0 <= s < m + 1 /\ (0 < x -> s < m /\ s = (zlen ev - x) mod m) /\ (x = 0 -> s = zlen ev mod m).
Proof.
  intros v slots l ev x (I1 & I2 & I3 & I4 & I5 & I6 & I7) Hx. unfold nth_last_event.
  rewrite I6, I1, I5. pose proof (zlen_nonneg _ ev) as Hl.
  pose proof (Z.mod_pos_bound (zlen ev) m ltac:(lia)) as Hb. pose proof (Z.div_mod (zlen ev) m ltac:(lia)) as HD.
  cbv zeta. destruct (Z.leb_spec x (zlen ev mod m)).
  - split; [lia|]. split; [|lia]. intros _. split; [lia|]. apply Z.mod_unique with (q := zlen ev / m); lia.
  - destruct (Z.leb_spec m (zlen ev)).
    + rewrite wrap64_small by (unfold INT_MAX in *; lia). split; [lia|]. split; [|lia]. intros _. split; [lia|].
      apply Z.mod_unique with (q := zlen ev / m - 1); lia.
    + rewrite (Z.mod_small (zlen ev)) in * by lia. lia.
Qed.

Lemma sub_length : forall A (l : list A) n k, 0 <= n -> 0 <= k -> k + n <= zlen l ->
  length (firstn (Z.to_nat n) (skipn (Z.to_nat k) l)) = Z.to_nat n.
Proof. intros. unfold zlen in *. rewrite firstn_length, skipn_length. lia. Qed.

Lemma sub_zlen : forall A (l : list A) n k, 0 <= n -> 0 <= k -> k + n <= zlen l ->
  zlen (firstn (Z.to_nat n) (skipn (Z.to_nat k) l)) = n.
Proof. intros. unfold zlen at 1. rewrite sub_length by assumption. lia. Qed.

Lemma sub_split : forall A (l : list A) a t k, 0 <= t <= a -> 0 <= k -> k + a <= zlen l ->
  firstn (Z.to_nat a) (skipn (Z.to_nat k) l) =
  firstn (Z.to_nat t) (skipn (Z.to_nat k) l) ++ firstn (Z.to_nat (a - t)) (skipn (Z.to_nat (k + t)) l).
Proof.
  intros A l a t k Ht Hk Hl. apply nth_error_ext. intros q.
  rewrite nth_error_app, sub_length, !nth_error_firstn, !nth_error_skipn by lia.
  destruct (Nat.ltb_spec q (Z.to_nat a)), (Nat.ltb_spec q (Z.to_nat t)),
    (Nat.ltb_spec (q - Z.to_nat t) (Z.to_nat (a - t))); try lia; try reflexivity. f_equal; lia.
Qed.

Lemma skipn_skipn_add : forall A (l : list A) a b, skipn b (skipn a l) = skipn (a + b) l.
Proof. intros. apply nth_error_ext. intros i. rewrite !nth_error_skipn. f_equal. lia. Qed.

(** All loads, with any faults. *)
Definition load_result (fault : nat -> option Z) (buf : list Z) (ev : list (list Z)) (number jump : Z)
  (r : list (Z * Z) * list Z * Z) : Prop :=
  let w := window m ev number jump in
  let full := concat w ++ skipn (length (concat w)) buf in
  let '(reqs, out, res) := r in
  (forall q, In q reqs -> 0 <= fst q /\ 0 <= snd q /\ fst q + snd q <= m) /\
  fold_right Z.add 0 (map fst reqs) <= m /\ (length reqs <= 2)%nat /\
  match reqs with
  | [] => jump > Z.min m (zlen ev) /\ res = 0 /\ out = buf
  | [_] => match fault 0%nat with
           | None => res = zlen w /\ out = full
           | Some c => res = c /\ out = buf
           end
  | [(n, _); _] => fst (hd (0, 0) reqs) < zlen w /\ 0 < n /\
      match fault 0%nat, fault 1%nat with
      | None, None => res = zlen w /\ out = full
      | None, Some c => res = n + c
      | Some _, _ => False
      end
  | _ => False
  end.

Lemma load_l : forall v slots l ev fault buf number jump, inv v (slots, l) ev -> fault_ok fault ->
  sz number -> sz jump -> sz (zlen buf) -> number + jump < 2 ^ 64 ->
  (Z.min number (Z.min m (zlen ev) - jump) + jump <= v) \/ Z.min m (zlen ev) < jump ->
  zlen (window m ev number jump) * es <= zlen buf ->
  exists r, load_last_events (load_of slots fault) [] l buf number jump = Done r /\
    load_result fault buf ev number jump r.
Proof.
  intros v slots l ev fault buf number jump HI Hf Hnum Hjump Hbuf Hsum Hv Hroom. unfold sz in *.
  change (2 ^ 64) with 18446744073709551616 in *.
  pose proof HI as (I1 & I2 & I3 & I4 & I5 & I6 & I7). pose proof (zlen_nonneg _ ev) as Hl.
  unfold load_last_events. cbv zeta. rewrite (total_eq _ _ _ _ HI). set (T := Z.min m (zlen ev)) in *. assert (HTd : T = Z.min m (zlen ev)) by reflexivity. clearbody T.
  destruct (Z.ltb_spec T jump) as [HT|HT].
  { eexists. split; [reflexivity|]. unfold load_result. cbv zeta. split; [intros q []|]. cbn. repeat split; lia. }
  rewrite (wrap64_small (jump + number)) by lia.
  assert (Ea : (if T <? jump + number then T - jump else number) = Z.min number (T - jump)) by (destruct (Z.ltb_spec T (jump + number)); lia).
  rewrite Ea. clear Ea. set (a := Z.min number (T - jump)) in *. assert (Had : a = Z.min number (T - jump)) by reflexivity. clearbody a.
  pose proof (window_eq ev number jump ltac:(lia) ltac:(lia)) as HW. cbv zeta in HW. rewrite <- HTd in HW. rewrite <- Had in HW.
  assert (Ha : 0 <= a /\ a + jump <= T /\ T <= m /\ T <= zlen ev) by (clear - Had HTd HT Hnum Hm; lia).
  assert (Hv' : a + jump <= v) by (clear - Hv HT; lia).
  assert (HTm : forall x, x <= T -> x <= Z.min m (zlen ev)) by (intros; lia).
  clear Hv Had HTd I5 I6. unfold INT_MAX in Hm.
  rewrite (wrap64_small (a + jump)) by lia.
  destruct (start_eq v slots l ev (a + jump) HI ltac:(split; [lia|apply HTm; lia])) as (S1 & S2 & _).
  set (s := nth_last_event l (a + jump)) in *. clearbody s.
  rewrite (wrap64_small (s + a)) by (clear - S1 Ha Hm Hjump; lia). rewrite I1.
  replace (zlen ev - (a + jump)) with (zlen ev - a - jump) in S2 by lia.
  set (K := zlen ev - a - jump) in *. assert (HKd : K = zlen ev - a - jump) by reflexivity. clearbody K.
  assert (HK : 0 <= K /\ K + a <= zlen ev /\ zlen ev - v <= K) by (clear - HKd Ha Hv' Hjump; lia).
  assert (HwL : zlen (window m ev number jump) = a).
  { rewrite HW. apply sub_zlen; lia. }
  assert (HevF : forall n K', 0 <= K' -> 0 <= n -> K' + n <= zlen ev -> zlen ev - v <= K' -> n <= m ->
     Forall (fun e => zlen e = es) (firstn (Z.to_nat n) (skipn (Z.to_nat K') ev))).
  { intros n K' H1 H2 H3 H4 H5. apply Forall_forall. intros e He. apply In_nth_error in He as [q Hq].
    rewrite nth_error_firstn in Hq. destruct (Nat.ltb_spec q (Z.to_nat n)); [|discriminate].
    rewrite nth_error_skipn in Hq. replace (Z.to_nat K' + q)%nat with (Z.to_nat (K' + Z.of_nat q)) in Hq by lia.
    rewrite <- I7 in Hq by lia. rewrite Forall_forall in I4. apply I4. now apply nth_error_In in Hq. }
  assert (HlenW : zlen (concat (window m ev number jump)) = es * a).
  { rewrite HW. rewrite concat_len by (apply HevF; lia). f_equal. rewrite <- HwL at 2. now rewrite HW. }
  destruct (Z.ltb_spec m (s + a)) as [Hwrap|Hwrap].
  - (* two reads *)
    assert (Hx : 0 < a + jump) by lia. destruct (S2 Hx) as [S4 S5].
    rewrite (wrap64_small (m - s)) by (unfold INT_MAX in *; lia). set (t := m - s) in *. assert (Htd : t = m - s) by reflexivity. clearbody t.
    assert (Ht : 0 < t < a) by lia.
    assert (HKmod : K mod m = s) by congruence.
    assert (HK2 : (K + t) mod m = 0).
    { pose proof (Z.div_mod K m ltac:(lia)). symmetry. apply Z.mod_unique with (q := K / m + 1); lia. }
    clear S5 S2.
    assert (R1 : zread slots s t = Done (firstn (Z.to_nat t) (skipn (Z.to_nat K) ev))).
    { apply (slots_read v slots l); try assumption; try (clear HKmod HK2; lia). now right. }
    assert (R2 : zread slots 0 (a - t) = Done (firstn (Z.to_nat (a - t)) (skipn (Z.to_nat (K + t)) ev))).
    { apply (slots_read v slots l); try assumption; try (clear HKmod HK2; lia). now right. }
    clear HKmod HK2.
    set (W1 := firstn (Z.to_nat t) (skipn (Z.to_nat K) ev)) in *.
    set (W2 := firstn (Z.to_nat (a - t)) (skipn (Z.to_nat (K + t)) ev)) in *.
    assert (HWW : window m ev number jump = W1 ++ W2).
    { rewrite HW. apply sub_split; lia. }
    assert (F1 : zlen (concat W1) = es * t).
    { unfold W1. rewrite concat_len by (apply HevF; lia). f_equal. apply sub_zlen; lia. }
    assert (F2 : zlen (concat W2) = es * (a - t)).
    { unfold W2. rewrite concat_len by (apply HevF; lia). f_equal. apply sub_zlen; lia. }
    assert (Hrange : forall q, In q [(t, s); (a - t, 0)] -> 0 <= fst q /\ 0 <= snd q /\ fst q + snd q <= m).
    { intros q [<-|[<-|[]]]; cbn [fst snd]; lia. }
    assert (Hwr : forall x : list Z, zwrite x 0 [] = Done x).
    { intros. rewrite zwrite_ok by (unfold zlen; cbn; lia). reflexivity. }
    assert (Hprod : 0 <= t * es <= zlen buf) by
      (rewrite HwL in Hroom; pose proof (Z.mul_le_mono_nonneg_r t a es); pose proof (Z.mul_nonneg_nonneg t es); lia).
    unfold load_of at 1. cbn [length]. destruct (fault 0%nat) as [c0|] eqn:Ef0.
    + cbn [obind]. rewrite Hwr. cbn [obind].
      pose proof (Hf _ _ Ef0). destruct (Z.leb_spec c0 0); [|lia].
      eexists. split; [reflexivity|]. unfold load_result. cbv zeta. rewrite Ef0.
      split; [intros q [<-|[]]; apply Hrange; now left|]. split; [cbn; lia|]. split; [cbn; lia|]. cbn. auto.
    + rewrite R1. cbn [obind]. rewrite zwrite_0 by nia. cbn [obind].
      destruct (Z.leb_spec t 0); [lia|].
      rewrite (wrap64_small (a - t)) by (unfold INT_MAX in *; lia). rewrite I2. rewrite (wrap64_small (t * es)) by lia.
      unfold load_of. cbn [length app]. destruct (fault 1%nat) as [c1|] eqn:Ef1.
      * cbn [obind]. pose proof (Hf _ _ Ef1).
        rewrite zwrite_ok; [|lia|]. 2:{ unfold zlen in *. rewrite app_length, skipn_length. cbn [length]. lia. }
        cbn [obind]. unfold int_add. replace ((t + c1 <? INT_MIN) || (INT_MAX <? t + c1)) with false by (unfold INT_MAX, INT_MIN in *; lia).
        cbn [obind]. eexists. split; [reflexivity|]. unfold load_result. cbv zeta. rewrite Ef0, Ef1.
        split; [exact Hrange|]. split; [cbn; lia|]. split; [cbn; lia|]. cbn [hd fst]. lia.
      * rewrite R2. cbn [obind].
        assert (Hlen1 : length (concat W1) = Z.to_nat (t * es)) by (unfold zlen in F1; clear - F1; lia).
        rewrite zwrite_ok; [|lia|].
        2:{ rewrite HwL in Hroom. unfold zlen in *. rewrite app_length, skipn_length. clear - Hroom F1 F2 Hprod Hlen1. lia. }
        cbn [obind]. unfold int_add.
        replace ((t + (a - t) <? INT_MIN) || (INT_MAX <? t + (a - t))) with false by (unfold INT_MAX, INT_MIN in *; lia).
        cbn [obind]. eexists. split; [reflexivity|]. unfold load_result. cbv zeta. rewrite Ef0, Ef1.
        split; [exact Hrange|]. split; [cbn; lia|]. split; [cbn; lia|]. cbn [hd fst].
        split; [lia|]. split; [lia|]. split; [lia|]. rewrite HWW, concat_app, <- Hlen1.
        rewrite <- app_assoc. f_equal.
        -- rewrite firstn_app, Nat.sub_diag, firstn_all, firstn_O. now rewrite app_nil_r.
        -- f_equal. rewrite app_length, skipn_app, skipn_all2 by lia. cbn [app].
           replace (length (concat W1) + length (concat W2) - length (concat W1))%nat with (length (concat W2)) by lia.
           rewrite skipn_skipn_add. reflexivity.
  - assert (R : zread slots s a = Done (window m ev number jump)).
    { rewrite HW. destruct (Z.eq_dec (a + jump) 0) as [E0|].
      - assert (a = 0) by lia. apply (slots_read v slots l); try assumption; try lia.
      - destruct (S2 ltac:(lia)) as [S4 S5]. apply (slots_read v slots l); try assumption; try lia.
 }
    unfold load_of. cbn [length app]. destruct (fault 0%nat) as [c0|] eqn:Ef0.
    + cbn [obind]. rewrite zwrite_ok by (unfold zlen; cbn; lia). cbn [obind].
      eexists. split; [reflexivity|]. unfold load_result. cbv zeta. rewrite Ef0.
      split; [intros q [<-|[]]; cbn [fst snd]; lia|]. split; [cbn; lia|]. split; [cbn; lia|]. cbn. auto.
    + rewrite R. cbn [obind]. rewrite zwrite_0 by nia. cbn [obind].
      eexists. split; [reflexivity|]. unfold load_result. cbv zeta. rewrite Ef0.
      split; [intros q [<-|[]]; cbn [fst snd]; lia|]. split; [cbn; lia|]. split; [cbn; lia|].
      split; [lia|reflexivity].
Qed.

(** Arguments whose sum wraps around. *)
Lemma wrapped_l : forall v slots l ev buf number jump, inv v (slots, l) ev -> sz number -> sz jump -> 2 ^ 64 <= number + jump ->
  load_last_events (load_of slots no_fault) [] l buf number jump =
    if Z.min m (zlen ev) <? jump then Done ([], buf, 0) else Undef.
Proof using Hm.
  intros v slots l ev buf number jump HI Hn Hj Hs. unfold load_last_events. rewrite (total_eq _ _ _ _ HI).
  destruct (Z.ltb_spec (Z.min m (zlen ev)) jump) as [H|H]; [reflexivity|]. unfold sz in *.
  assert (HM : m <= 2147483647) by (unfold INT_MAX in Hm; lia).
  set (x := number + jump - 2 ^ 64). assert (Hx : 0 <= x < jump) by lia.
  assert (Ex : wrap 64 (jump + number) = x).
  { unfold wrap. symmetry. apply Z.mod_unique with (q := 1); lia. }
  assert (Ex' : wrap 64 (number + jump) = x) by (rewrite Z.add_comm; exact Ex).
  rewrite Ex. destruct (Z.ltb_spec (Z.min m (zlen ev)) x) as [H'|_]; [lia|]. rewrite Ex'. cbv zeta.
  set (start := nth_last_event l x).
  assert (HS : 0 <= start < m).
  { unfold start, nth_last_event. destruct HI as (I1 & _ & _ & _ & I5 & I6 & _). rewrite I1, I5, I6.
    pose proof (zlen_nonneg _ ev). pose proof (Z.mod_pos_bound (zlen ev) m ltac:(lia)).
    destruct (Z.leb_spec x (zlen ev mod m)); [lia|]. destruct (Z.leb_spec m (zlen ev)); [|lia].
    rewrite wrap64_small by lia. lia. }
  destruct HI as (I1 & I2 & I3 & _). rewrite I1.
  assert (R : forall reqs n s, m < n -> 0 <= s -> load_of slots no_fault reqs n s = Undef).
  { intros reqs n s Hr Hs0. unfold load_of, no_fault, zread. rewrite I3. destruct (Z.ltb_spec m (s + n)); [|lia]. now rewrite orb_true_r. }
  destruct (m <? wrap 64 (start + number)).
  - rewrite wrap64_small by lia. destruct (load_of slots no_fault [] (m - start) start) as [[[st1 res] d1]| | |] eqn:E;
      [|reflexivity|unfold load_of, no_fault, zread in E; destruct (_ || _); discriminate|unfold load_of, no_fault, zread in E; destruct (_ || _); discriminate].
    cbn [obind]. unfold zwrite at 1. destruct (_ || _); [reflexivity|]. cbn [obind].
    assert (Er : res = m - start).
    { unfold load_of, no_fault in E. destruct (zread slots start (m - start)); cbn [obind] in E; [|discriminate..]. now injection E as _ <- _. }
    destruct (Z.leb_spec res 0); [lia|]. rewrite R; [reflexivity| |lia]. rewrite wrap64_small by lia. lia.
  - rewrite R by lia. reflexivity.
Qed.

Lemma firstn_In_l : forall A (l : list A) n x, In x (firstn n l) -> In x l.
Proof using. intros A l n x H. rewrite <- (firstn_skipn n l). apply in_or_app. now left. Qed.

(** What is asked of any storage at all. *)
Lemma plan_l : forall v slots l ev number jump, inv v (slots, l) ev ->
  sz number -> sz jump -> number + jump < 2 ^ 64 -> jump <= Z.min m (zlen ev) ->
  Z.min number (Z.min m (zlen ev) - jump) + jump <= v ->
  let w := window m ev number jump in
  Forall (fun e => zlen e = es) w /\ zlen w <= m /\
  (zlen w <= to_the_end m ev (zlen w) jump -> exists s, zread slots s (zlen w) = Done w /\
     forall St (load : St -> Z -> Z -> outcome (St * Z * list Z)) st buf,
       load_last_events load st l buf number jump =
         (do (st1, res, d1) <- load st (zlen w) s; do ev1 <- zwrite buf 0 d1; Done (st1, ev1, res))) /\
  (to_the_end m ev (zlen w) jump < zlen w -> let t := to_the_end m ev (zlen w) jump in
     0 < t /\ exists s, zread slots s t = Done (firstn (Z.to_nat t) w) /\
     zread slots 0 (zlen w - t) = Done (skipn (Z.to_nat t) w) /\
     forall St (load : St -> Z -> Z -> outcome (St * Z * list Z)) st buf,
       load_last_events load st l buf number jump =
         (do (st1, res, d1) <- load st t s; do ev1 <- zwrite buf 0 d1;
          if res <=? 0 then Done (st1, ev1, res) else
          do (st2, res2, d2) <- load st1 (zlen w - t) 0;
          do ev2 <- zwrite ev1 (wrap 64 (t * es)) d2;
          do r <- int_add res res2; Done (st2, ev2, r))).
Proof using Hm.
  intros v slots l ev number jump HI Hnum Hjump Hsum HT Hv. unfold sz in *.
  change (2 ^ 64) with 18446744073709551616 in *.
  pose proof HI as (I1 & I2 & I3 & I4 & I5 & I6 & I7). pose proof (zlen_nonneg _ ev) as Hl.
  set (T := Z.min m (zlen ev)) in *. assert (HTd : T = Z.min m (zlen ev)) by reflexivity. clearbody T.
  set (a := Z.min number (T - jump)) in *. assert (Had : a = Z.min number (T - jump)) by reflexivity. clearbody a.
  pose proof (window_eq ev number jump ltac:(lia) ltac:(lia)) as HW. cbv zeta in HW. rewrite <- HTd in HW. rewrite <- Had in HW.
  assert (Ha : 0 <= a /\ a + jump <= T /\ T <= m /\ T <= zlen ev) by (clear - Had HTd HT Hnum Hm; lia).
  assert (HTm : forall x, x <= T -> x <= Z.min m (zlen ev)) by (intros; lia).
  destruct (start_eq v slots l ev (a + jump) HI ltac:(split; [lia|apply HTm; lia])) as (S1 & S2 & S3).
  set (K := zlen ev - a - jump). assert (HKd : K = zlen ev - a - jump) by reflexivity.
  assert (HK : 0 <= K /\ K + a <= zlen ev /\ zlen ev - v <= K) by (clear - HKd Ha Hv Hjump; lia). clearbody K.
  rewrite <- HKd in HW.
  assert (HwL : zlen (window m ev number jump) = a) by (rewrite HW; apply sub_zlen; clear - HK Ha; lia).
  assert (HF : Forall (fun e => zlen e = es) (window m ev number jump)).
  { rewrite HW. apply Forall_forall. intros e He. apply In_nth_error in He as [q Hq].
    rewrite nth_error_firstn in Hq. destruct (Nat.ltb_spec q (Z.to_nat a)); [|discriminate].
    rewrite nth_error_skipn in Hq. replace (Z.to_nat K + q)%nat with (Z.to_nat (K + Z.of_nat q)) in Hq by (clear - HK; lia).
    rewrite <- I7 in Hq by (clear - HK H; lia). rewrite Forall_forall in I4. apply I4. now apply nth_error_In in Hq. }
  cbv zeta. split; [exact HF|]. split; [clear - HwL Ha Hjump; lia|]. rewrite HwL. unfold to_the_end. rewrite <- HKd.
  assert (Hs : 0 < a + jump -> nth_last_event l (a + jump) = K mod m).
  { intros Hx. destruct (S2 Hx) as [_ S5]. rewrite S5. f_equal. clear - HKd. lia. }
  pose proof (total_eq _ _ _ _ HI) as Etot. rewrite <- HTd in Etot.
  assert (Ea : (if T <? jump + number then T - jump else number) = a).
  { clear - Had. destruct (Z.ltb_spec T (jump + number)); lia. }
  assert (HM : 0 < m <= 2147483647) by exact Hm.
  clear S2 S3 I5 I6 I7 I4 I3 HF HTm Hv HTd Had.
  assert (Eload : forall St (load : St -> Z -> Z -> outcome (St * Z * list Z)) st buf,
    load_last_events load st l buf number jump =
      let s := nth_last_event l (a + jump) in
      if m <? s + a then
        do (st1, res, d1) <- load st (m - s) s; do ev1 <- zwrite buf 0 d1;
        if res <=? 0 then Done (st1, ev1, res) else
        do (st2, res2, d2) <- load st1 (wrap 64 (a - (m - s))) 0;
        do ev2 <- zwrite ev1 (wrap 64 ((m - s) * es)) d2;
        do r <- int_add res res2; Done (st2, ev2, r)
      else do (st1, res, d1) <- load st a s; do ev1 <- zwrite buf 0 d1; Done (st1, ev1, res)).
  { clear Hs HW HwL HI. intros St load st buf. unfold load_last_events. cbv zeta. rewrite Etot.
    destruct (Z.ltb_spec T jump); [clear - H HT; lia|].
    rewrite (wrap64_small (jump + number)) by (clear - Hsum Hnum Hjump; lia).
    rewrite Ea. rewrite (wrap64_small (a + jump)) by (clear - Ha HM Hjump; lia).
    rewrite (wrap64_small (nth_last_event l (a + jump) + a)) by (clear - Ha HM Hjump S1; lia). rewrite I1, I2.
    rewrite (wrap64_small (m - nth_last_event l (a + jump))) by (clear - HM S1; lia). reflexivity. }
  clear Ea Etot I1 I2.
  set (s0 := nth_last_event l (a + jump)) in *. clearbody s0.
  pose proof (Z.mod_pos_bound K m ltac:(clear - HM; lia)) as HKm.
  assert (HK2 : (K + (m - K mod m)) mod m = 0).
  { clear - HM. pose proof (Z.div_mod K m ltac:(lia)). symmetry. apply Z.mod_unique with (q := K / m + 1); lia. }
  set (s := K mod m) in *. assert (Hsd : K mod m = s) by reflexivity. clearbody s.
  split.
  - intros Hle. exists s0.
    assert (Hne : s0 + a <= m).
    { clear - Hle Hs S1 Ha Hjump. destruct (Z.eq_dec (a + jump) 0) as [E0|E0]; [lia|]. rewrite Hs by lia. lia. }
    split.
    + rewrite HW. apply (slots_read v slots l); try assumption; try (clear - Ha HK Hne S1; lia).
      destruct (Z.eq_dec (a + jump) 0) as [E0|E0]; [left; clear - E0 Ha Hjump; lia|].
      right. rewrite Hs by (clear - E0 Ha Hjump; lia). exact Hsd.
    + intros St load st buf. rewrite Eload. cbv zeta. destruct (Z.ltb_spec m (s0 + a)); [clear - H Hne; lia|]. reflexivity.
  - intros Hlt. split; [clear - HKm; lia|]. assert (Hx : 0 < a + jump) by (clear - Hlt HKm Hjump; lia). specialize (Hs Hx).
    exists s. rewrite HW, (sub_split _ ev a (m - s) K) by (clear - Ha HK Hlt HKm; lia).
    assert (Hfl : length (firstn (Z.to_nat (m - s)) (skipn (Z.to_nat K) ev)) = Z.to_nat (m - s)).
    { apply sub_length; clear - Ha HK Hlt HKm; lia. }
    split; [|split].
    + rewrite firstn_app, Hfl, Nat.sub_diag, firstn_O, app_nil_r, firstn_firstn, Nat.min_id.
      apply (slots_read v slots l); try assumption; try (clear - Ha HK Hlt HKm; lia). now right.
    + rewrite skipn_app, Hfl, Nat.sub_diag, skipn_O. rewrite (skipn_all2 (firstn _ _)) by (rewrite Hfl; apply le_n). cbn [app].
      apply (slots_read v slots l); try assumption; try (clear - Ha HK Hlt HKm Hjump HM; lia). right. exact HK2.
    + intros St load st buf. rewrite Eload, Hs. cbv zeta. destruct (Z.ltb_spec m (s + a)); [|clear - H Hlt; lia].
      rewrite (wrap64_small (a - (m - s))) by (clear - HM Ha Hlt HKm Hjump; lia). reflexivity.
Qed.

Lemma firstn_concat_zlen : forall (w : list (list Z)) n, Forall (fun e => zlen e = es) w -> 0 <= n <= zlen w ->
  zlen (concat (firstn (Z.to_nat n) w)) = n * es.
Proof using.
  intros w n HF Hn. assert (HF' : Forall (fun e => zlen e = es) (firstn (Z.to_nat n) w)).
  { apply Forall_forall. intros e He. rewrite Forall_forall in HF. apply HF. eapply firstn_In_l; exact He. }
  rewrite concat_len by exact HF'. unfold zlen at 1. rewrite firstn_length. unfold zlen in Hn. 
  rewrite Nat.min_l by (clear - Hn; lia). clear - Hn. rewrite Z2Nat.id by lia. apply Z.mul_comm.
Qed.

Lemma some_l : forall slots l ev give buf number jump, inv m (slots, l) ev -> (forall k, 0 <= give k) ->
  sz number -> sz jump -> sz (zlen buf) -> number + jump < 2 ^ 64 ->
  zlen (window m ev number jump) * es <= zlen buf ->
  exists reqs, load_last_events (load_some slots give) [] l buf number jump =
    Done (reqs, fst (delivered m es ev number jump (give 0%nat) (give 1%nat) buf), snd (delivered m es ev number jump (give 0%nat) (give 1%nat) buf)).
Proof using Hm Hes.
  intros slots l ev give buf number jump HI Hg Hnum Hjump Hbuf Hsum Hroom.
  assert (HM : 0 < m <= 2147483647) by exact Hm.
  destruct (Z.leb_spec jump (Z.min m (zlen ev))) as [HT|HT].
  2:{ exists []. unfold load_last_events. rewrite (total_eq _ _ _ _ HI). destruct (Z.ltb_spec (Z.min m (zlen ev)) jump); [|lia].
      unfold delivered. rewrite window_beyond by lia. cbv zeta. change (zlen (@nil (list Z))) with 0.
      assert (Ht : 0 < to_the_end m ev 0 jump).
      { unfold to_the_end. pose proof (Z.mod_pos_bound (zlen ev - 0 - jump) m ltac:(lia)). lia. }
      destruct (Z.leb_spec 0 (to_the_end m ev 0 jump)); [|lia].
      rewrite Z.min_l by apply Hg. reflexivity. }
  destruct (plan_l m slots l ev number jump HI Hnum Hjump Hsum HT ltac:(lia)) as (HF & Hwm & H1 & H2).
  unfold sz in *. unfold delivered. set (w := window m ev number jump) in *. cbv zeta in *. clearbody w.
  set (t := to_the_end m ev (zlen w) jump) in *. clearbody t. pose proof (zlen_nonneg _ w) as Hw0.
  pose proof (Hg 0%nat) as G0. pose proof (Hg 1%nat) as G1.
  clear HI HT Hg Hnum Hjump Hsum.
  destruct (Z.leb_spec (zlen w) t) as [Hle|Hlt].
  - destruct (H1 Hle) as (s & Hz & E). exists [(zlen w, s)]. rewrite E. unfold load_some. rewrite Hz. cbn [obind length].
    pose proof (firstn_concat_zlen w (Z.min (zlen w) (give 0%nat)) HF ltac:(lia)) as HL.
    rewrite zwrite_0 by (rewrite HL; nia). cbn [obind fst snd app].
    set (d := concat _) in *. replace (length d) with (Z.to_nat (Z.min (zlen w) (give 0%nat) * es)); [reflexivity|].
    unfold zlen at 1 in HL. rewrite <- HL. apply Nat2Z.id.
  - destruct (H2 Hlt) as (Ht & s & Hz1 & Hz2 & E). rewrite E. unfold load_some at 1. rewrite Hz1. cbn [obind length].
    set (r1 := Z.min t (give 0%nat)) in *. assert (R1 : 0 <= r1 <= t) by (unfold r1; lia). clearbody r1.
    rewrite firstn_firstn, Nat.min_l by (clear - R1; lia).
    pose proof (firstn_concat_zlen w r1 HF ltac:(lia)) as HL1.
    assert (HP1 : 0 <= r1 * es) by (apply Z.mul_nonneg_nonneg; lia).
    assert (HP2 : r1 * es <= t * es) by (apply Z.mul_le_mono_nonneg_r; lia).
    assert (HP3 : t * es <= zlen w * es) by (apply Z.mul_le_mono_nonneg_r; lia).
    rewrite zwrite_0 by lia. cbn [obind].
    destruct (Z.eqb_spec r1 0) as [E0|E0].
    + rewrite E0. cbn [Z.leb Z.compare Z.to_nat firstn concat app length skipn fst snd]. eexists. reflexivity.
    + destruct (Z.leb_spec r1 0); [lia|]. unfold load_some. rewrite Hz2. cbn [obind length app].
      set (r2 := Z.min (zlen w - t) (give 1%nat)) in *. assert (R2 : 0 <= r2 <= zlen w - t) by (unfold r2; lia). clearbody r2.
      assert (HF2 : Forall (fun e => zlen e = es) (skipn (Z.to_nat t) w)).
      { apply Forall_forall. intros e He. rewrite Forall_forall in HF. apply HF.
        rewrite <- (firstn_skipn (Z.to_nat t) w). apply in_or_app. now right. }
      assert (Hsl : zlen (skipn (Z.to_nat t) w) = zlen w - t) by (unfold zlen in *; rewrite skipn_length; lia).
      pose proof (firstn_concat_zlen (skipn (Z.to_nat t) w) r2 HF2 ltac:(lia)) as HL2.
      set (d1 := concat (firstn (Z.to_nat r1) w)) in *. set (d2 := concat (firstn (Z.to_nat r2) (skipn (Z.to_nat t) w))) in *. clearbody d1 d2.
      assert (HP4 : (t + r2) * es <= zlen w * es) by (apply Z.mul_le_mono_nonneg_r; lia).
      rewrite Z.mul_add_distr_r in HP4.
      rewrite (wrap64_small (t * es)) by lia.
      assert (HPr : 0 <= r2 * es) by (apply Z.mul_nonneg_nonneg; lia).
      assert (Hd1 : length d1 = Z.to_nat (r1 * es)) by (unfold zlen in HL1; clear - HL1; lia).
      assert (Hd2 : length d2 = Z.to_nat (r2 * es)) by (unfold zlen in HL2; clear - HL2; lia).
      rewrite zwrite_ok; [|lia|].
      2:{ unfold zlen in *. rewrite app_length, skipn_length. clear - Hroom HL1 HL2 HP1 HP2 HP3 HP4. lia. }
      cbn [obind]. unfold int_add.
      replace ((r1 + r2 <? INT_MIN) || (INT_MAX <? r1 + r2)) with false by (unfold INT_MAX, INT_MIN in *; lia).
      cbn [obind fst snd]. eexists. f_equal. f_equal. f_equal.
      replace ((t - r1) * es) with (t * es - r1 * es) by ring. replace ((t + r2) * es) with (t * es + r2 * es) by ring.
      rewrite <- Hd1. rewrite firstn_app, skipn_app.
      rewrite firstn_all2 by (rewrite Hd1; clear - HP2; lia). rewrite <- app_assoc. f_equal. f_equal.
      * f_equal. rewrite Hd1. clear - HP1 HP2. lia.
      * f_equal. rewrite skipn_all2 by (rewrite Hd1; clear - HP2; lia). cbn [app].
        rewrite skipn_skipn_add. f_equal. rewrite Hd1, Hd2. clear - HP1 HP2 HPr. lia.
Qed.

Lemma contiguous_l : forall ev number jump g0 g1 buf, 0 <= g0 -> 0 <= g1 -> forall reqs : list (Z * Z),
  let w := window m ev number jump in let t := to_the_end m ev (zlen w) jump in
  zlen w <= t \/ t <= g0 \/ g0 = 0 \/ g1 = 0 ->
  let d := delivered m es ev number jump g0 g1 buf in
  exists r, Done (reqs, fst d, snd d) =
      Done (reqs, concat (firstn (Z.to_nat r) w) ++ skipn (Z.to_nat (r * es)) buf, r) /\ 0 <= r <= zlen w.
Proof using Hm Hes.
  intros ev number jump g0 g1 buf G0 G1 reqs w t Hc d. pose proof (zlen_nonneg _ w) as Hw.
  assert (Ht : 0 < t). { unfold t, to_the_end. pose proof (Z.mod_pos_bound (zlen ev - zlen w - jump) m ltac:(lia)). lia. }
  unfold d, delivered. cbv zeta. fold w. fold t. clearbody t w. clear d. destruct (Z.leb_spec (zlen w) t) as [Hle|Hlt].
  - exists (Z.min (zlen w) g0). split; [reflexivity|lia].
  - destruct (Z.eqb_spec (Z.min t g0) 0) as [E|E].
    + exists 0. split; [reflexivity|lia].
    + destruct Hc as [Hc|[Hc|[Hc|Hc]]]; try lia.
      * rewrite (Z.min_l t g0) by lia. exists (t + Z.min (zlen w - t) g1). split; [|lia].
        set (r2 := Z.min (zlen w - t) g1). assert (R2 : 0 <= r2 <= zlen w - t) by (unfold r2; lia). clearbody r2.
        cbn [fst snd]. rewrite Z.sub_diag, Z.mul_0_l. cbn [Z.to_nat firstn app].
        replace (Z.to_nat (t + r2)) with (Z.to_nat t + Z.to_nat r2)%nat by lia.
        assert (Ef : firstn (Z.to_nat t + Z.to_nat r2) w = firstn (Z.to_nat t) w ++ firstn (Z.to_nat r2) (skipn (Z.to_nat t) w)).
        { apply nth_error_ext. intros q. rewrite nth_error_app, !nth_error_firstn, nth_error_skipn, firstn_length.
          unfold zlen in *. rewrite Nat.min_l by lia.
          destruct (Nat.ltb_spec q (Z.to_nat t + Z.to_nat r2)), (Nat.ltb_spec q (Z.to_nat t)),
            (Nat.ltb_spec (q - Z.to_nat t) (Z.to_nat r2)); try lia; try reflexivity. f_equal; lia. }
        rewrite Ef, concat_app, <- app_assoc. reflexivity.
      * rewrite Hc. rewrite (Z.min_r (zlen w - t) 0) by lia. set (r1 := Z.min t g0) in *. assert (R1 : 0 <= r1 <= t) by (unfold r1; lia). clearbody r1.
        exists r1. split; [|lia]. cbn [fst snd Z.to_nat firstn concat app]. rewrite !Z.add_0_r.
        assert (H1 : 0 <= r1 * es) by (apply Z.mul_nonneg_nonneg; lia).
        assert (H2 : r1 * es <= t * es) by (apply Z.mul_le_mono_nonneg_r; lia).
        replace ((t - r1) * es) with (t * es - r1 * es) by ring.
        replace (Z.to_nat (t * es)) with (Z.to_nat (r1 * es) + Z.to_nat (t * es - r1 * es))%nat by (clear - H1 H2; lia).
        rewrite <- skipn_skipn_add, firstn_skipn. reflexivity.
Qed.

End E.
