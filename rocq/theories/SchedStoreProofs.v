From Verif Require Import Base BaseLemmas SerializerModel SerializerSpec SchedulerModel SchedulerSpec SchedulerProofs WearModel WearSpec WearSystem WearProps
  SchedStoreSpec SchedStoreSystem.

Lemma low_digits : forall n x, low_bytes n x = digits n x.
Proof. induction n; intros; cbn; [reflexivity|]. now rewrite IHn. Qed.

Lemma bytes_wire : forall e, entry_bytes e = wire e.
Proof. intros e. unfold entry_bytes, wire. now rewrite !low_digits. Qed.

Lemma wire_len : forall e, zlen (wire e) = 11.
Proof. intros e. rewrite <- bytes_wire. reflexivity. Qed.

Lemma zlen_app' : forall (a b : list Z), zlen (a ++ b) = zlen a + zlen b.
Proof. intros. unfold zlen. rewrite app_length. lia. Qed.

Lemma table_len : forall s, zlen (table_bytes s) = 11 * Z.of_nat (length s).
Proof. induction s as [|e s IH]; [reflexivity|]. cbn [table_bytes flat_map length]. rewrite zlen_app', bytes_wire, wire_len. fold (table_bytes s). rewrite IH. lia. Qed.

Lemma split11 : forall (m : list Z) k, zlen m = 11 + k -> 0 <= k -> exists a b, m = a ++ b /\ zlen a = 11 /\ zlen b = k.
Proof.
  intros m k H Hk. exists (firstn 11 m), (skipn 11 m). split; [now rewrite firstn_skipn|]. unfold zlen in *.
  rewrite firstn_length_le, skipn_length by lia. lia.
Qed.

Lemma pack_l : forall s pre mid, Forall entry_ok s -> zlen mid = 11 * Z.of_nat (length s) ->
  pack_table (pre ++ mid) (zlen pre) s = Done (pre ++ table_bytes s).
Proof.
  induction s as [|e s IH]; intros pre mid Hs Hm.
  - cbn [length] in Hm. destruct mid; [reflexivity|unfold zlen in Hm; cbn [length] in Hm; lia].
  - apply Forall_cons_iff in Hs. destruct Hs as [He Hs]. cbn [length] in Hm.
    destruct (split11 mid (11 * Z.of_nat (length s))) as (a & b & -> & La & Lb); [lia|lia|].
    cbn [pack_table]. rewrite (serialize_l pre a b e He La). cbn [obind].
    replace (zlen pre + 11) with (zlen (pre ++ wire e)) by (rewrite zlen_app', wire_len; lia).
    rewrite app_assoc, (IH (pre ++ wire e) b Hs Lb). change (table_bytes (e :: s)) with (wire e ++ table_bytes s). f_equal. symmetry. apply app_assoc.
Qed.

Lemma unpack_l : forall s pre, Forall entry_ok s -> unpack_table (pre ++ table_bytes s) (zlen pre) (length s) = Done (map restored s).
Proof.
  induction s as [|e s IH]; intros pre Hs; [reflexivity|]. apply Forall_cons_iff in Hs. destruct Hs as [He Hs].
  cbn [length unpack_table map]. change (table_bytes (e :: s)) with (entry_bytes e ++ table_bytes s). rewrite bytes_wire, (deserialize_l pre (table_bytes s) e He). cbn [obind].
  replace (zlen pre + 11) with (zlen (pre ++ wire e)) by (rewrite zlen_app', wire_len; lia).
  rewrite app_assoc, IH by exact Hs. reflexivity.
Qed.

Lemma exec_l : forall N n st o, store_op_ok n o -> store_exec N st o = wexec N st (as_write o).
Proof.
  intros N n [d w] [buf s| |buf s g] H; cbn [store_op_ok store_exec wexec as_write] in *.
  - destruct H as (L & Hs & Hb). rewrite <- L in Hb. pose proof (pack_l s [] buf Hs Hb) as P. cbn [app] in P. change (zlen (@nil Z)) with 0 in P. now rewrite P.
  - reflexivity.
  - destruct H as (L & Hs & Hb & _). rewrite <- L in Hb. pose proof (pack_l s [] buf Hs Hb) as P. cbn [app] in P. change (zlen (@nil Z)) with 0 in P. now rewrite P.
Qed.

Lemma run_l : forall N n h st, Forall (store_op_ok n) h -> store_run N st h = wrun N st (map as_write h).
Proof.
  induction h as [|o h IH]; intros st H; [reflexivity|]. apply Forall_cons_iff in H. destruct H as [Ho H].
  cbn [store_run map wrun]. rewrite (exec_l N n st o Ho). destruct (wexec N st (as_write o)); cbn [obind]; auto.
Qed.

Lemma wstate_last : forall d0 h1 x h2, Forall (fun o => is_write o -> False) h2 -> fst (wstate d0 (h1 ++ WWrite x :: h2)) = x.
Proof.
  intros d0 h1 x h2 H. unfold wstate. rewrite fold_left_app. cbn [fold_left]. set (s := fold_left wstep h1 (d0, 0)). clearbody s.
  assert (E : forall l s, Forall (fun o => is_write o -> False) l -> fold_left wstep l s = s).
  { clear. induction l as [|o l IH]; intros s H; [reflexivity|]. apply Forall_cons_iff in H. destruct H as [Ho H]. cbn [fold_left].
    destruct o; cbn in *; auto; exfalso; auto. }
  rewrite E by exact H. cbn [wstep]. unfold same. destruct (list_eq_dec Z.eq_dec x (fst s)) as [->|]; reflexivity.
Qed.

Lemma store_l : forall n N c d h1 buf s h2, (0 < n)%nat -> 11 * Z.of_nat n < 2 ^ 64 -> 0 < N < 256 -> 0 <= c < 256 ->
  dev_ok N (11 * Z.of_nat n) d -> erased c d ->
  let h := h1 ++ Save buf s :: h2 in
  Forall (store_op_ok n) h -> Forall (fun o => is_save o = false) h2 ->
  restarts_ok N (nth 0 (blocks d) [], 0) (map as_write h) ->
  store_load n N d h = Done (0, map restored s).
Proof.
  intros n N c d h1 buf s h2 Hn HB HN Hc Hd Her h Hok Hsv Hr.
  assert (Hw : Forall (wop_ok (11 * Z.of_nat n)) (map as_write h)).
  { apply Forall_forall. intros o Ho. apply in_map_iff in Ho. destruct Ho as (o' & <- & Ho'). rewrite Forall_forall in Hok.
    specialize (Hok o' Ho'). destruct o'; cbn [store_op_ok as_write wop_ok] in *.
    - destruct Hok as (<- & _). apply table_len.
    - exact Logic.I.
    - destruct Hok as (<- & _ & _ & Hg). split; [apply table_len|exact Hg]. }
  pose proof (wear_restart_partial N (11 * Z.of_nat n) HN ltac:(lia) c d (map as_write h) Hc Hd Her Hw) as R. cbv zeta in R.
  specialize (R Hr). unfold wread in R. unfold store_load. destruct (wstart N d) as [st| | |]; try discriminate. cbn [obind] in *.
  rewrite (run_l N n h st Hok). destruct (wrun N st (map as_write h)) as [[d' w]| | |]; try discriminate. cbn [obind] in *.
  rewrite R. cbn [obind].
  assert (E : fst (wstate (nth 0 (blocks d) []) (map as_write h)) = table_bytes s).
  { unfold h. rewrite map_app. cbn [map as_write]. apply wstate_last. apply Forall_forall. intros o Ho Hwr.
    apply in_map_iff in Ho. destruct Ho as (o' & <- & Ho'). rewrite Forall_forall in Hsv. specialize (Hsv o' Ho').
    destruct o'; cbn in *; try discriminate; contradiction. }
  rewrite E. assert (Hs : length s = n /\ Forall entry_ok s).
  { rewrite Forall_forall in Hok. specialize (Hok (Save buf s)). cbn in Hok. destruct Hok as (A & B & _); [unfold h; apply in_or_app; right; left; reflexivity|]. auto. }
  destruct Hs as [<- Hs]. pose proof (unpack_l s [] Hs) as U. cbn [app] in U. change (zlen (@nil Z)) with 0 in U. rewrite U. reflexivity.
Qed.
