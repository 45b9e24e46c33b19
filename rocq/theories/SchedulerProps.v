(** Properties C33-C40: the weekly scheduler.  A table is a list of entries. *)
From Coq Require Import ZifyBool.
From Verif Require Import Base BaseLemmas SerializerModel SerializerSpec SerializerSystem SerializerProofs.
From Verif Require Import SchedulerModel SchedulerSpec SchedulerProofs.

(** C33: the selection, every table and time. *)
Theorem scheduler_selects : forall s t, tm_ok t -> Forall entry_ok s -> zlen s <= INT_MAX ->
  let id := scheduler_get_active_entry_number s t in
  (id = -1 /\ forall e, In e s -> eligible e t = false) \/
  (0 <= id < zlen s /\ exists e, nth_error s (Z.to_nat id) = Some e /\ eligible e t = true /\
    forall e', In e' s -> eligible e' t = true -> week_total e <= week_total e').
Proof. exact scheduler_selects_l. Qed.
Print Assumptions scheduler_selects.

Theorem scheduler_active : forall s t, tm_ok t -> Forall entry_ok s -> zlen s <= INT_MAX ->
  scheduler_is_active s t = b2z (existsb (fun e => eligible e t) s) /\
  ((scheduler_get_active_entry_number s t = -1 /\ scheduler_current_value s t = Done (0, None)) \/
   exists e, nth_error s (Z.to_nat (scheduler_get_active_entry_number s t)) = Some e /\
     scheduler_current_value s t = Done (1, Some (value e))).
Proof. intros s t Ht Hs Hl. split; [now apply is_active_l|now apply current_value_l]. Qed.
Print Assumptions scheduler_active.

(** Monday 10:00:00. *)
Definition monday10 : tm := mkTm 1 10 0 0.
Definition sample : list entry :=
  [mkEntry 1 127 0 86400 7; mkEntry 1 2 32400 39600 9; mkEntry 0 2 35000 37000 1; mkEntry 1 2 28800 36001 20].

Lemma monday10_ok : tm_ok monday10.
Proof. unfold tm_ok, clock, DAY. cbn. lia. Qed.

Lemma sample_ok : Forall entry_ok sample.
Proof. unfold sample. repeat constructor; cbn; try lia; unfold INT_MIN, INT_MAX; lia. Qed.

Example scheduler_selects_example :
  tm_ok monday10 /\ Forall entry_ok sample /\ zlen sample <= INT_MAX /\
  scheduler_get_active_entry_number sample monday10 = 1 /\ map (fun e => eligible e monday10) sample = [true; true; false; true] /\
  map week_total sample = [604800; 7200; 2000; 7201] /\
  scheduler_get_active_entry_number [mkEntry 1 2 0 36000 0] monday10 = -1.
Proof. split; [exact monday10_ok|]. split; [exact sample_ok|]. split; [vm_compute; discriminate|]. vm_compute. repeat split. Qed.

(** C34 is false: the largest value so far is kept in eight bits, so 300 counts as 44. *)
Theorem scheduler_tie_refuted : exists s t e e' j, tm_ok t /\ Forall entry_ok s /\
  nth_error s (Z.to_nat (scheduler_get_active_entry_number s t)) = Some e /\
  nth_error s j = Some e' /\ eligible e' t = true /\ week_total e' = week_total e /\ value e < value e'.
Proof.
  exists [mkEntry 1 2 0 86400 300; mkEntry 1 2 0 86400 100], monday10.
  exists (mkEntry 1 2 0 86400 100), (mkEntry 1 2 0 86400 300), 0%nat.
  split; [exact monday10_ok|]. split; [repeat constructor; cbn; try lia; unfold INT_MIN, INT_MAX; lia|].
  vm_compute. repeat split.
Qed.
Print Assumptions scheduler_tie_refuted.

(** C34 for values that fit in eight bits. *)
Theorem scheduler_tie_partial : forall s t, tm_ok t -> Forall entry_ok s -> zlen s <= INT_MAX ->
  (forall e, In e s -> eligible e t = true -> 0 <= value e < 256) ->
  let id := scheduler_get_active_entry_number s t in
  forall e, 0 <= id -> nth_error s (Z.to_nat id) = Some e ->
  forall j e', 0 <= j -> nth_error s (Z.to_nat j) = Some e' -> eligible e' t = true -> week_total e' = week_total e ->
    value e' < value e \/ (value e' = value e /\ id <= j).
Proof. exact scheduler_tie_l. Qed.
Print Assumptions scheduler_tie_partial.

Example scheduler_tie_example :
  let s := [mkEntry 1 2 0 86400 30; mkEntry 1 2 0 86400 255; mkEntry 1 2 0 86400 255] in
  tm_ok monday10 /\ Forall entry_ok s /\ forallb (fun e => eligible e monday10) s = true /\
  scheduler_get_active_entry_number s monday10 = 1.
Proof.
  split; [exact monday10_ok|]. split; [repeat constructor; cbn; try lia; unfold INT_MIN, INT_MAX; lia|]. vm_compute. repeat split.
Qed.

(** C131: the selection exactly, whatever the values. *)
Theorem scheduler_exact : forall s t, tm_ok t -> Forall entry_ok s -> zlen s <= INT_MAX ->
  scheduler_get_active_entry_number s t = match contenders s t with [] => -1 | x :: l => fst (survivor x l) end.
Proof. exact scheduler_exact_l. Qed.
Print Assumptions scheduler_exact.

Example scheduler_exact_example :
  let e v := mkEntry 1 2 0 86400 v in
  let s := [mkEntry 1 127 0 86400 9; e 300; e (-1); e 45; mkEntry 0 2 0 86400 99; e 40; e (-300)] in
  tm_ok monday10 /\ Forall entry_ok s /\ contenders s monday10 = [(1, e 300); (2, e (-1)); (3, e 45); (5, e 40); (6, e (-300))] /\
  scheduler_get_active_entry_number s monday10 = 3 /\
  scheduler_get_active_entry_number [e (-1); e 254] monday10 = 0.
Proof.
  split; [exact monday10_ok|]. split; [repeat constructor; cbn; try lia; unfold INT_MIN, INT_MAX; lia|]. vm_compute. repeat split.
Qed.

(** C35 is false for entries that run past midnight: one of Monday 23:00-25:00 is not active on
    Tuesday at 00:30, and is active on Monday at 00:30. *)
Theorem scheduler_interval_refuted :
  (exists e t, entry_ok e /\ tm_ok t /\ enabled e <> 0 /\ start_second e < DAY /\ end_second e <= 2 * DAY /\
     running e (tm_wday t) (clock t) = true /\ scheduler_is_active [e] t = 0) /\
  (exists e t, entry_ok e /\ tm_ok t /\ enabled e <> 0 /\ start_second e < DAY /\ end_second e <= 2 * DAY /\
     running e (tm_wday t) (clock t) = false /\ scheduler_is_active [e] t = 1).
Proof.
  split; exists (mkEntry 1 2 82800 90000 0).
  - exists (mkTm 2 0 30 0). split; [unfold entry_ok, INT_MIN, INT_MAX; cbn; lia|]. split; [unfold tm_ok, clock, DAY; cbn; lia|].
    vm_compute. repeat split; discriminate.
  - exists (mkTm 1 0 30 0). split; [unfold entry_ok, INT_MIN, INT_MAX; cbn; lia|]. split; [unfold tm_ok, clock, DAY; cbn; lia|].
    vm_compute. repeat split; discriminate.
Qed.
Print Assumptions scheduler_interval_refuted.

(** C35 for same-day entries, and for later ends if the flags of today and yesterday agree. *)
Theorem scheduler_interval_partial : forall e t, entry_ok e -> tm_ok t ->
  (end_second e <= DAY \/
   (start_second e <= DAY /\ on_day e (tm_wday t) = on_day e (yesterday (tm_wday t)))) ->
  scheduler_is_active [e] t = b2z (negb (enabled e =? 0) && running e (tm_wday t) (clock t)).
Proof.
  intros e t He Ht Hc. rewrite is_active_l; [|exact Ht|repeat constructor; apply He|vm_compute; discriminate].
  cbn [existsb]. rewrite orb_false_r. f_equal. unfold eligible. f_equal.
  pose proof (clock_range t Ht). destruct Hc as [Hc|[Hc1 Hc2]]; [now apply active_running_same|now apply active_running_over].
Qed.
Print Assumptions scheduler_interval_partial.

(** C35: same-day entries in terms of the interval itself. *)
Theorem scheduler_same_day_partial : forall e t, entry_ok e -> tm_ok t -> end_second e <= DAY -> enabled e <> 0 ->
  scheduler_is_active [e] t = 1 <->
  Z.testbit (days e) (tm_wday t) = true /\ start_second e <= clock t < end_second e.
Proof.
  intros e t He Ht Hd Hen. rewrite scheduler_interval_partial by auto. pose proof (clock_range t Ht).
  unfold running, covers, on_day, DAY in *.
  destruct (Z.eqb_spec (enabled e) 0); [contradiction|]. cbn [negb andb].
  assert (Hb : forall b, b2z b = 1 <-> b = true) by (intros []; cbn; intuition discriminate).
  rewrite Hb. destruct (Z.testbit (days e) (tm_wday t)), (Z.testbit (days e) (yesterday (tm_wday t))); cbn [andb orb];
    intuition (try discriminate; try lia).
Qed.
Print Assumptions scheduler_same_day_partial.

Example scheduler_interval_example :
  (* every day 23:00-25:00, Tuesday 00:30 *)
  let e := mkEntry 1 127 82800 90000 0 in let t := mkTm 2 0 30 0 in
  entry_ok e /\ tm_ok t /\ start_second e <= DAY /\ on_day e (tm_wday t) = on_day e (yesterday (tm_wday t)) /\
  scheduler_is_active [e] t = 1 /\ scheduler_is_active [e] (mkTm 2 1 0 0) = 0.
Proof.
  cbv zeta. split; [unfold entry_ok, INT_MIN, INT_MAX; cbn; lia|]. split; [unfold tm_ok, clock, DAY; cbn; lia|]. vm_compute. repeat split. discriminate.
Qed.

(** C36 is false after midnight: an entry until 25:00 reports 24 h 30 min at 00:30. *)
Theorem scheduler_remaining_refuted : exists s t e r, tm_ok t /\ Forall entry_ok s /\ nth_error s 0 = Some e /\
  scheduler_get_schedule_remaining_duration s 0 t = r /\ running e (tm_wday t) (clock t) = true /\
  exists k, 0 <= k < r /\ running e (tm_wday t) (clock t + k) = false.
Proof.
  exists [mkEntry 1 127 82800 90000 0], (mkTm 2 0 30 0), (mkEntry 1 127 82800 90000 0), 88200.
  split; [unfold tm_ok, clock, DAY; cbn; lia|]. split; [repeat constructor; cbn; try lia; unfold INT_MIN, INT_MAX; lia|].
  split; [reflexivity|]. split; [reflexivity|]. split; [reflexivity|]. exists 1800. split; [lia|reflexivity].
Qed.
Print Assumptions scheduler_remaining_refuted.

(** C36 before midnight: an entry that covers the present second of today is reported to last
    exactly as many seconds as its interval does; one that is not active, 0. *)
Theorem scheduler_remaining_partial : forall s i t e, tm_ok t -> entry_ok e -> 0 <= i -> nth_error s (Z.to_nat i) = Some e ->
  let r := scheduler_get_schedule_remaining_duration s i t in
  (active_today e (tm_wday t) (clock t) = false -> r = 0) /\
  (on_day e (tm_wday t) = true -> covers e (clock t) = true ->
   0 < r /\ (forall k, 0 <= k < r -> covers e (clock t + k) = true) /\ covers e (clock t + r) = false).
Proof.
  intros s i t e Ht He Hi Hn r. unfold r. rewrite (remaining_l s i t e) by assumption. split.
  - intros ->. reflexivity.
  - intros Hd Hc. unfold active_today. rewrite Hd, Hc. cbn [andb orb].
    pose proof (clock_range t Ht). destruct He as (_ & _ & _ & He & _). change (2 ^ 32) with 4294967296 in He.
    unfold covers, DAY in *. rewrite wrap64_small by lia. split; [lia|]. split; [intros k Hk|]; lia.
Qed.
Print Assumptions scheduler_remaining_partial.

(** C36 exactly: the end minus the time of day, 24 hours too long after midnight. *)
Theorem scheduler_remaining_exact_partial : forall s i t e, tm_ok t -> entry_ok e -> 0 <= i -> nth_error s (Z.to_nat i) = Some e ->
  active_today e (tm_wday t) (clock t) = true ->
  scheduler_get_schedule_remaining_duration s i t = end_second e - clock t.
Proof.
  intros s i t e Ht He Hi Hn Ha. rewrite (remaining_l s i t e), Ha by assumption. unfold active_today, covers, DAY in Ha.
  pose proof (clock_range t Ht). destruct He as (_ & _ & _ & He & _). change (2 ^ 32) with 4294967296 in He.
  unfold DAY in *. apply wrap64_small. lia.
Qed.
Print Assumptions scheduler_remaining_exact_partial.

(** C36: the selected entry; the index out of range gives 0. *)
Theorem scheduler_current_remaining : forall s t, tm_ok t -> Forall entry_ok s -> zlen s <= INT_MAX ->
  scheduler_get_current_remaining_duration s t =
    (if scheduler_get_active_entry_number s t =? -1 then 0
     else scheduler_get_schedule_remaining_duration s (scheduler_get_active_entry_number s t) t) /\
  forall i, zlen s <= i -> scheduler_get_schedule_remaining_duration s i t = 0.
Proof.
  intros s t Ht Hs Hl. split; [now apply current_remaining_l|]. intros i Hi.
  unfold scheduler_get_schedule_remaining_duration, scheduler_get_entry. now replace (zlen s <=? i) with true by lia.
Qed.
Print Assumptions scheduler_current_remaining.

(** C36: for tables of same-day entries everything is exact. *)
Theorem scheduler_same_day_remaining_partial : forall s t e, tm_ok t -> Forall entry_ok s -> zlen s <= INT_MAX ->
  Forall (fun e => end_second e <= DAY) s ->
  let id := scheduler_get_active_entry_number s t in
  let r := scheduler_get_current_remaining_duration s t in
  (id = -1 -> r = 0) /\
  (0 <= id -> nth_error s (Z.to_nat id) = Some e -> 
   clock t < end_second e /\ r = end_second e - clock t).
Proof.
  intros s t e Ht Hs Hl Hd id r. unfold r. rewrite current_remaining_l by assumption. fold id. split.
  - intros ->. reflexivity.
  - intros Hid Hn. replace (id =? -1) with false by lia.
    assert (He : entry_ok e) by (rewrite Forall_forall in Hs; apply Hs; now apply nth_error_In in Hn).
    assert (Hde : end_second e <= DAY) by (rewrite Forall_forall in Hd; apply Hd; now apply nth_error_In in Hn).
    rewrite (remaining_l s id t e) by assumption.
    destruct (scheduler_selects_l s t Ht Hs Hl) as [[H1 _]|[_ (e' & H2 & H3 & _)]]; [fold id in H1; lia|fold id in H2].
    assert (e' = e) by congruence. subst e'. unfold eligible in H3. apply andb_prop in H3 as [_ H3]. rewrite H3.
    pose proof (clock_range t Ht). unfold active_today, covers, DAY in *.
    apply andb_prop in H3 as [_ H3]. assert (clock t < end_second e) by lia. split; [assumption|].
    apply wrap64_small. lia.
Qed.
Print Assumptions scheduler_same_day_remaining_partial.

Example scheduler_remaining_example :
  tm_ok monday10 /\ Forall entry_ok sample /\ Forall (fun e => end_second e <= DAY) sample /\
  scheduler_get_current_remaining_duration sample monday10 = 3600 /\
  scheduler_get_schedule_remaining_duration sample 0 monday10 = 50400.
Proof.
  split; [exact monday10_ok|]. split; [exact sample_ok|]. split; [repeat constructor; vm_compute; discriminate|]. vm_compute. repeat split.
Qed.

(** C37 is false: disabled entries appear in the map. *)
Theorem scheduler_map_refuted : exists s t e, tm_ok t /\ Forall entry_ok s /\ nth_error s 0 = Some e /\ enabled e = 0 /\
  Z.testbit (scheduler_get_active_entries_map s t) 0 = true.
Proof.
  exists [mkEntry 0 127 0 86400 7], monday10, (mkEntry 0 127 0 86400 7). split; [exact monday10_ok|].
  split; [repeat constructor; cbn; try lia; unfold INT_MIN, INT_MAX; lia|]. vm_compute. repeat split.
Qed.
Print Assumptions scheduler_map_refuted.

(** C37 but for the enabled flag: bit [i] tells whether entry [i] is active; the other bits are 0.  Of a longer table
    the first 16 entries appear. *)
Theorem scheduler_map_partial : forall s t, tm_ok t -> Forall entry_ok s -> zlen s <= 31 ->
  let m := scheduler_get_active_entries_map s t in
  0 <= m < 65536 /\
  (forall i e, 0 <= i < 16 -> nth_error s (Z.to_nat i) = Some e ->
    Z.testbit m i = active_today e (tm_wday t) (clock t) /\ (enabled e <> 0 -> Z.testbit m i = eligible e t)) /\
  (forall i, zlen s <= i \/ 16 <= i -> Z.testbit m i = false).
Proof.
  intros s t Ht Hs Hl m. assert (Hm : 0 <= m < 65536) by (apply map_loop_range; lia). split; [exact Hm|]. split.
  - intros i e Hi Hn. unfold m.
    assert (i < zlen s). { unfold zlen. assert (Z.to_nat i < length s)%nat by (apply nth_error_Some; congruence). lia. }
    rewrite map_bit by (try assumption; lia). rewrite (nth_error_nth _ _ _ Hn). split; [reflexivity|].
    intros Hen. unfold eligible. destruct (Z.eqb_spec (enabled e) 0); [contradiction|]. reflexivity.
  - intros i Hi. pose proof (zlen_nonneg _ s). destruct (Z.ltb_spec i 16); [apply map_high; lia|].
    pose proof (zlen_nonneg _ s). destruct (Z.eq_dec m 0) as [->|]; [apply Z.bits_0|].
    apply Z.bits_above_log2; [lia|]. assert (Z.log2 m < 16); [|lia]. apply Z.log2_lt_pow2; [lia|]. change (2 ^ 16) with 65536. lia.
Qed.
Print Assumptions scheduler_map_partial.

Example scheduler_map_example : scheduler_get_active_entries_map sample monday10 = 15.
Proof. reflexivity. Qed.

(** C38 is false: an entry that ends when the other starts is counted, and the overlap of an entry
    that runs past midnight with one of the next morning is not. *)
Theorem scheduler_overlap_refuted :
  (exists o e, entry_ok o /\ entry_ok e /\ enabled o <> 0 /\ same_day o /\ same_day e /\ ~ overlapping o e /\
     scheduler_are_there_overlapping_entries [o] e = 1) /\
  (exists o e wday s, entry_ok o /\ entry_ok e /\ enabled o <> 0 /\ 0 <= wday < 7 /\ 0 <= s < DAY /\
     running o wday s = true /\ running e wday s = true /\ scheduler_are_there_overlapping_entries [o] e = 0).
Proof.
  split.
  - exists (mkEntry 1 2 0 36000 0), (mkEntry 1 2 36000 72000 0).
    split; [unfold entry_ok, INT_MIN, INT_MAX; cbn; lia|]. split; [unfold entry_ok, INT_MIN, INT_MAX; cbn; lia|].
    split; [discriminate|]. split; [unfold same_day; cbn; unfold DAY; lia|]. split; [unfold same_day; cbn; unfold DAY; lia|].
    split; [|reflexivity]. intros (w & s & _ & _ & _ & _ & H1 & H2). unfold covers in *. cbn [start_second end_second] in *. lia.
  - exists (mkEntry 1 2 82800 90000 0), (mkEntry 1 4 0 36000 0), 2, 1800.
    split; [unfold entry_ok, INT_MIN, INT_MAX; cbn; lia|]. split; [unfold entry_ok, INT_MIN, INT_MAX; cbn; lia|].
    split; [discriminate|]. split; [lia|]. split; [unfold DAY; lia|]. vm_compute. repeat split.
Qed.
Print Assumptions scheduler_overlap_refuted.

(** C38 for same-day entries that do not touch end to start: the count is exact, for any decision
    [f] of "enabled and overlapping". *)
Theorem scheduler_overlap_partial : forall s e (f : entry -> bool), Forall entry_ok s -> entry_ok e -> zlen s < 2 ^ 64 ->
  same_day e -> days e < 128 ->
  Forall (fun o => enabled o <> 0 -> same_day o /\ days o < 128 /\
                   start_second o <> end_second e /\ start_second e <> end_second o) s ->
  (forall o, f o = true <-> enabled o <> 0 /\ overlapping o e) ->
  scheduler_are_there_overlapping_entries s e = zlen (filter f s).
Proof.
  intros s e f Hs He Hl Hde Hdd Ho Hf. rewrite overlap_count by assumption. f_equal. apply filter_ext_in.
  intros o Hin. rewrite Forall_forall in Hs, Ho. specialize (Hs o Hin). specialize (Ho o Hin).
  apply eq_true_iff_eq. rewrite Hf. destruct (Z.eq_dec (enabled o) 0) as [E|E].
  - unfold touching. rewrite E. cbn. split; [discriminate|]. intros [H _]. contradiction.
  - destruct (Ho E) as (H1 & H2 & H3 & H4). now apply touching_overlapping.
Qed.
Print Assumptions scheduler_overlap_partial.

(** C38: no overlap of same-day entries is missed. *)
Theorem scheduler_overlap_found_partial : forall s e, Forall entry_ok s -> entry_ok e -> zlen s < 2 ^ 64 -> same_day e ->
  scheduler_are_there_overlapping_entries s e = 0 ->
  forall o, In o s -> enabled o <> 0 -> same_day o -> ~ overlapping o e.
Proof.
  intros s e Hs He Hl Hde H0 o Hin Hen Hdo Hov. rewrite overlap_count in H0 by assumption.
  rewrite Forall_forall in Hs. assert (Hx : In o (filter (fun o => touching o e) s)).
  { apply filter_In. split; [exact Hin|]. apply overlap_sound; auto. }
  destruct (filter (fun o => touching o e) s); [destruct Hx|unfold zlen in H0; cbn [length] in H0; lia].
Qed.
Print Assumptions scheduler_overlap_found_partial.

(** C38 exactly, for an entry that does not end before it starts: counted are the enabled ones with a
    common day that have a point in common with it, both ends included. Of a stored entry that ends
    before it starts only those two points count. *)
Theorem scheduler_overlap_closed_partial : forall s e (f : entry -> bool), Forall entry_ok s -> entry_ok e -> zlen s < 2 ^ 64 ->
  start_second e <= end_second e ->
  (forall o, f o = true <-> enabled o <> 0 /\ (exists w, on_day o w = true /\ on_day e w = true) /\
                            exists x, start_second e <= x <= end_second e /\
                                      (start_second o <= x <= end_second o \/
                                       end_second o < start_second o /\ (x = start_second o \/ x = end_second o))) ->
  scheduler_are_there_overlapping_entries s e = zlen (filter f s).
Proof.
  intros s e f Hs He Hl Hse Hf. rewrite overlap_count by assumption. f_equal. apply filter_ext_in.
  intros o Hin. rewrite Forall_forall in Hs. specialize (Hs o Hin).
  apply eq_true_iff_eq. rewrite Hf. unfold touching, on_day, INCLUDED.
  destruct Hs as (_ & Hd & _), He as (_ & Hd' & _).
  assert (Hb : 0 < Z.land (days o) (days e) <-> exists w, Z.testbit (days o) w = true /\ Z.testbit (days e) w = true).
  { assert (Hn : 0 <= Z.land (days o) (days e)) by (apply Z.land_nonneg; lia). split.
    - intros H. exists (Z.log2 (Z.land (days o) (days e))). apply andb_prop. rewrite <- Z.land_spec. now apply Z.bit_log2.
    - intros (w & H1 & H2). destruct (Z.eq_dec (Z.land (days o) (days e)) 0) as [E|]; [|lia].
      assert (Hx : Z.testbit (Z.land (days o) (days e)) w = true) by (rewrite Z.land_spec, H1, H2; reflexivity).
      rewrite E, Z.bits_0 in Hx. discriminate. }
  rewrite !andb_true_iff, Z.ltb_lt, Hb, negb_true_iff, Z.eqb_neq. clear - Hse. split.
  - intros [[H1 H2] H3]. split; [exact H1|]. split; [exact H2|].
    rewrite !orb_true_iff, !andb_true_iff, !Z.leb_le in H3. destruct H3 as [[[H|H]|H]|H].
    + exists (start_second e). lia.
    + exists (end_second e). lia.
    + exists (start_second o). lia.
    + exists (end_second o). lia.
  - intros (H1 & H2 & x & Hx & H3). split; [split; [exact H1|exact H2]|]. lia.
Qed.
Print Assumptions scheduler_overlap_closed_partial.

(** C38 exactly, for an entry that ends before it starts: only entries that do not are counted, and
    those only if they contain its start or its end. An overlap strictly within both is not seen. *)
Theorem scheduler_overlap_inverted_partial : forall s e (f : entry -> bool), Forall entry_ok s -> entry_ok e -> zlen s < 2 ^ 64 ->
  end_second e < start_second e ->
  (forall o, f o = true <-> enabled o <> 0 /\ (exists w, on_day o w = true /\ on_day e w = true) /\
                            (start_second o <= start_second e <= end_second o \/
                             start_second o <= end_second e <= end_second o)) ->
  scheduler_are_there_overlapping_entries s e = zlen (filter f s).
Proof.
  intros s e f Hs He Hl Hse Hf. rewrite overlap_count by assumption. f_equal. apply filter_ext_in.
  intros o Hin. rewrite Forall_forall in Hs. specialize (Hs o Hin).
  apply eq_true_iff_eq. rewrite Hf. unfold touching, on_day, INCLUDED.
  destruct Hs as (_ & Hd & _), He as (_ & Hd' & _).
  assert (Hb : 0 < Z.land (days o) (days e) <-> exists w, Z.testbit (days o) w = true /\ Z.testbit (days e) w = true).
  { assert (Hn : 0 <= Z.land (days o) (days e)) by (apply Z.land_nonneg; lia). split.
    - intros H. exists (Z.log2 (Z.land (days o) (days e))). apply andb_prop. rewrite <- Z.land_spec. now apply Z.bit_log2.
    - intros (w & H1 & H2). destruct (Z.eq_dec (Z.land (days o) (days e)) 0) as [E|]; [|lia].
      assert (Hx : Z.testbit (Z.land (days o) (days e)) w = true) by (rewrite Z.land_spec, H1, H2; reflexivity).
      rewrite E, Z.bits_0 in Hx. discriminate. }
  rewrite !andb_true_iff, Z.ltb_lt, Hb, negb_true_iff, Z.eqb_neq. clear - Hse. split.
  - intros [[H1 H2] H3]. split; [exact H1|]. split; [exact H2|]. lia.
  - intros (H1 & H2 & H3). split; [split; [exact H1|exact H2]|]. lia.
Qed.
Print Assumptions scheduler_overlap_inverted_partial.

Example scheduler_overlap_example :
  let e := mkEntry 1 2 36000 40000 0 in
  Forall entry_ok sample /\ entry_ok e /\ same_day e /\ days e < 128 /\
  Forall (fun o => enabled o <> 0 -> same_day o /\ days o < 128 /\
                   start_second o <> end_second e /\ start_second e <> end_second o) sample /\
  scheduler_are_there_overlapping_entries sample e = 3.
Proof.
  cbv zeta. split; [exact sample_ok|]. split; [unfold entry_ok, INT_MIN, INT_MAX; cbn; lia|].
  split; [unfold same_day; cbn; unfold DAY; lia|]. split; [reflexivity|]. split; [|reflexivity].
  unfold sample, same_day, DAY. repeat constructor; cbn; try lia.
Qed.

Example scheduler_overlap_inverted_example :
  let e := mkEntry 1 127 80000 3600 0 in
  let night := mkEntry 1 127 79000 81000 0 in let noon := mkEntry 1 127 40000 50000 0 in
  let late := mkEntry 1 127 82000 83000 0 in
  entry_ok e /\ Forall entry_ok [night; noon; late; e] /\ end_second e < start_second e /\
  scheduler_are_there_overlapping_entries [night; noon; late; e] e = 1 /\
  scheduler_are_there_overlapping_entries [e] night = 1.
Proof.
  cbv zeta. split; [unfold entry_ok, INT_MIN, INT_MAX; cbn; lia|].
  split; [repeat constructor; cbn; unfold INT_MIN, INT_MAX; lia|]. split; [cbn; lia|]. split; reflexivity.
Qed.

(** C39 is false: only the low byte of the value is stored. *)
Theorem scheduler_serialize_refuted : exists e b e', entry_ok e /\
  scheduler_entry_serialize (repeat 0 11) 0 e = Done (b, 11) /\ scheduler_entry_deserialize b 0 = Done (e', 11) /\ e' <> e.
Proof.
  exists (mkEntry 1 127 0 86400 300). eexists. eexists. split; [unfold entry_ok, INT_MIN, INT_MAX; cbn; lia|].
  split; [vm_compute; reflexivity|]. split; [vm_compute; reflexivity|]. discriminate.
Qed.
Print Assumptions scheduler_serialize_refuted.

(** C39: everything but the upper bytes of the value survives, and nothing but the eleven bytes is
    touched. *)
Theorem scheduler_serialize_partial : forall pre mid post e, entry_ok e -> zlen mid = 11 ->
  exists w, zlen w = 11 /\ Forall is_byte w /\
    scheduler_entry_serialize (pre ++ mid ++ post) (zlen pre) e = Done (pre ++ w ++ post, 11) /\
    forall pre' post', exists e', scheduler_entry_deserialize (pre' ++ w ++ post') (zlen pre') = Done (e', 11) /\
      enabled e' = enabled e /\ days e' = days e /\ start_second e' = start_second e /\ end_second e' = end_second e /\
      value e' = value e mod 256 /\ (0 <= value e < 256 -> e' = e).
Proof.
  intros pre mid post e He Hm. exists (wire e).
  split. { unfold wire, zlen. rewrite !app_length, !digits_length. reflexivity. }
  split. { destruct He as (E1 & E2 & _). unfold wire.
    apply Forall_app. split; [constructor; [exact E1|constructor; [exact E2|constructor]]|].
    apply Forall_app. split; [apply digits_bytes|]. apply Forall_app. split; [apply digits_bytes|].
    constructor; [apply Z.mod_pos_bound; lia|constructor]. }
  split; [now apply serialize_l|]. intros pre' post'. eexists. split; [now apply deserialize_l|].
  cbn [enabled days start_second end_second value]. repeat split. intros Hv. rewrite Z.mod_small by exact Hv. now destruct e.
Qed.
Print Assumptions scheduler_serialize_partial.

Example scheduler_serialize_example :
  scheduler_entry_serialize (repeat 9 13) 1 (mkEntry 1 127 82800 90000 200) =
    Done ([9; 1; 127; 112; 67; 1; 0; 144; 95; 1; 0; 200; 9], 11).
Proof. reflexivity. Qed.

(** C40: writing and disabling an entry. *)
Theorem scheduler_set : forall s i e, 0 <= i ->
  (zlen s <= i -> scheduler_set_entry s i e = (s, -1) /\ scheduler_disable_schedule_entry s i = (s, -1) /\
                  scheduler_get_entry s i = None /\ scheduler_is_schedule_entry_enabled s i = 255) /\
  (i < zlen s -> exists s1 s2 o, scheduler_set_entry s i e = (s1, 0) /\ scheduler_disable_schedule_entry s i = (s2, 0) /\
     scheduler_get_entry s i = Some o /\ nth_error s (Z.to_nat i) = Some o /\
     scheduler_is_schedule_entry_enabled s i = enabled o /\
     zlen s1 = zlen s /\ scheduler_get_entry s1 i = Some e /\
     zlen s2 = zlen s /\ scheduler_get_entry s2 i = Some (mkEntry 0 (days o) (start_second o) (end_second o) (value o)) /\
     forall j, 0 <= j -> j <> i -> scheduler_get_entry s1 j = scheduler_get_entry s j /\
                                   scheduler_get_entry s2 j = scheduler_get_entry s j).
Proof.
  intros s i e Hi. unfold scheduler_set_entry, scheduler_disable_schedule_entry, scheduler_get_entry, scheduler_is_schedule_entry_enabled. split.
  - intros H. replace (zlen s <=? i) with true by lia. auto.
  - intros H. replace (zlen s <=? i) with false by lia.
    assert (Hn : (Z.to_nat i < length s)%nat) by (unfold zlen in H; lia).
    set (o := nth (Z.to_nat i) s zero_entry). set (o' := mkEntry 0 (days o) (start_second o) (end_second o) (value o)).
    assert (Ho : nth_error s (Z.to_nat i) = Some o) by (apply nth_error_nth'; exact Hn).
    exists (upd s (Z.to_nat i) e), (upd s (Z.to_nat i) o'), o. rewrite !zlen_upd.
    replace (zlen s <=? i) with false by lia. rewrite !nth_error_upd_eq by exact Hn.
    do 9 (split; [first [reflexivity|exact Ho]|]).
    intros j Hj Hne. destruct (zlen s <=? j); [split; reflexivity|].
    split; apply nth_error_upd_neq; lia.
Qed.
Print Assumptions scheduler_set.

(** C40: the searches. *)
Theorem scheduler_search : forall s start, zlen s <= INT_MAX -> 0 <= start ->
  let on i := exists e, nth_error s (Z.to_nat i) = Some e /\ enabled e <> 0 in
  let off i := exists e, nth_error s (Z.to_nat i) = Some e /\ enabled e = 0 in
  let n := scheduler_get_next_enabled_entry s start in
  let a := scheduler_get_first_available_entry s in
  ((n = -1 /\ forall j, start <= j < zlen s -> off j) \/
   (start <= n < zlen s /\ on n /\ forall j, start <= j < n -> off j)) /\
  ((a = -1 /\ forall j, 0 <= j < zlen s -> on j) \/
   (0 <= a < zlen s /\ off a /\ forall j, 0 <= j < a -> on j)).
Proof.
  intros s start Hl Hst on off n a.
  assert (HF : forall j, 0 <= j < zlen s -> en s j = false -> off j).
  { intros j Hj H. exists (nth (Z.to_nat j) s zero_entry). split; [apply nth_error_nth'; unfold zlen in Hj; lia|]. unfold en in H. lia. }
  assert (HT : forall j, 0 <= j < zlen s -> en s j = true -> on j).
  { intros j Hj H. exists (nth (Z.to_nat j) s zero_entry). split; [apply nth_error_nth'; unfold zlen in Hj; lia|]. unfold en in H. lia. }
  split.
  - unfold n, scheduler_get_next_enabled_entry. destruct (Z.leb_spec (zlen s) start) as [H|H].
    + replace (Z.to_nat (zlen s - start)) with 0%nat by lia. left. split; [reflexivity|]. intros; lia.
    + destruct (next_loop_spec s (Z.to_nat (zlen s - start)) start Hl Hst ltac:(lia)) as [[H1 H2]|[H1 [H2 H3]]].
      * left. split; [exact H1|]. intros j Hj. apply HF; [lia|now apply H2].
      * right. split; [exact H1|]. split; [apply HT; [lia|exact H2]|]. intros j Hj. apply HF; [lia|now apply H3].
  - unfold a, scheduler_get_first_available_entry. pose proof (zlen_nonneg _ s).
    destruct (available_loop_spec s (Z.to_nat (zlen s)) 0 Hl ltac:(lia) ltac:(lia)) as [[H1 H2]|[H1 [H2 H3]]].
    + left. split; [exact H1|]. intros j Hj. apply HT; [lia|now apply H2].
    + right. split; [exact H1|]. split; [apply HF; [lia|exact H2]|]. intros j Hj. apply HT; [lia|now apply H3].
Qed.
Print Assumptions scheduler_search.

(** C40: after initialisation nothing is enabled or active. *)
Theorem scheduler_init_clears : forall s t, tm_ok t -> zlen s <= INT_MAX ->
  let s' := scheduler_init s in
  scheduler_get_max_schedule_entries s' = zlen s /\ (forall i, 0 <= i < zlen s -> scheduler_get_entry s' i = Some (mkEntry 0 0 0 0 0)) /\
  scheduler_get_next_enabled_entry s' 0 = -1 /\ scheduler_is_active s' t = 0.
Proof.
  intros s t Ht Hl s'.
  assert (Hlen : zlen s' = zlen s) by (unfold s', scheduler_init, zlen; now rewrite map_length).
  assert (Hall : forall e, In e s' -> e = zero_entry).
  { intros e H. unfold s', scheduler_init in H. apply in_map_iff in H as (x & <- & _). reflexivity. }
  split; [exact Hlen|]. split.
  { intros i Hi. unfold scheduler_get_entry. rewrite Hlen. replace (zlen s <=? i) with false by lia.
    destruct (nth_error s' (Z.to_nat i)) as [e|] eqn:E; [f_equal; apply Hall; now apply nth_error_In in E|].
    apply nth_error_None in E. unfold zlen in *. lia. }
  split.
  - destruct (scheduler_search s' 0 ltac:(lia) ltac:(lia)) as [[[H1 _]|[_ [(e & H2 & H3) _]]] _]; [exact H1|].
    exfalso. apply H3. rewrite (Hall e); [reflexivity|]. now apply nth_error_In in H2.
  - rewrite is_active_l; [|exact Ht| |lia].
    + replace (existsb (fun e => eligible e t) s') with false; [reflexivity|]. symmetry. apply not_true_iff_false.
      intros H. apply existsb_exists in H as (e & Hin & He). rewrite (Hall e Hin) in He. discriminate.
    + apply Forall_forall. intros e H. rewrite (Hall e H). unfold entry_ok, INT_MIN, INT_MAX. cbn. lia.
Qed.
Print Assumptions scheduler_init_clears.

Example scheduler_search_example :
  scheduler_get_next_enabled_entry sample 2 = 3 /\ scheduler_get_first_available_entry sample = 2 /\
  scheduler_get_next_enabled_entry sample 4 = -1 /\ scheduler_get_first_available_entry [] = -1.
Proof. repeat split. Qed.

(** * C147: leap seconds.  Refuted: at 23:59:60 an entry from 22:00 to 30:00 is not active. *)
Theorem scheduler_leap_refuted : exists e t, entry_ok e /\ enabled e <> 0 /\ leap t /\ end_second e <= 2 * DAY /\
  running e (tm_wday t) (DAY - 1) = true /\ running e (tm_wday t) DAY = true /\
  scheduler_is_active [e] (mkTm (tm_wday t) 23 59 59) = 1 /\ scheduler_is_active [e] t = 0.
Proof.
  exists (mkEntry 1 127 79200 108000 5), (mkTm 3 23 59 60).
  split; [unfold entry_ok, INT_MIN, INT_MAX; cbn; lia|]. split; [discriminate|]. split; [unfold leap; cbn; lia|].
  split; [vm_compute; discriminate|]. repeat split.
Qed.
Print Assumptions scheduler_leap_refuted.

(** What happens then: nothing is active, unless an entry lasts for more than a whole further day.  Leap seconds at
    other times of day are covered by the theorems above. *)
Theorem scheduler_leap_partial : forall s t, leap t -> Forall entry_ok s ->
  (forall e, In e s -> is_entry_active e t = on_day e (tm_wday t) && (2 * DAY <? end_second e)) /\
  (Forall (fun e => end_second e <= 2 * DAY) s ->
   scheduler_is_active s t = 0 /\ scheduler_get_active_entry_number s t = -1 /\
   scheduler_current_value s t = Done (0, None) /\ scheduler_get_active_entries_map s t = 0 /\
   scheduler_get_current_remaining_duration s t = 0 /\
   forall i, 0 <= i -> scheduler_get_schedule_remaining_duration s i t = 0).
Proof. exact leap_l. Qed.
Print Assumptions scheduler_leap_partial.

(** Leap second of a time zone that is one hour ahead: like 01:00:00. *)
Example scheduler_leap_case :
  leap (mkTm 3 23 59 60) /\ tm_ok (mkTm 4 0 59 60) /\ clock (mkTm 4 0 59 60) = 3600 /\
  scheduler_is_active [mkEntry 1 127 3600 3700 5] (mkTm 4 0 59 60) = 1 /\
  scheduler_is_active [mkEntry 1 127 0 200000 5] (mkTm 3 23 59 60) = 1.
Proof. split; [unfold leap; cbn; lia|]. split; [unfold tm_ok, clock, DAY; cbn; lia|]. repeat split. Qed.
