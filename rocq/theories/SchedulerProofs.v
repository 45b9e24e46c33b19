(** Proofs about the scheduler. *)
From Coq Require Import ZifyBool.
From Verif Require Import Base BaseLemmas SerializerModel SerializerSpec SerializerSystem SerializerProofs.
From Verif Require Import SchedulerModel SchedulerSpec.

Lemma day_incl : forall d w, 0 <= d -> 0 <= w < 7 -> is_day_included d w = b2z (Z.testbit d w).
Proof.
  intros d w Hd Hw. unfold is_day_included. rewrite wrap_small by lia. f_equal.
  assert (E : Z.land d (Z.shiftl 1 w) = if Z.testbit d w then 2 ^ w else 0).
  { apply Z.bits_inj'. intros n Hn. rewrite Z.land_spec, Z.shiftl_1_l, Z.pow2_bits_eqb by lia.
    destruct (Z.eqb_spec w n) as [->|Hne].
    - destruct (Z.testbit d n); [now rewrite Z.pow2_bits_true by lia|now rewrite Z.bits_0].
    - rewrite andb_false_r. destruct (Z.testbit d w); [|now rewrite Z.bits_0].
      now rewrite Z.pow2_bits_false by lia. }
  rewrite E. assert (0 < 2 ^ w) by (apply Z.pow_pos_nonneg; lia).
  destruct (Z.testbit d w); lia.
Qed.

Lemma clock_range : forall t, tm_ok t -> 0 <= clock t < DAY.
Proof. intros t (H1 & H2 & H3 & H4 & H5). unfold clock, DAY in *. lia. Qed.

Lemma clock_eq : forall t, tm_ok t -> to_seconds (tm_hour t) (tm_min t) (tm_sec t) = clock t.
Proof.
  intros t (H1 & H2 & H3 & H4 & H5). unfold to_seconds, clock. rewrite !(wrap_small 8) by lia.
  rewrite wrap64_small by lia. lia.
Qed.

Lemma active_eq : forall e t, entry_ok e -> tm_ok t ->
  is_entry_active e t = active_today e (tm_wday t) (clock t).
Proof.
  intros e t (E1 & E2 & E3 & E4 & E5) Ht. unfold is_entry_active, active_today, on_day, covers.
  rewrite clock_eq by assumption. pose proof (clock_range t Ht) as Hc. destruct Ht as (T1 & _).
  rewrite day_incl by lia. destruct (Z.testbit (days e) (tm_wday t)); cbn [b2z Z.eqb andb]; [|reflexivity].
  change seconds_in_day with 86400. unfold DAY in *.
  destruct (Z.ltb_spec 86400 (end_second e)); lia.
Qed.

Lemma total_eq : forall e, entry_ok e -> total_week_timespan e = week_total e.
Proof.
  intros e (E1 & E2 & E3 & E4 & E5). unfold total_week_timespan, week_total, on_day.
  cbn [fold_left]. rewrite !day_incl by lia. change (2 ^ 32) with 4294967296 in *.
  assert (Hd : scheduler_get_entry_duration e = Z.abs (end_second e - start_second e)).
  { unfold scheduler_get_entry_duration. destruct (Z.ltb_spec (start_second e) (end_second e)); rewrite wrap32_small; lia. }
  rewrite Hd.
  assert (Hn : 0 + b2z (Z.testbit (days e) 0) + b2z (Z.testbit (days e) 1) + b2z (Z.testbit (days e) 2) +
    b2z (Z.testbit (days e) 3) + b2z (Z.testbit (days e) 4) + b2z (Z.testbit (days e) 5) + b2z (Z.testbit (days e) 6) =
    zlen (filter (fun w => Z.testbit (days e) w) [0; 1; 2; 3; 4; 5; 6])).
  { unfold zlen. cbn [filter].
    destruct (Z.testbit (days e) 0), (Z.testbit (days e) 1), (Z.testbit (days e) 2), (Z.testbit (days e) 3),
      (Z.testbit (days e) 4), (Z.testbit (days e) 5), (Z.testbit (days e) 6); reflexivity. }
  rewrite Hn. apply wrap64_small.
  assert (0 <= zlen (filter (fun w => Z.testbit (days e) w) [0; 1; 2; 3; 4; 5; 6]) <= 7).
  { rewrite <- Hn. clear. unfold b2z. repeat match goal with |- context [if ?b then _ else _] => destruct b end; lia. }
  nia.
Qed.

(** *** Selection *)

Definition best (t : tm) (pre : list entry) (f : search) : Prop :=
  (found f = false -> foundid f = -1 /\ forall e, In e pre -> eligible e t = false) /\
  (found f = true -> exists e, 0 <= foundid f < zlen pre /\ nth_error pre (Z.to_nat (foundid f)) = Some e /\
     eligible e t = true /\ foundtotal f = week_total e /\ foundvalue f = wrap 8 (value e) /\
     (forall e', In e' pre -> eligible e' t = true -> week_total e <= week_total e') /\
     ((forall e', In e' pre -> eligible e' t = true -> 0 <= value e' < 256) ->
      forall j e', nth_error pre (Z.to_nat j) = Some e' -> 0 <= j -> eligible e' t = true -> week_total e' = week_total e ->
        value e' < value e \/ (value e' = value e /\ foundid f <= j))).

Lemma nth_error_snoc : forall A (l : list A) a j x, nth_error (l ++ [a]) j = Some x ->
  ((j < length l)%nat /\ nth_error l j = Some x) \/ (j = length l /\ x = a).
Proof.
  intros A l a j x H. rewrite nth_error_app in H. destruct (Nat.ltb_spec j (length l)); [auto|].
  right. destruct (j - length l)%nat as [|k] eqn:E; cbn in H; [|destruct k; discriminate].
  split; [lia|congruence].
Qed.

Lemma zlen_app1 : forall A (l : list A) a, zlen (l ++ [a]) = zlen l + 1.
Proof. intros. unfold zlen. rewrite app_length. cbn. lia. Qed.

Lemma active_loop_best : forall t, tm_ok t -> forall s pre f, Forall entry_ok s -> zlen (pre ++ s) <= INT_MAX ->
  best t pre f -> best t (pre ++ s) (active_loop s t (zlen pre) f).
Proof.
  intros t Ht. induction s as [|e s IH]; intros pre f Hok Hlen HB.
  - cbn. now rewrite app_nil_r.
  - apply Forall_cons_iff in Hok as [He Hok]. cbn [active_loop].
    replace (pre ++ e :: s) with ((pre ++ [e]) ++ s) in * by (now rewrite <- app_assoc).
    rewrite <- (zlen_app1 _ pre e). apply IH; [assumption|assumption|].
    assert (Hpl : zlen pre < INT_MAX).
    { unfold zlen in *. rewrite !app_length in Hlen. cbn [length] in Hlen. lia. }
    rewrite active_eq, total_eq by assumption.
    rewrite swrap32_small by (unfold INT_MAX in *; pose proof (zlen_nonneg _ pre); lia).
    destruct HB as [HF HT].
    assert (Hskip : eligible e t = false -> best t (pre ++ [e]) f).
    { intros Hne. split.
      - intros Hf. destruct (HF Hf) as [H1 H2]. split; [exact H1|]. intros e' Hin. apply in_app_or in Hin as [Hin|[<-|[]]]; auto.
      - intros Hf. destruct (HT Hf) as (b & B1 & B2 & B3 & B4 & B5 & B6 & B7). exists b.
        rewrite zlen_app1. split; [lia|]. split; [rewrite nth_error_app1; [exact B2|unfold zlen in B1; lia]|].
        split; [exact B3|]. split; [exact B4|]. split; [exact B5|]. split.
        + intros e' Hin Hel. apply in_app_or in Hin as [Hin|[<-|[]]]; [auto|congruence].
        + intros Hv j e' Hj Hj0 Hel Hw. apply nth_error_snoc in Hj as [[_ Hj]|[_ ->]]; [|congruence].
          apply (B7) with (e' := e'); try assumption. intros x Hin. apply Hv. apply in_or_app. now left. }
    destruct (Z.eqb_spec (enabled e) 0) as [E0|E0].
    { apply Hskip. unfold eligible. rewrite E0. reflexivity. }
    assert (Eel : eligible e t = active_today e (tm_wday t) (clock t)).
    { unfold eligible. destruct (Z.eqb_spec (enabled e) 0); [contradiction|reflexivity]. }
    destruct (active_today e (tm_wday t) (clock t)) eqn:Ea; [|apply Hskip; congruence].
    destruct (negb (found f) || (week_total e <? foundtotal f) ||
             ((week_total e =? foundtotal f) && (foundvalue f <? value e))) eqn:Ec.
    + (* taken *)
      split; cbn [found foundid foundtotal foundvalue]; [discriminate|]. intros _. exists e.
      rewrite zlen_app1. pose proof (zlen_nonneg _ pre). split; [lia|].
      split. { rewrite nth_error_app2 by (unfold zlen; lia). unfold zlen. rewrite Nat2Z.id, Nat.sub_diag. reflexivity. }
      split; [exact Eel|]. split; [reflexivity|]. split; [reflexivity|].
      destruct (found f) eqn:Ef.
      * destruct (HT eq_refl) as (b & B1 & B2 & B3 & B4 & B5 & B6 & B7). cbn [negb orb] in Ec. rewrite B4, B5 in Ec.
        split.
        -- intros e' Hin Hel. apply in_app_or in Hin as [Hin|[<-|[]]]; [|lia]. specialize (B6 _ Hin Hel). lia.
        -- intros Hv j e' Hj Hj0 Hel Hw.
           assert (Hvp : forall x, In x pre -> eligible x t = true -> 0 <= value x < 256).
           { intros x Hin. apply Hv. apply in_or_app. now left. }
           assert (Hvb : wrap 8 (value b) = value b).
           { apply wrap_small. apply Hvp; [now apply nth_error_In in B2|exact B3]. }
           apply nth_error_snoc in Hj as [[Hl Hj]|[Hl ->]].
           ++ assert (Hin : In e' pre) by (now apply nth_error_In in Hj). specialize (B6 _ Hin Hel).
              destruct (B7 Hvp j e' Hj Hj0 Hel ltac:(lia)); lia.
           ++ right. unfold zlen. lia.
      * destruct (HF eq_refl) as [_ HFe]. split.
        -- intros e' Hin Hel. apply in_app_or in Hin as [Hin|[<-|[]]]; [|lia]. rewrite HFe in Hel by assumption. discriminate.
        -- intros Hv j e' Hj Hj0 Hel Hw. apply nth_error_snoc in Hj as [[Hl Hj]|[Hl ->]].
           ++ assert (Hin : In e' pre) by (now apply nth_error_In in Hj). rewrite HFe in Hel by assumption. discriminate.
           ++ right. unfold zlen. lia.
    + (* kept *)
      split; [intros Hf; rewrite Hf in Ec; discriminate|]. intros Hf. rewrite Hf in Ec. cbn [negb orb] in Ec.
      destruct (HT Hf) as (b & B1 & B2 & B3 & B4 & B5 & B6 & B7). rewrite B4, B5 in Ec. exists b.
      rewrite zlen_app1. split; [lia|]. split; [rewrite nth_error_app1; [exact B2|unfold zlen in B1; lia]|].
      split; [exact B3|]. split; [exact B4|]. split; [exact B5|]. split.
      * intros e' Hin Hel. apply in_app_or in Hin as [Hin|[<-|[]]]; [auto|lia].
      * intros Hv j e' Hj Hj0 Hel Hw.
        assert (Hvp : forall x, In x pre -> eligible x t = true -> 0 <= value x < 256).
        { intros x Hin. apply Hv. apply in_or_app. now left. }
        assert (Hvb : wrap 8 (value b) = value b).
        { apply wrap_small. apply Hvp; [now apply nth_error_In in B2|exact B3]. }
        apply nth_error_snoc in Hj as [[Hl Hj]|[Hl ->]]; [now apply (B7 Hvp) with (e' := e')|].
        assert (value e <= value b) by lia. unfold zlen in *. lia.
Qed.

Lemma best_start : forall t, best t [] (mkSearch false 0 0 (-1)).
Proof. intros t. split; cbn; [intros _; split; [reflexivity|intros e []]|discriminate]. Qed.

Lemma active_number : forall t s, tm_ok t -> Forall entry_ok s -> zlen s <= INT_MAX ->
  best t s (active_loop s t 0 (mkSearch false 0 0 (-1))).
Proof. intros t s Ht Hs Hl. apply (active_loop_best t Ht s []); try assumption. apply best_start. Qed.

Lemma scheduler_selects_l : forall s t, tm_ok t -> Forall entry_ok s -> zlen s <= INT_MAX ->
  let id := scheduler_get_active_entry_number s t in
  (id = -1 /\ forall e, In e s -> eligible e t = false) \/
  (0 <= id < zlen s /\ exists e, nth_error s (Z.to_nat id) = Some e /\ eligible e t = true /\
    forall e', In e' s -> eligible e' t = true -> week_total e <= week_total e').
Proof.
  intros s t Ht Hs Hl id. unfold id, scheduler_get_active_entry_number.
  destruct (active_number t s Ht Hs Hl) as [HF HT].
  destruct (found (active_loop s t 0 (mkSearch false 0 0 (-1)))) eqn:Ef.
  - right. destruct (HT eq_refl) as (e & B1 & B2 & B3 & B4 & B5 & B6 & _). split; [exact B1|]. eauto.
  - left. auto.
Qed.

Lemma scheduler_tie_l : forall s t, tm_ok t -> Forall entry_ok s -> zlen s <= INT_MAX ->
  (forall e, In e s -> eligible e t = true -> 0 <= value e < 256) ->
  let id := scheduler_get_active_entry_number s t in
  forall e, 0 <= id -> nth_error s (Z.to_nat id) = Some e ->
  forall j e', 0 <= j -> nth_error s (Z.to_nat j) = Some e' -> eligible e' t = true -> week_total e' = week_total e ->
    value e' < value e \/ (value e' = value e /\ id <= j).
Proof.
  intros s t Ht Hs Hl Hv id e Hid He j e' Hj He' Hel Hw. unfold id, scheduler_get_active_entry_number in *.
  destruct (active_number t s Ht Hs Hl) as [HF HT].
  destruct (found (active_loop s t 0 (mkSearch false 0 0 (-1)))) eqn:Ef.
  - destruct (HT eq_refl) as (b & B1 & B2 & B3 & B4 & B5 & B6 & B7).
    assert (b = e) by congruence. subst b. now apply (B7 Hv j e').
  - destruct (HF eq_refl) as [H _]. lia.
Qed.

(** *** Ties *)

Definition tied (t : tm) (m : Z) (ie : Z * entry) : bool := eligible (snd ie) t && (week_total (snd ie) =? m).

Definition tie_inv (t : tm) (pre : list entry) (f : search) : Prop :=
  (found f = false /\ foundid f = -1 /\ forall e, In e pre -> eligible e t = false) \/
  (found f = true /\ exists x l, filter (tied t (foundtotal f)) (numbered 0 pre) = x :: l /\
     foundid f = fst (survivor x l) /\ foundvalue f = value (snd (survivor x l)) mod 256 /\
     forall e, In e pre -> eligible e t = true -> foundtotal f <= week_total e).

Lemma numbered_snoc : forall s i e, numbered i (s ++ [e]) = numbered i s ++ [(i + zlen s, e)].
Proof.
  induction s as [|a s IH]; intros i e; cbn [app numbered].
  - unfold zlen. cbn [length]. now rewrite Z.add_0_r.
  - rewrite IH. cbn [app]. do 3 f_equal. unfold zlen. cbn [length]. f_equal. lia.
Qed.

Lemma numbered_in : forall s i x, In x (numbered i s) -> In (snd x) s.
Proof. induction s as [|a s IH]; intros i x H; cbn [numbered] in H; [destruct H|]. destruct H as [<-|H]; [left; reflexivity|right; now apply (IH (i + 1))]. Qed.

Lemma survivor_snoc : forall l x y, survivor x (l ++ [y]) =
  if value (snd (survivor x l)) mod 256 <? value (snd y) then y else survivor x l.
Proof. induction l as [|a l IH]; intros x y; cbn [app survivor]; [reflexivity|apply IH]. Qed.

Lemma filter_none : forall A (f : A -> bool) l, (forall x, In x l -> f x = false) -> filter f l = [].
Proof. intros A f. induction l as [|a l IH]; intros H; cbn [filter]; [reflexivity|]. rewrite (H a) by (now left). apply IH. intros x Hx. apply H. now right. Qed.

Lemma tie_loop : forall t, tm_ok t -> forall s pre f, Forall entry_ok s -> zlen (pre ++ s) <= INT_MAX ->
  tie_inv t pre f -> tie_inv t (pre ++ s) (active_loop s t (zlen pre) f).
Proof.
  intros t Ht. induction s as [|e s IH]; intros pre f Hok Hlen HB.
  - cbn. now rewrite app_nil_r.
  - apply Forall_cons_iff in Hok as [He Hok]. cbn [active_loop].
    replace (pre ++ e :: s) with ((pre ++ [e]) ++ s) in * by (now rewrite <- app_assoc).
    rewrite <- (zlen_app1 _ pre e). apply IH; [assumption|assumption|].
    assert (Hpl : zlen pre < INT_MAX).
    { unfold zlen in *. rewrite !app_length in Hlen. cbn [length] in Hlen. lia. }
    rewrite active_eq, total_eq by assumption.
    rewrite swrap32_small by (unfold INT_MAX in *; pose proof (zlen_nonneg _ pre); lia).
    assert (Hskip : eligible e t = false -> tie_inv t (pre ++ [e]) f).
    { intros Hne. destruct HB as [(H1 & H2 & H3)|(H1 & x & l & H2 & H3 & H4 & H5)].
      - left. repeat split; try assumption. intros e' Hin. apply in_app_or in Hin as [Hin|[<-|[]]]; auto.
      - right. split; [exact H1|]. exists x, l. rewrite numbered_snoc, filter_app, H2. cbn [filter]. unfold tied at 1. cbn [snd]. rewrite Hne.
        cbn [andb]. rewrite app_nil_r. repeat split; try assumption.
        intros e' Hin Hel. apply in_app_or in Hin as [Hin|[<-|[]]]; [auto|congruence]. }
    destruct (Z.eqb_spec (enabled e) 0) as [E0|E0].
    { apply Hskip. unfold eligible. rewrite E0. reflexivity. }
    assert (Eel : eligible e t = active_today e (tm_wday t) (clock t)).
    { unfold eligible. destruct (Z.eqb_spec (enabled e) 0); [contradiction|reflexivity]. }
    destruct (active_today e (tm_wday t) (clock t)) eqn:Ea; [|apply Hskip; congruence].
    destruct HB as [(H1 & H2 & H3)|(H1 & x & l & H2 & H3 & H4 & H5)]; rewrite H1; cbn [negb orb].
    + right. split; [reflexivity|]. exists (zlen pre, e), []. cbn [foundtotal foundid foundvalue survivor fst snd].
      rewrite numbered_snoc, filter_app, filter_none.
      * cbn [filter app]. unfold tied. cbn [snd]. rewrite Eel, Z.eqb_refl. cbn [andb]. rewrite Z.add_0_l. repeat split.
        intros e' Hin Hel. apply in_app_or in Hin as [Hin|[<-|[]]]; [|lia]. rewrite H3 in Hel by exact Hin. discriminate.
      * intros y Hy. unfold tied. rewrite H3; [reflexivity|]. now apply (numbered_in pre 0).
    + destruct (Z.ltb_spec (week_total e) (foundtotal f)) as [Hlt|Hge]; cbn [orb].
      * right. split; [reflexivity|]. exists (zlen pre, e), []. cbn [foundtotal foundid foundvalue survivor fst snd].
        rewrite numbered_snoc, filter_app, filter_none.
        -- cbn [filter app]. unfold tied. cbn [snd]. rewrite Eel, Z.eqb_refl. cbn [andb]. rewrite Z.add_0_l. repeat split.
           intros e' Hin Hel. apply in_app_or in Hin as [Hin|[<-|[]]]; [|lia]. specialize (H5 _ Hin Hel). lia.
        -- intros y Hy. unfold tied. destruct (eligible (snd y) t) eqn:Ey; [|reflexivity]. apply numbered_in in Hy. specialize (H5 _ Hy Ey). cbn [andb]. lia.
      * assert (Hmin : forall e', In e' (pre ++ [e]) -> eligible e' t = true -> foundtotal f <= week_total e').
        { intros e' Hin Hel. apply in_app_or in Hin as [Hin|[<-|[]]]; [auto|lia]. }
        destruct (Z.eqb_spec (week_total e) (foundtotal f)) as [Heq|Hne]; cbn [andb].
        -- assert (Hnew : filter (tied t (foundtotal f)) (numbered 0 (pre ++ [e])) = x :: l ++ [(zlen pre, e)]).
           { rewrite numbered_snoc, filter_app, H2. cbn [filter]. unfold tied at 1. cbn [snd]. rewrite Eel, Heq, Z.eqb_refl. reflexivity. }
           right. destruct (foundvalue f <? value e) eqn:Ev.
           ++ split; [reflexivity|]. exists x, (l ++ [(zlen pre, e)]). cbn [foundtotal foundid foundvalue]. rewrite Heq, survivor_snoc.
              cbn [snd]. rewrite <- H4, Ev. cbn [fst snd]. repeat split; assumption.
           ++ split; [exact H1|]. exists x, (l ++ [(zlen pre, e)]). rewrite survivor_snoc. cbn [snd]. rewrite <- H4, Ev. repeat split; assumption.
        -- right. split; [exact H1|]. exists x, l. rewrite numbered_snoc, filter_app, H2. cbn [filter]. unfold tied at 1. cbn [snd].
           replace (week_total e =? foundtotal f) with false by lia. rewrite andb_false_r, app_nil_r. repeat split; assumption.
Qed.

Lemma scheduler_exact_l : forall s t, tm_ok t -> Forall entry_ok s -> zlen s <= INT_MAX ->
  scheduler_get_active_entry_number s t = match contenders s t with [] => -1 | x :: l => fst (survivor x l) end.
Proof.
  intros s t Ht Hs Hl. unfold scheduler_get_active_entry_number.
  destruct (tie_loop t Ht s [] (mkSearch false 0 0 (-1)) Hs Hl) as [(H1 & H2 & H3)|(H1 & x & l & H2 & H3 & H4 & H5)].
  - left. repeat split. intros e [].
  - cbn [app] in *. change (zlen (@nil entry)) with 0 in *. rewrite H2. unfold contenders. rewrite filter_none; [reflexivity|].
    intros y Hy. unfold contender. rewrite H3; [reflexivity|]. now apply (numbered_in s 0).
  - cbn [app] in *. change (zlen (@nil entry)) with 0 in *. set (f := active_loop s t 0 (mkSearch false 0 0 (-1))) in *.
    replace (contenders s t) with (x :: l); [exact H3|]. rewrite <- H2. unfold contenders. apply filter_ext_in. intros y Hy.
    unfold contender, tied. destruct (eligible (snd y) t) eqn:Ey; [|reflexivity]. cbn [andb]. apply numbered_in in Hy.
    apply eq_true_iff_eq. rewrite forallb_forall, Z.eqb_eq. split.
    + intros Heq e' Hin. destruct (eligible e' t) eqn:Ee; [|reflexivity]. specialize (H5 _ Hin Ee). cbn [negb orb]. lia.
    + intros Hall. assert (Hx : In x (filter (tied t (foundtotal f)) (numbered 0 s))) by (rewrite H2; now left).
      apply filter_In in Hx as [Hx1 Hx2]. apply numbered_in in Hx1. unfold tied in Hx2. apply andb_prop in Hx2 as [Hx2 Hx3].
      specialize (Hall _ Hx1). rewrite Hx2 in Hall. cbn [negb orb] in Hall. specialize (H5 _ Hy Ey). lia.
Qed.

(** *** Next enabled, first available *)

Definition en (s : list entry) (j : Z) : bool := negb (enabled (nth (Z.to_nat j) s zero_entry) =? 0).

Lemma next_loop_spec : forall s n i, zlen s <= INT_MAX -> 0 <= i -> Z.of_nat n + i = zlen s ->
  let r := next_loop s n i in
  (r = -1 /\ forall j, i <= j < zlen s -> en s j = false) \/
  (i <= r < zlen s /\ en s r = true /\ forall j, i <= j < r -> en s j = false).
Proof.
  intros s. induction n as [|n IH]; intros i Hs Hi Hn; cbn [next_loop].
  - left. split; [reflexivity|]. intros; lia.
  - unfold scheduler_is_schedule_entry_enabled. destruct (Z.leb_spec (zlen s) i); [lia|].
    destruct (enabled (nth (Z.to_nat i) s zero_entry) =? 0) eqn:E.
    + destruct (IH (i + 1) Hs ltac:(lia) ltac:(lia)) as [[H1 H2]|[H1 [H2 H3]]].
      * left. split; [exact H1|]. intros j Hj. destruct (Z.eq_dec j i) as [->|]; [unfold en; now rewrite E|apply H2; lia].
      * right. split; [lia|]. split; [exact H2|]. intros j Hj.
        destruct (Z.eq_dec j i) as [->|]; [unfold en; now rewrite E|apply H3; lia].
    + right. rewrite swrap32_small by (unfold INT_MAX in *; lia). split; [lia|]. split; [unfold en; now rewrite E|]. intros; lia.
Qed.

Lemma available_loop_spec : forall s n i, zlen s <= INT_MAX -> 0 <= i -> Z.of_nat n + i = zlen s ->
  let r := available_loop s n i in
  (r = -1 /\ forall j, i <= j < zlen s -> en s j = true) \/
  (i <= r < zlen s /\ en s r = false /\ forall j, i <= j < r -> en s j = true).
Proof.
  intros s. induction n as [|n IH]; intros i Hs Hi Hn; cbn [available_loop].
  - left. split; [reflexivity|]. intros; lia.
  - unfold scheduler_is_schedule_entry_enabled. destruct (Z.leb_spec (zlen s) i); [lia|].
    destruct (enabled (nth (Z.to_nat i) s zero_entry) =? 0) eqn:E.
    + right. rewrite swrap32_small by (unfold INT_MAX in *; lia). split; [lia|]. split; [unfold en; now rewrite E|]. intros; lia.
    + destruct (IH (i + 1) Hs ltac:(lia) ltac:(lia)) as [[H1 H2]|[H1 [H2 H3]]].
      * left. split; [exact H1|]. intros j Hj. destruct (Z.eq_dec j i) as [->|]; [unfold en; now rewrite E|apply H2; lia].
      * right. split; [lia|]. split; [exact H2|]. intros j Hj.
        destruct (Z.eq_dec j i) as [->|]; [unfold en; now rewrite E|apply H3; lia].
Qed.

(** *** Map *)

Lemma map_loop_spec : forall t s i r j, 0 <= i -> 0 <= j < 16 ->
  Z.testbit (map_loop s t i r) j =
    Z.testbit r j || ((i <=? j) && (j <? i + zlen s) && is_entry_active (nth (Z.to_nat (j - i)) s zero_entry) t).
Proof.
  intros t. induction s as [|e s IH]; intros i r j Hi Hj; cbn [map_loop].
  - replace (i + zlen (@nil entry)) with i by (unfold zlen; cbn; lia).
    replace ((i <=? j) && (j <? i)) with false by lia. cbn [andb]. now rewrite orb_false_r.
  - rewrite IH by lia. unfold wrap. rewrite Z.mod_pow2_bits_low by lia.
    rewrite Z.lor_spec, Z.shiftl_spec by lia.
    replace (i + zlen (e :: s)) with (i + 1 + zlen s) by (unfold zlen; cbn [length]; lia).
    pose proof (zlen_nonneg _ s).
    destruct (Z.eq_dec j i) as [->|Hne].
    + rewrite Z.sub_diag. change (Z.to_nat 0) with 0%nat. cbn [nth].
      replace (i + 1 <=? i) with false by lia. replace (i <=? i) with true by lia.
      replace (i <? i + 1 + zlen s) with true by lia. cbn [andb]. rewrite orb_false_r.
      destruct (is_entry_active e t); reflexivity.
    + destruct (Z.ltb_spec j i).
      * replace (i + 1 <=? j) with false by lia. replace (i <=? j) with false by lia. cbn [andb].
        rewrite (Z.testbit_neg_r _ (j - i)) by lia. now rewrite !orb_false_r.
      * assert (Hb : Z.testbit (b2z (is_entry_active e t)) (j - i) = false).
        { destruct (is_entry_active e t); cbn [b2z]; [|apply Z.bits_0].
          replace 1 with (2 ^ 0) by reflexivity. apply Z.pow2_bits_false. lia. }
        rewrite Hb, orb_false_r. replace (i + 1 <=? j) with true by lia. replace (i <=? j) with true by lia.
        cbn [andb]. f_equal. f_equal. replace (Z.to_nat (j - i)) with (S (Z.to_nat (j - (i + 1)))) by lia. reflexivity.
Qed.

(** *** Overlap *)

(** What the code counts. *)
Definition touching (o e : entry) : bool :=
  negb (enabled o =? 0) && (0 <? Z.land (days o) (days e)) &&
  (INCLUDED (start_second e) o || INCLUDED (end_second e) o || INCLUDED (start_second o) e || INCLUDED (end_second o) e).

Lemma overlap_count : forall e s, zlen s < 2 ^ 64 ->
  scheduler_are_there_overlapping_entries s e = zlen (filter (fun o => touching o e) s).
Proof.
  intros e s Hs. unfold scheduler_are_there_overlapping_entries.
  change (2 ^ 64) with 18446744073709551616 in Hs.
  assert (H : forall s n, 0 <= n -> n + zlen s < 18446744073709551616 ->
    fold_left (fun n o => if enabled o =? 0 then n else if 0 <? Z.land (days o) (days e) then
      if INCLUDED (start_second e) o || INCLUDED (end_second e) o || INCLUDED (start_second o) e || INCLUDED (end_second o) e
      then wrap 64 (n + 1) else n else n) s n = n + zlen (filter (fun o => touching o e) s)).
  { clear s Hs. induction s as [|o s IH]; intros n Hn Hl; cbn [fold_left filter].
    - unfold zlen. cbn. lia.
    - replace (zlen (o :: s)) with (1 + zlen s) in Hl by (unfold zlen; cbn [length]; lia).
      pose proof (zlen_nonneg _ s). unfold touching at 1.
      destruct (enabled o =? 0); cbn [negb andb]; [rewrite IH by lia; reflexivity|].
      destruct (0 <? Z.land (days o) (days e)); cbn [andb]; [|rewrite IH by lia; reflexivity].
      destruct (INCLUDED (start_second e) o || INCLUDED (end_second e) o || INCLUDED (start_second o) e || INCLUDED (end_second o) e);
        [|rewrite IH by lia; reflexivity].
      rewrite wrap64_small by lia. rewrite IH by lia. unfold zlen. cbn [length]. lia. }
  rewrite H; [lia|lia|lia].
Qed.

Lemma land_share : forall a b, 0 <= a < 128 -> 0 <= b < 128 ->
  0 < Z.land a b <-> exists w, 0 <= w < 7 /\ Z.testbit a w = true /\ Z.testbit b w = true.
Proof.
  intros a b Ha Hb. split.
  - intros H. exists (Z.log2 (Z.land a b)).
    pose proof (Z.bit_log2 _ H) as Hbit. rewrite Z.land_spec in Hbit. apply andb_prop in Hbit as [H1 H2].
    pose proof (Z.log2_nonneg (Z.land a b)). split; [|auto]. split; [assumption|].
    destruct (Z.ltb_spec (Z.log2 (Z.land a b)) 7); [assumption|].
    rewrite Z.bits_above_log2 in H1; [discriminate|lia|].
    assert (Z.log2 a < 7); [|lia].
    destruct (Z.eq_dec a 0) as [->|]; [cbn; lia|]. apply Z.log2_lt_pow2; [lia|]. change (2 ^ 7) with 128. lia.
  - intros (w & Hw & H1 & H2).
    assert (0 <= Z.land a b) by (apply Z.land_nonneg; lia).
    destruct (Z.eq_dec (Z.land a b) 0) as [E|]; [|lia].
    assert (Hx : Z.testbit (Z.land a b) w = true) by (rewrite Z.land_spec, H1, H2; reflexivity).
    rewrite E, Z.bits_0 in Hx. discriminate.
Qed.

Lemma touching_overlapping : forall o e, entry_ok o -> entry_ok e -> days o < 128 -> days e < 128 ->
  same_day o -> same_day e -> start_second o <> end_second e -> start_second e <> end_second o ->
  touching o e = true <-> enabled o <> 0 /\ overlapping o e.
Proof.
  intros o e (O1 & O2 & O3 & O4 & _) (E1 & E2 & E3 & E4 & _) Hdo Hde [So1 So2] [Se1 Se2] T1 T2.
  unfold touching, overlapping, on_day, covers, INCLUDED, DAY in *.
  rewrite !andb_true_iff, negb_true_iff, Z.eqb_neq, Z.ltb_lt, land_share by lia. split.
  - intros ((H1 & w & Hw & Hb1 & Hb2) & H3). split; [exact H1|].
    exists w, (Z.max (start_second o) (start_second e)). repeat split; try assumption; lia.
  - intros (H1 & w & s & Hw & Hs & Hb1 & Hb2 & Hc1 & Hc2). split; [split; [exact H1|]; exists w; auto|]. lia.
Qed.

Lemma overlap_sound : forall o e, entry_ok o -> entry_ok e -> same_day o -> same_day e ->
  enabled o <> 0 -> overlapping o e -> touching o e = true.
Proof.
  intros o e (O1 & O2 & O3 & O4 & _) (E1 & E2 & E3 & E4 & _) [So1 So2] [Se1 Se2] H1 (w & s & Hw & Hs & Hb1 & Hb2 & Hc1 & Hc2).
  unfold touching, on_day, covers, INCLUDED, DAY in *.
  assert (0 < Z.land (days o) (days e)).
  { assert (0 <= Z.land (days o) (days e)) by (apply Z.land_nonneg; lia).
    destruct (Z.eq_dec (Z.land (days o) (days e)) 0) as [E|]; [|lia].
    assert (Hx : Z.testbit (Z.land (days o) (days e)) w = true) by (rewrite Z.land_spec, Hb1, Hb2; reflexivity).
    rewrite E, Z.bits_0 in Hx. discriminate. }
  lia.
Qed.

(** *** Serialization *)

Definition wire (e : entry) : list Z :=
  [enabled e; days e] ++ digits 4 (start_second e) ++ digits 4 (end_second e) ++ [value e mod 256].

Lemma ser8 : forall pre m post v, 0 <= v < 256 ->
  serialize_uint8 (pre ++ m :: post) (zlen pre) v = Done (pre ++ v :: post, 1).
Proof.
  intros pre m post v Hv. pose proof (serialize_layout_l W8 LE pre [m] post v) as H. cbn [serialize bytes_of layout digits app] in H.
  rewrite Z.mod_small in H by exact Hv. apply H; [reflexivity|exact Hv].
Qed.

Lemma ser32 : forall pre a b c d post v, 0 <= v < 2 ^ 32 ->
  serialize_uint32_le (pre ++ a :: b :: c :: d :: post) (zlen pre) v = Done (pre ++ digits 4 v ++ post, 4).
Proof. intros pre a b c d post v Hv. exact (serialize_layout_l W32 LE pre [a;b;c;d] post v eq_refl Hv). Qed.

Lemma des8 : forall pre v post, is_byte v -> deserialize_uint8 (pre ++ v :: post) (zlen pre) = Done (v, 1).
Proof.
  intros pre v post Hv. pose proof (deserialize_u_l W8 LE pre [v] post eq_refl) as H. cbn [deserialize_u layout app number] in H.
  rewrite Z.mul_0_r, Z.add_0_r in H. apply H. constructor; [exact Hv|constructor].
Qed.

Lemma des32 : forall pre v post, 0 <= v < 2 ^ 32 ->
  deserialize_uint32_le (pre ++ digits 4 v ++ post) (zlen pre) = Done (v, 4).
Proof.
  intros pre v post Hv. pose proof (deserialize_u_l W32 LE pre (digits 4 v) post) as H. cbn [deserialize_u layout] in H.
  rewrite number_digits in H. change (256 ^ Z.of_nat 4) with (2 ^ 32) in H. rewrite Z.mod_small in H by exact Hv.
  apply H; [apply digits_length|apply digits_bytes].
Qed.

Lemma len11 : forall (l : list Z), zlen l = 11 -> exists a b c d e f g h i j k, l = [a;b;c;d;e;f;g;h;i;j;k].
Proof.
  intros l H. do 11 (destruct l as [|? l]; [unfold zlen in H; cbn [length] in H; lia|]).
  destruct l; [|unfold zlen in H; cbn [length] in H; lia]. do 11 eexists. reflexivity.
Qed.

Lemma off : forall (pre l : list Z) n, zlen l = n -> zlen pre + n = zlen (pre ++ l).
Proof. intros. unfold zlen in *. rewrite app_length. lia. Qed.

Lemma serialize_l : forall pre mid post e, entry_ok e -> zlen mid = 11 ->
  scheduler_entry_serialize (pre ++ mid ++ post) (zlen pre) e = Done (pre ++ wire e ++ post, 11).
Proof.
  intros pre mid post e (E1 & E2 & E3 & E4 & E5) Hm.
  destruct (len11 mid Hm) as (a & b & c & d & f & g & h & i & j & k & l & ->). unfold scheduler_entry_serialize. cbv zeta.
  cbn [app]. rewrite Z.add_0_r. rewrite ser8 by assumption. cbn [obind].
  replace (zlen pre + (0 + 1)) with (zlen (pre ++ [enabled e])) by (unfold zlen; rewrite app_length; cbn [length]; lia).
  replace (pre ++ enabled e :: b :: c :: d :: f :: g :: h :: i :: j :: k :: l :: post)
    with ((pre ++ [enabled e]) ++ b :: c :: d :: f :: g :: h :: i :: j :: k :: l :: post) by (now rewrite <- app_assoc).
  rewrite ser8 by assumption. cbn [obind].
  replace (zlen pre + (0 + 1 + 1)) with (zlen (pre ++ [enabled e; days e])) by (unfold zlen; rewrite app_length; cbn [length]; lia).
  replace ((pre ++ [enabled e]) ++ days e :: c :: d :: f :: g :: h :: i :: j :: k :: l :: post)
    with ((pre ++ [enabled e; days e]) ++ c :: d :: f :: g :: h :: i :: j :: k :: l :: post) by (now rewrite <- !app_assoc).
  rewrite ser32 by assumption. cbn [obind].
  replace (zlen pre + (0 + 1 + 1 + 4)) with (zlen (pre ++ [enabled e; days e] ++ digits 4 (start_second e)))
    by (unfold zlen; rewrite !app_length, digits_length; cbn [length]; lia).
  replace ((pre ++ [enabled e; days e]) ++ digits 4 (start_second e) ++ h :: i :: j :: k :: l :: post)
    with ((pre ++ [enabled e; days e] ++ digits 4 (start_second e)) ++ h :: i :: j :: k :: l :: post) by (now rewrite <- !app_assoc).
  rewrite ser32 by assumption. cbn [obind].
  replace (zlen pre + (0 + 1 + 1 + 4 + 4)) with (zlen (pre ++ [enabled e; days e] ++ digits 4 (start_second e) ++ digits 4 (end_second e)))
    by (unfold zlen; rewrite !app_length, !digits_length; cbn [length]; lia).
  replace ((pre ++ [enabled e; days e] ++ digits 4 (start_second e)) ++ digits 4 (end_second e) ++ l :: post)
    with ((pre ++ [enabled e; days e] ++ digits 4 (start_second e) ++ digits 4 (end_second e)) ++ l :: post) by (now rewrite <- !app_assoc).
  rewrite ser8 by (apply wrap_range; lia). cbn [obind].
  change (0 + 1 + 1 + 4 + 4 + 1 =? 11) with true. cbv iota. f_equal. f_equal.
  unfold wire, wrap. change (2 ^ 8) with 256. now rewrite <- !app_assoc.
Qed.

Lemma deserialize_l : forall pre post e, entry_ok e ->
  scheduler_entry_deserialize (pre ++ wire e ++ post) (zlen pre) =
    Done (mkEntry (enabled e) (days e) (start_second e) (end_second e) (value e mod 256), 11).
Proof.
  intros pre post e (E1 & E2 & E3 & E4 & E5). unfold scheduler_entry_deserialize. cbv zeta. unfold wire.
  set (v := value e mod 256). assert (Hv : is_byte v) by (unfold is_byte, v; apply Z.mod_pos_bound; lia).
  rewrite <- !app_assoc. rewrite Z.add_0_r. cbn [app]. rewrite des8 by assumption. cbn [obind].
  replace (zlen pre + (0 + 1)) with (zlen (pre ++ [enabled e])) by (unfold zlen; rewrite app_length; cbn [length]; lia).
  replace (pre ++ enabled e :: days e :: digits 4 (start_second e) ++ digits 4 (end_second e) ++ v :: post)
    with ((pre ++ [enabled e]) ++ days e :: digits 4 (start_second e) ++ digits 4 (end_second e) ++ v :: post) by (now rewrite <- app_assoc).
  rewrite des8 by assumption. cbn [obind].
  replace (zlen pre + (0 + 1 + 1)) with (zlen (pre ++ [enabled e; days e])) by (unfold zlen; rewrite app_length; cbn [length]; lia).
  replace ((pre ++ [enabled e]) ++ days e :: digits 4 (start_second e) ++ digits 4 (end_second e) ++ v :: post)
    with ((pre ++ [enabled e; days e]) ++ digits 4 (start_second e) ++ digits 4 (end_second e) ++ v :: post) by (now rewrite <- !app_assoc).
  rewrite des32 by assumption. cbn [obind].
  replace (zlen pre + (0 + 1 + 1 + 4)) with (zlen (pre ++ [enabled e; days e] ++ digits 4 (start_second e)))
    by (unfold zlen; rewrite !app_length, digits_length; cbn [length]; lia).
  replace ((pre ++ [enabled e; days e]) ++ digits 4 (start_second e) ++ digits 4 (end_second e) ++ v :: post)
    with ((pre ++ [enabled e; days e] ++ digits 4 (start_second e)) ++ digits 4 (end_second e) ++ v :: post) by (now rewrite <- !app_assoc).
  rewrite des32 by assumption. cbn [obind].
  replace (zlen pre + (0 + 1 + 1 + 4 + 4)) with (zlen (pre ++ [enabled e; days e] ++ digits 4 (start_second e) ++ digits 4 (end_second e)))
    by (unfold zlen; rewrite !app_length, !digits_length; cbn [length]; lia).
  replace ((pre ++ [enabled e; days e] ++ digits 4 (start_second e)) ++ digits 4 (end_second e) ++ v :: post)
    with ((pre ++ [enabled e; days e] ++ digits 4 (start_second e) ++ digits 4 (end_second e)) ++ v :: post) by (now rewrite <- !app_assoc).
  rewrite des8 by assumption. cbn [obind]. reflexivity.
Qed.

(** *** Activity and remaining time *)

Lemma map_bit : forall s t i, tm_ok t -> Forall entry_ok s -> 0 <= i < zlen s -> i < 16 ->
  Z.testbit (scheduler_get_active_entries_map s t) i =
  active_today (nth (Z.to_nat i) s zero_entry) (tm_wday t) (clock t).
Proof.
  intros s t i Ht Hs Hi Hl. unfold scheduler_get_active_entries_map. rewrite map_loop_spec by lia.
  rewrite Z.bits_0, Z.sub_0_r. cbn [orb]. replace (0 <=? i) with true by lia.
  replace (i <? 0 + zlen s) with true by lia. cbn [andb]. apply active_eq; [|exact Ht].
  rewrite Forall_forall in Hs. apply Hs. apply nth_In. unfold zlen in Hi. lia.
Qed.

Lemma map_high : forall s t i, zlen s <= i < 16 ->
  Z.testbit (scheduler_get_active_entries_map s t) i = false.
Proof.
  intros s t i Hi. pose proof (zlen_nonneg _ s). unfold scheduler_get_active_entries_map. rewrite map_loop_spec by lia.
  rewrite Z.bits_0. cbn [orb]. replace (i <? 0 + zlen s) with false by lia. now rewrite andb_false_r.
Qed.

Lemma map_loop_range : forall t s i r, 0 <= r < 65536 -> 0 <= map_loop s t i r < 65536.
Proof.
  intros t. induction s as [|e s IH]; intros i r Hr; cbn [map_loop]; [exact Hr|]. apply IH. apply (wrap_range 16). lia.
Qed.

Lemma active_running_same : forall e wday s, 0 <= s < DAY -> end_second e <= DAY ->
  active_today e wday s = running e wday s.
Proof.
  intros e wday s Hs He. unfold active_today, running, covers, DAY in *.
  destruct (on_day e wday), (on_day e (yesterday wday)); cbn [andb orb]; lia.
Qed.

Lemma active_running_over : forall e wday s, 0 <= s < DAY -> start_second e <= DAY ->
  on_day e wday = on_day e (yesterday wday) -> active_today e wday s = running e wday s.
Proof.
  intros e wday s Hs He Hd. unfold active_today, running, covers, DAY in *. rewrite <- Hd.
  destruct (on_day e wday); cbn [andb orb]; lia.
Qed.

Lemma is_active_l : forall s t, tm_ok t -> Forall entry_ok s -> zlen s <= INT_MAX ->
  scheduler_is_active s t = b2z (existsb (fun e => eligible e t) s).
Proof.
  intros s t Ht Hs Hl. unfold scheduler_is_active. f_equal.
  destruct (scheduler_selects_l s t Ht Hs Hl) as [[H1 H2]|[H1 (e & H2 & H3 & _)]].
  - rewrite H1. symmetry. apply not_true_iff_false. intros H. apply existsb_exists in H as (e & Hin & He).
    rewrite H2 in He by assumption. discriminate.
  - replace (0 <=? scheduler_get_active_entry_number s t) with true by lia. symmetry. apply existsb_exists.
    exists e. split; [now apply nth_error_In in H2|exact H3].
Qed.

Lemma current_value_l : forall s t, tm_ok t -> Forall entry_ok s -> zlen s <= INT_MAX ->
  (scheduler_get_active_entry_number s t = -1 /\ scheduler_current_value s t = Done (0, None)) \/
  exists e, nth_error s (Z.to_nat (scheduler_get_active_entry_number s t)) = Some e /\
    scheduler_current_value s t = Done (1, Some (value e)).
Proof.
  intros s t Ht Hs Hl. unfold scheduler_current_value.
  destruct (scheduler_selects_l s t Ht Hs Hl) as [[H1 H2]|[H1 (e & H2 & H3 & _)]].
  - left. rewrite H1. split; reflexivity.
  - right. exists e. split; [exact H2|]. replace (0 <=? scheduler_get_active_entry_number s t) with true by lia.
    rewrite (zget_ok _ _ _ zero_entry) by exact H1. cbn [obind].
    now rewrite (nth_error_nth _ _ _ H2).
Qed.

Lemma remaining_l : forall s i t e, tm_ok t -> entry_ok e -> 0 <= i -> nth_error s (Z.to_nat i) = Some e ->
  scheduler_get_schedule_remaining_duration s i t =
    if active_today e (tm_wday t) (clock t) then wrap 64 (end_second e - clock t) else 0.
Proof.
  intros s i t e Ht He Hi Hn. unfold scheduler_get_schedule_remaining_duration, scheduler_get_entry.
  assert (i < zlen s). { unfold zlen. assert (Z.to_nat i < length s)%nat by (apply nth_error_Some; congruence). lia. }
  replace (zlen s <=? i) with false by lia. rewrite Hn, active_eq, clock_eq by assumption. reflexivity.
Qed.

Lemma current_remaining_l : forall s t, tm_ok t -> Forall entry_ok s -> zlen s <= INT_MAX ->
  scheduler_get_current_remaining_duration s t =
    if scheduler_get_active_entry_number s t =? -1 then 0
    else scheduler_get_schedule_remaining_duration s (scheduler_get_active_entry_number s t) t.
Proof.
  intros s t Ht Hs Hl. unfold scheduler_get_current_remaining_duration.
  destruct (scheduler_selects_l s t Ht Hs Hl) as [[H1 _]|[H1 _]].
  - rewrite H1. reflexivity.
  - replace (0 <=? scheduler_get_active_entry_number s t) with true by lia.
    replace (scheduler_get_active_entry_number s t =? -1) with false by lia.
    rewrite wrap64_small by (unfold INT_MAX in *; lia). reflexivity.
Qed.

(** * Leap seconds *)

Lemma leap_active : forall e t, entry_ok e -> leap t ->
  is_entry_active e t = on_day e (tm_wday t) && (2 * DAY <? end_second e).
Proof.
  intros e t (E1 & E2 & E3 & E4 & E5) (T1 & T2 & T3 & T4). unfold is_entry_active, on_day.
  rewrite T2, T3, T4. change (to_seconds 23 59 60) with 86400.
  rewrite day_incl by lia. destruct (Z.testbit (days e) (tm_wday t)); cbn [b2z Z.eqb andb]; [|reflexivity].
  change seconds_in_day with 86400. unfold DAY in *.
  destruct (Z.ltb_spec 86400 (end_second e)); lia.
Qed.

Lemma inactive_loop : forall t s i f, (forall e, In e s -> is_entry_active e t = false) -> active_loop s t i f = f.
Proof.
  intros t. induction s as [|e s IH]; intros i f H; [reflexivity|]. cbn [active_loop].
  rewrite (H e) by (left; reflexivity). rewrite IH by (intros x Hx; apply H; right; exact Hx).
  destruct (enabled e =? 0); reflexivity.
Qed.

Lemma inactive_map : forall t s i, (forall e, In e s -> is_entry_active e t = false) -> map_loop s t i 0 = 0.
Proof.
  intros t. induction s as [|e s IH]; intros i H; [reflexivity|]. cbn [map_loop].
  rewrite (H e) by (left; reflexivity). cbn [b2z]. rewrite Z.shiftl_0_l. change (wrap 16 (Z.lor 0 0)) with 0.
  apply IH. intros x Hx. apply H. right. exact Hx.
Qed.

Lemma leap_l : forall s t, leap t -> Forall entry_ok s ->
  (forall e, In e s -> is_entry_active e t = on_day e (tm_wday t) && (2 * DAY <? end_second e)) /\
  (Forall (fun e => end_second e <= 2 * DAY) s ->
   scheduler_is_active s t = 0 /\ scheduler_get_active_entry_number s t = -1 /\
   scheduler_current_value s t = Done (0, None) /\ scheduler_get_active_entries_map s t = 0 /\
   scheduler_get_current_remaining_duration s t = 0 /\
   forall i, 0 <= i -> scheduler_get_schedule_remaining_duration s i t = 0).
Proof.
  intros s t Ht Hs. rewrite Forall_forall in Hs.
  assert (A : forall e, In e s -> is_entry_active e t = on_day e (tm_wday t) && (2 * DAY <? end_second e))
    by (intros e He; apply leap_active; auto).
  split; [exact A|]. intros Hd. rewrite Forall_forall in Hd.
  assert (F : forall e, In e s -> is_entry_active e t = false).
  { intros e He. rewrite (A e He). specialize (Hd e He). destruct (Z.ltb_spec (2 * DAY) (end_second e)); [lia|]. apply andb_false_r. }
  assert (Nn : scheduler_get_active_entry_number s t = -1).
  { unfold scheduler_get_active_entry_number. rewrite inactive_loop by exact F. reflexivity. }
  split; [unfold scheduler_is_active; rewrite Nn; reflexivity|]. split; [exact Nn|].
  split; [unfold scheduler_current_value; rewrite Nn; reflexivity|].
  split; [apply inactive_map; exact F|].
  split; [unfold scheduler_get_current_remaining_duration; rewrite Nn; reflexivity|].
  intros i Hi. unfold scheduler_get_schedule_remaining_duration, scheduler_get_entry.
  destruct (zlen s <=? i); [reflexivity|]. destruct (nth_error s (Z.to_nat i)) as [e|] eqn:E; [|reflexivity].
  rewrite (F e) by (eapply nth_error_In; exact E). reflexivity.
Qed.
