(** Property C201: when a delayed watcher reports a change. *)
From Coq Require Import ZifyBool.
From Verif Require Import Base BaseLemmas TimeModel TimeSpec WatcherModel WatcherSpec WatcherSystem WatcherProofs WatcherProps.
From Verif Require Import WatchLateSpec WatchLateProofs.

(** The memory is [mem t] at time [t].  A list of watchers is initialised at [t0] and processed at
    the instants [ts], at most [J] apart.  If the bytes of the watcher [x] have a new value
    [v] from [tc] on, for its delay and twice [J], then its callback is called with [v] between
    the delay and the delay plus twice [J] after [tc], and not before since [tc]. *)
Theorem watcher_latency : forall I w eff malloc ok block z rest ws x mem t0 ts J tc v,
  0 < w -> I <= w -> current z = 0 ->
  Forall (fun y => fresh y /\ fits (zlen (mem t0)) y) ws ->
  (malloc = true -> ok = true) -> (malloc = false -> Forall (fun y => size y <= block /\ zlen (old y) = block) ws) ->
  harmless eff ws -> (forall t, zlen (mem t) = zlen (mem t0)) ->
  Forall (fun y => 0 <= delay y < 2 ^ (w - 1)) ws -> 0 <= J < 2 ^ (w - 1) -> paced J t0 ts ->
  In x ws -> 0 < delay x -> (forall y, In y ws -> cb y = cb x -> y = x) ->
  t0 < tc -> (forall t, tc <= t <= tc + delay x + 2 * J -> bytes (mem t) (current x) (size x) = v) ->
  bytes (mem (last_before tc t0 ts)) (current x) (size x) <> v -> tc + delay x + J <= last ts t0 ->
  exists l l' outs k t cs res,
    watcher_list_init malloc ok block (ws ++ z :: rest) (mem t0) = Done l /\
    wrun I w eff l (looks mem ts) = Done (l', outs) /\
    nth_error ts k = Some t /\ tc + delay x <= t <= tc + delay x + 2 * J /\
    nth_error outs k = Some (cs, res) /\ In (cb x, current x, data x, v) cs /\
    forall k' t' cs' res', (k' < k)%nat -> nth_error ts k' = Some t' -> tc <= t' ->
      nth_error outs k' = Some (cs', res') -> Forall (fun e => fst (fst (fst e)) <> cb x) cs'.
Proof.
  intros I w eff malloc ok block z rest ws x mem t0 ts J tc v Hw HI Hz Hf Hok Hbl He Hm Hdl HJ Hp Hx Hd Hu H0 Hv Hne Hl.
  assert (HS : steady (2 ^ (w - 1)) (rev (looks mem ts))) by (exact (steady_looks mem _ J ts t0 HJ Hp)).
  destruct (watcher_history I w eff malloc ok block z rest ws (mem t0) (looks mem ts)) as (l & l' & outs & E1 & E2 & Hlen & Hout); auto.
  { unfold looks. apply Forall_map. apply Forall_forall. intros t _. apply Hm. }
  { eapply Forall_impl; [|exact Hdl]. intros y Hy. cbv beta in Hy. unfold timely. destruct (Z.eq_dec (delay y) 0); [now left|right]. split; [lia|exact HS]. }
  destruct (late_l mem (mem t0) (current x) (size x) (delay x) J tc v Hd (proj1 HJ) Hv ts t0 eq_refl Hp H0 Hne Hl)
    as (q & t & r & E & Ht & HSt & HN).
  assert (HF : forall q' t' r', ts = q' ++ t' :: r' ->
    nth_error outs (length q') = Some (expected ws (mem t0) ((t', mem t') :: rev (looks mem q')))).
  { intros q' t' r' Eq. rewrite Hout.
    - f_equal. f_equal. unfold looks. rewrite Eq, map_app. cbn [map].
      replace (S (length q')) with (length (map (fun t => (t, mem t)) q' ++ [(t', mem t')]))%nat
        by (rewrite app_length, map_length; cbn; lia).
      change ((t', mem t') :: map (fun t => (t, mem t)) r') with ([(t', mem t')] ++ map (fun t => (t, mem t)) r').
      rewrite app_assoc, firstn_app, Nat.sub_diag, firstn_all. cbn [firstn]. rewrite app_nil_r, rev_app_distr. reflexivity.
    - unfold looks. rewrite map_length, Eq, app_length. cbn. lia. }
  assert (Hfire : forall h, fires (mem t0) (current x) (size x) (delay x) h = settles (mem t0) (current x) (size x) (delay x) h).
  { intros h. unfold fires. destruct (Z.eqb_spec (delay x) 0); [lia|reflexivity]. }
  exists l, l', outs, (length q), t. do 2 eexists.
  split; [exact E1|]. split; [exact E2|]. split; [now rewrite E, nth_error_app2, Nat.sub_diag by lia|]. split; [exact Ht|].
  split; [exact (HF q t r E)|]. split.
  - cbn [before]. apply in_map_iff. exists x. split; [unfold call_of; now rewrite Hv by lia|].
    apply filter_In. split; [exact Hx|]. now rewrite Hfire.
  - intros k' t' cs' res' Hk Hk' Ht' Ho.
    destruct (nth_error_split ts k' Hk') as (q' & r' & Eq & Lq). subst k'.
    rewrite (HF q' t' r' Eq) in Ho. unfold expected in Ho. injection Ho as <- _. apply Forall_map. apply Forall_forall.
    intros y Hy. apply filter_In in Hy as [Hy Hfy]. cbn. intros Ecb. apply (Hu y Hy) in Ecb. subst y.
    rewrite Hfire in Hfy.
    assert (Hq : exists r2, q = q' ++ t' :: r2).
    { rewrite E in Eq. clear - Eq Hk. revert q Eq Hk. induction q' as [|a q' IH]; intros [|b q] Eq Hk; cbn in *; try lia.
      - injection Eq as -> _. now exists q.
      - injection Eq as -> Eq. destruct (IH q Eq ltac:(lia)) as (r2 & ->). now exists r2. }
    destruct Hq as (r2 & Hq). rewrite (HN q' t' r2 Hq Ht') in Hfy. discriminate.
Qed.
Print Assumptions watcher_latency.

(** Two watchers, delay 10, processed every 4: the bytes at 1 and 2 change at 9, are found at 12 and
    reported at 24; the bytes at 3 change meanwhile and are reported at once. *)
Example watcher_latency_case :
  let ws := [mkWatcher [0; 0; 0; 0] 1 2 7 70 0 10 0; mkWatcher [0; 0; 0; 0] 3 1 8 80 0 0 0] in
  let mem t := if t <? 9 then [0; 1; 2; 3] else if t <? 15 then [0; 5; 6; 3] else [0; 5; 6; 4] in
  let ts := [4; 8; 12; 16; 20; 24; 28] in
  let z := mkWatcher [] 0 0 0 0 0 0 0 in
  paced 4 0 ts /\ last_before 9 0 ts = 8 /\ last ts 0 = 28 /\ bytes (mem 8) 1 2 <> [5; 6] /\
  (do l <- watcher_list_init false true 4 (ws ++ [z]) (mem 0);
   do (_, outs) <- wrun 32 64 (fun _ _ _ m => m) l (looks mem ts); Done outs) =
  Done [([], 0); ([], 0); ([], 1); ([(8, 3, 80, [4])], 1); ([], 0); ([(7, 1, 70, [5; 6])], 0); ([], 0)].
Proof.
  cbv zeta. split; [cbn; lia|]. split; [reflexivity|]. split; [reflexivity|]. split; [discriminate|]. vm_compute. reflexivity.
Qed.
