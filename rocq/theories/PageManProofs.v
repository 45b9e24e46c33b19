(** Proofs about the page manager. *)
From Verif Require Import Base BaseLemmas StackModel StackSpec StackSystem StackProofs.
From Verif Require Import PageManModel PageManSpec PageManSystem.

(** The functions without an extra argument pass NULL. *)
Lemma change_eq : forall cfg ev pm tr p x, change_call cfg ev pm tr p x = pman_change_page_extra cfg ev pm tr p x.
Proof. intros. unfold change_call. destruct (Z.eqb_spec x 0) as [->|]; reflexivity. Qed.
Lemma swap_eq : forall cfg ev pm tr p x, swap_call cfg ev pm tr p x = pman_swap_page_extra cfg ev pm tr p x.
Proof. intros. unfold swap_call. destruct (Z.eqb_spec x 0) as [->|]; reflexivity. Qed.
Lemma rebase_eq : forall cfg ev pm tr p x, rebase_call cfg ev pm tr p x = pman_rebase_page_extra cfg ev pm tr p x.
Proof. intros. unfold rebase_call. destruct (Z.eqb_spec x 0) as [->|]; reflexivity. Qed.

Lemma trace_app : forall u h k, trace u (h ++ k) = trace u h ++ trace u k.
Proof. intros. apply flat_map_app. Qed.

Lemma trace_cons : forall u l k, trace u (l :: k) = seen u l ++ trace u k.
Proof. reflexivity. Qed.

Section Refine.
Variable cfg : config.
Variable ev : env.
Variable depth : Z.
Hypothesis Hdebug : ndebug cfg = false.
Hypothesis Hdepth : depth <= 65535.

Set Default Proof Using "Hdebug Hdepth".

Notation tr_ := (trace (updates cfg)).

Definition nrep (s : pman * list event) (n : nav) : Prop :=
  snd s = tr_ (hist n) /\
  match insts n with
  | [] => initialized (fst s) = 0 /\ srep depth (page_stack (fst s)) []
  | c :: rest => initialized (fst s) = 1 /\ current_page (fst s) = Some (ipage c) /\
      srep depth (page_stack (fst s)) (map ipage rest)
  end.

Lemma close_trace : forall h i, call_close (tr_ h) (ipage i) = tr_ (h ++ [LClose i]).
Proof.
  intros h i. rewrite trace_app, trace_cons. cbn [trace flat_map]. rewrite app_nil_r. unfold call_close, seen.
  destruct (close_ (ipage i)); [reflexivity|now rewrite app_nil_r].
Qed.

Lemma destroy_trace : forall h i, call_destroy (tr_ h) (ipage i) = tr_ (h ++ [LDestroy i]).
Proof.
  intros h i. rewrite trace_app, trace_cons. cbn [trace flat_map]. rewrite app_nil_r. unfold call_destroy, seen.
  destruct (destroy (ipage i)); [reflexivity|now rewrite app_nil_r].
Qed.

Lemma open_trace : forall h i, call_open (tr_ h) (ipage i) = tr_ (h ++ [LOpen i]).
Proof.
  intros h i. rewrite trace_app, trace_cons. cbn [trace flat_map]. rewrite app_nil_r. unfold call_open, seen.
  destruct (open_ (ipage i)); [reflexivity|now rewrite app_nil_r].
Qed.

Lemma update_trace : forall h i, call_update cfg ev (tr_ h) (ipage i) =
  (tr_ (fst (updated cfg ev h i)), snd (updated cfg ev h i)).
Proof.
  intros h i. unfold call_update, updated. destruct (updates cfg) eqn:Eu; [|reflexivity].
  destruct (update (ipage i)) as [f|] eqn:Ef; [|reflexivity]. cbn [fst snd].
  rewrite trace_app, trace_cons. cbn [trace flat_map seen]. rewrite Ef. reflexivity.
Qed.

Lemma leave_trace : forall h i, call_destroy (call_close (tr_ h) (ipage i)) (ipage i) = tr_ (h ++ [LClose i; LDestroy i]).
Proof. intros h i. rewrite close_trace, destroy_trace. now rewrite <- app_assoc. Qed.

(** Showing a page once the rest is in place. *)
Lemma show_rep : forall pm h n below p x,
  initialized pm = 1 -> srep depth (page_stack pm) (map ipage below) ->
  let (n', v) := shown cfg ev n h below p x in
  exists s', show cfg ev pm (tr_ h) p x = (s', v) /\ nrep s' n'.
Proof.
  intros pm h n below p x Hi Hs. unfold shown.
  set (d := match create p with Some f => ret_create ev (tr_ h) f x | None => DATA_NULL cfg end).
  set (q := mkPage (id p) d x (create p) (destroy p) (open_ p) (close_ p) (update p) (process_event p)).
  set (i := mkInst (count n) q).
  pose proof (update_trace (h ++ [LCreate i; LOpen i]) i) as HU.
  destruct (updated cfg ev (h ++ [LCreate i; LOpen i]) i) as [h' v] eqn:Eu. cbn [fst snd] in HU.
  exists (with_page pm q, tr_ h').
  assert (E : (match create (set_extra p x) with
    | Some f => let d := ret_create ev (tr_ h) f x in (set_data (set_extra p x) d, tr_ h ++ [ECreate f x d])
    | None => (set_data (set_extra p x) (DATA_NULL cfg), tr_ h)
    end) = (q, tr_ (h ++ [LCreate i]))).
  { rewrite trace_app, trace_cons. cbn [trace flat_map]. rewrite app_nil_r. unfold seen, i, q. cbn [ipage create extra data].
    unfold set_extra, set_data. cbn [create id data extra destroy open_ close_ update process_event]. subst d.
    destruct (create p); [reflexivity|]. now rewrite app_nil_r. }
  split.
  - unfold show. cbv zeta. cbv zeta in E. rewrite E. change q with (ipage i) at 1. rewrite open_trace, <- app_assoc. cbn [app].
    change q with (ipage i) at 1. rewrite HU. reflexivity.
  - unfold nrep. cbn [fst snd hist insts with_page initialized current_page page_stack]. auto.
Qed.

Lemma pop_cons : forall (s : stack page) a l, srep depth s (a :: l) ->
  exists s', stack_pop s true = Done (s', (0, Some a)) /\ srep depth s' l.
Proof.
  intros s a l H. destruct (sstep_rep depth s (a :: l) Pop Hdepth H) as (s' & E & H').
  cbn [sspec_step fst snd] in H'. change (snd (sspec_step depth (a :: l) Pop)) with (0, [a]) in E. unfold stack_step in E.
  destruct (stack_pop s true) as [[s2 [r [b|]]]| | |]; cbn [obind oitem] in E; try discriminate.
  injection E as -> -> ->. exists s'. auto.
Qed.

Lemma pop_nil : forall s : stack page, srep depth s [] -> stack_pop s true = Done (s, (1, None)).
Proof. intros s H. destruct H. unfold stack_pop. rewrite s_idx. reflexivity. Qed.

Lemma push_full : forall (s : stack page) a l, srep depth s l -> zlen l = depth -> stack_push s a = Done (s, 1).
Proof. intros s a l H Hl. destruct H. unfold stack_push, scapacity. rewrite s_cap, s_idx, Hl, Z.eqb_refl. reflexivity. Qed.

Lemma push_ok : forall (s : stack page) a l, srep depth s l -> zlen l < depth ->
  exists s', stack_push s a = Done (s', 0) /\ srep depth s' (a :: l).
Proof.
  intros s a l H Hl. destruct (sstep_rep depth s l (Push a) Hdepth H) as (s' & E & H').
  cbn -[Z.of_nat] in E, H'. fold (zlen l) in E, H'. destruct (Z.ltb_spec (zlen l) depth); [|lia].
  cbn [fst snd] in *. destruct (stack_push s a) as [[s2 r]| | |]; cbn [obind] in E; try discriminate.
  injection E as -> ->. eauto.
Qed.

Lemma clear_rep : forall l fuel s h, srep depth s (map ipage l) -> (length l < fuel)%nat ->
  exists s', clear_page_stack fuel s (tr_ h) = Done (s', tr_ (h ++ map LDestroy l)) /\ srep depth s' [].
Proof.
  induction l as [|i l IH]; intros fuel s h Hs Hf; (destruct fuel as [|fuel]; [lia|]); cbn [clear_page_stack].
  - rewrite pop_nil by exact Hs. cbn [obind]. exists s. rewrite app_nil_r. auto.
  - cbn [map] in Hs. destruct (pop_cons _ _ _ Hs) as (s' & E & Hs'). rewrite E. cbn [obind Z.eqb].
    rewrite destroy_trace. destruct (IH fuel s' (h ++ [LDestroy i]) Hs' ltac:(cbn [length] in Hf; lia)) as (s2 & E2 & H2).
    exists s2. rewrite E2, <- app_assoc. auto.
Qed.

Lemma reset_rep : forall k l fuel pm h n, srep depth (page_stack pm) (map ipage l) -> initialized pm = 0 -> (length l < fuel)%nat ->
  let (gone, kept) := split_at k l in
  match kept with
  | [] => exists pm', reset_loop cfg ev fuel pm (tr_ h) k = Done (pm', tr_ (h ++ map LDestroy gone), VIEW_NULL cfg, 0) /\
            nrep (pm', tr_ (h ++ map LDestroy gone)) (mkNav [] (h ++ map LDestroy gone) (count n))
  | d :: below => let (n', v) := reopened cfg ev n (h ++ map LDestroy gone) d below in
            exists s', reset_loop cfg ev fuel pm (tr_ h) k = Done (s', v, 1) /\ nrep s' n'
  end.
Proof.
  intros k. induction l as [|i l IH]; intros fuel pm h n Hs Hi Hf; (destruct fuel as [|fuel]; [lia|]); cbn [reset_loop split_at].
  - rewrite pop_nil by exact Hs. cbn [obind map]. rewrite app_nil_r. eexists. split; [reflexivity|].
    unfold nrep. cbn [fst snd hist insts initialized with_stack page_stack]. auto.
  - cbn [map] in Hs. destruct (pop_cons _ _ _ Hs) as (s' & E & Hs'). rewrite E. cbn [obind Z.eqb].
    destruct (id (ipage i) =? k) eqn:Ek.
    + unfold reopened. cbn [map]. rewrite app_nil_r. rewrite open_trace, update_trace.
      destruct (updated cfg ev (h ++ [LOpen i]) i) as [h' v]. cbn [fst snd]. eexists. split; [reflexivity|].
      unfold nrep. cbn [fst snd hist insts with_page with_init with_stack initialized current_page page_stack]. auto.
    + rewrite destroy_trace.
      specialize (IH fuel (with_stack pm s') (h ++ [LDestroy i]) n Hs' Hi ltac:(cbn [length] in Hf; lia)).
      destruct (split_at k l) as [gone kept]. cbn [map]. rewrite <- app_assoc in IH. exact IH.
Qed.

Lemma idx_fuel : forall s (l : list inst), srep depth s (map ipage l) -> (length l < S (Z.to_nat (idx s)))%nat.
Proof. intros s l H. destruct H. rewrite s_idx. unfold zlen. rewrite map_length. lia. Qed.

Lemma step_rep : forall s n o, nrep s n ->
  match navigate cfg ev depth n o with
  | Undef => True
  | Abort => pman_step cfg ev s o = Abort
  | Timeout => False
  | Done (n', r) => exists s', pman_step cfg ev s o = Done (s', r) /\ nrep s' n'
  end.
Proof.
  intros [pm tr] n o [Ht Hn]. cbn [fst snd] in Ht, Hn. subst tr. unfold navigate. destruct o as [p x| |p x|p x|k| |e].
  - (* change *)
    unfold pman_step. rewrite change_eq. unfold pman_change_page_extra. destruct (insts n) as [|c rest] eqn:Ei.
    + destruct Hn as [Hi Hs]. rewrite Hi. cbn [Z.eqb].
      pose proof (show_rep (with_init pm 1) (hist n) n [] p x eq_refl Hs) as H.
      destruct (shown cfg ev n (hist n) [] p x) as [n' v]. destruct H as (s' & E & Hr). rewrite E. cbn [obind].
      destruct s' as [pm' tr']. eauto.
    + destruct Hn as (Hi & Hc & Hs). rewrite Hi. cbn [Z.eqb]. unfold current. rewrite Hc. cbn [obind]. rewrite Hdebug.
      rewrite close_trace.
      assert (Hz : zlen (c :: rest) = zlen (map ipage rest) + 1) by (unfold zlen; rewrite map_length; cbn [length]; lia).
      destruct (Z.ltb_spec depth (zlen (c :: rest))).
      * rewrite (push_full _ _ _ Hs) by (destruct Hs; lia). reflexivity.
      * destruct (push_ok _ (ipage c) _ Hs ltac:(lia)) as (s' & E & Hs'). rewrite E. cbn [obind Z.eqb].
        pose proof (show_rep (with_stack pm s') (hist n ++ [LClose c]) n (c :: rest) p x Hi Hs') as H1.
        destruct (shown cfg ev n (hist n ++ [LClose c]) (c :: rest) p x) as [n' v]. destruct H1 as ([pm' tr'] & E1 & Hr).
        rewrite E1. cbn [obind]. eauto.
  - (* back *)
    unfold pman_step, pman_back, assert. rewrite Hdebug. cbn [orb]. destruct (insts n) as [|c [|d rest]] eqn:Ei.
    + destruct Hn as [Hi Hs]. rewrite Hi. reflexivity.
    + destruct Hn as (Hi & Hc & Hs). rewrite Hi. cbn [Z.eqb negb obind]. rewrite pop_nil by exact Hs. cbn [obind].
      eexists. split; [reflexivity|]. unfold nrep. rewrite Ei. cbn [fst snd with_stack initialized current_page page_stack]. auto.
    + destruct Hn as (Hi & Hc & Hs). rewrite Hi. cbn [Z.eqb negb obind]. cbn [map] in Hs.
      destruct (pop_cons _ _ _ Hs) as (s' & E & Hs'). rewrite E. cbn [obind Z.eqb]. unfold current. rewrite Hc. cbn [obind].
      rewrite leave_trace, open_trace, update_trace. unfold reopened.
      destruct (updated cfg ev ((hist n ++ [LClose c; LDestroy c]) ++ [LOpen d]) d) as [h v]. cbn [fst snd obind].
      eexists. split; [reflexivity|]. unfold nrep.
      cbn [fst snd hist insts with_page with_stack initialized current_page page_stack]. auto.
  - (* swap *)
    destruct (insts n) as [|c rest] eqn:Ei; [exact I|]. destruct Hn as (Hi & Hc & Hs).
    unfold pman_step. rewrite swap_eq. unfold pman_swap_page_extra, current. rewrite Hc. cbn [obind]. rewrite leave_trace.
    pose proof (show_rep pm (hist n ++ [LClose c; LDestroy c]) n rest p x Hi Hs) as H.
    destruct (shown cfg ev n (hist n ++ [LClose c; LDestroy c]) rest p x) as [n' v]. destruct H as ([pm' tr'] & E & Hr).
    rewrite E. cbn [obind]. eauto.
  - (* rebase *)
    destruct (insts n) as [|c rest] eqn:Ei; [exact I|]. destruct Hn as (Hi & Hc & Hs).
    unfold pman_step. rewrite rebase_eq. unfold pman_rebase_page_extra, current. rewrite Hc. cbn [obind]. rewrite leave_trace.
    destruct (clear_rep rest (S (Z.to_nat (idx (page_stack pm)))) _ (hist n ++ [LClose c; LDestroy c]) Hs (idx_fuel _ _ Hs)) as (s' & E & Hs').
    rewrite E. cbn [obind]. rewrite <- app_assoc. cbn [app map].
    pose proof (show_rep (with_stack pm s') (hist n ++ LClose c :: LDestroy c :: map LDestroy rest) n [] p x Hi Hs') as H.
    destruct (shown cfg ev n (hist n ++ LClose c :: LDestroy c :: map LDestroy rest) [] p x) as [n' v].
    destruct H as ([pm' tr'] & E' & Hr). rewrite E'. cbn [obind]. eauto.
  - (* reset *)
    destruct (insts n) as [|c rest] eqn:Ei; [exact I|]. destruct Hn as (Hi & Hc & Hs).
    unfold pman_step, pman_reset_to_page, current. rewrite Hc. cbn [obind]. rewrite leave_trace.
    pose proof (reset_rep k rest (S (Z.to_nat (idx (page_stack pm)))) (with_init pm 0) (hist n ++ [LClose c; LDestroy c]) n Hs eq_refl (idx_fuel _ _ Hs)) as H.
    destruct (split_at k rest) as [gone kept]. rewrite <- app_assoc in H. cbn [app map] in *.
    destruct kept as [|d below].
    + destruct H as (pm' & E & Hr). rewrite E. cbn [obind]. eauto.
    + destruct (reopened cfg ev n (hist n ++ LClose c :: LDestroy c :: map LDestroy gone) d below) as [n' v].
      destruct H as ([pm' tr'] & E & Hr). rewrite E. cbn [obind]. eauto.
  - (* update *)
    unfold pman_step, pman_page_update, assert. rewrite Hdebug. cbn [orb]. destruct (insts n) as [|c rest] eqn:Ei.
    + destruct Hn as [Hi Hs]. rewrite Hi. reflexivity.
    + destruct Hn as (Hi & Hc & Hs). rewrite Hi. cbn [Z.eqb negb obind]. unfold current. rewrite Hc.
      assert (E : forall A (k : page -> outcome A), (do p <- Done (ipage c); k p) = k (ipage c)) by reflexivity.
      rewrite E. rewrite update_trace.
      assert (Hu : updates cfg = false -> updated cfg ev (hist n) c = (hist n, VIEW_NULL cfg)).
      { intros Hu. unfold updated. now rewrite Hu. }
      destruct (updates cfg) eqn:Eu.
      * destruct (updated cfg ev (hist n) c) as [h v]. cbn [fst snd obind]. eexists. split; [reflexivity|].
        unfold nrep. cbn [fst snd hist insts]. rewrite Eu. auto.
      * rewrite Hu by reflexivity. cbn [obind]. eexists. split; [reflexivity|]. unfold nrep. cbn [fst snd hist insts]. rewrite Eu. auto.
  - (* event *)
    unfold pman_step, pman_process_page_event, assert. rewrite Hdebug. cbn [orb]. destruct (insts n) as [|c rest] eqn:Ei.
    + destruct Hn as [Hi Hs]. rewrite Hi. reflexivity.
    + destruct Hn as (Hi & Hc & Hs). rewrite Hi. cbn [Z.eqb negb obind]. unfold current. rewrite Hc. cbn [obind].
      destruct (process_event (ipage c)) as [f|] eqn:Ef; [|exact I]. cbn [obind]. eexists. split; [reflexivity|].
      unfold nrep, record. cbn [fst snd hist insts]. rewrite Ei. split; [|auto].
      rewrite trace_app, trace_cons. cbn [trace flat_map seen]. rewrite Ef. reflexivity.
Qed.

Lemma run_rep : forall h s n, nrep s n ->
  match navigates cfg ev depth n h with
  | Undef => True
  | Abort => pman_run cfg ev s h = Abort
  | Timeout => False
  | Done (n', rs) => exists s', pman_run cfg ev s h = Done (s', rs) /\ nrep s' n'
  end.
Proof.
  induction h as [|o h IH]; intros s n Hr; cbn [navigates pman_run].
  - eauto.
  - pose proof (step_rep s n o Hr) as H. destruct (navigate cfg ev depth n o) as [[n' r]| | |]; cbn [obind].
    + destruct H as (s' & E & Hr'). rewrite E. cbn [obind]. specialize (IH s' n' Hr').
      destruct (navigates cfg ev depth n' h) as [[n'' rs]| | |]; cbn [obind]; try exact I.
      * destruct IH as (s'' & E' & Hr''). rewrite E'. cbn [obind]. eauto.
      * rewrite IH. reflexivity.
      * exact IH.
    + exact I.
    + rewrite H. reflexivity.
    + exact H.
Qed.

Lemma srep_stacked : forall (s : stack page) l, srep depth s l -> rev (firstn (Z.to_nat (idx s)) (sitems s)) = l.
Proof.
  intros s l H. destruct H. rewrite s_idx. unfold zlen. rewrite Nat2Z.id.
  rewrite <- (rev_involutive l) at 2. f_equal.
  assert (Hl : length (rev l) = length l) by apply rev_length.
  apply nth_error_ext. intros j. rewrite nth_error_firstn. destruct (Nat.ltb_spec j (length l)).
  - destruct (nth_error (rev l) j) as [a|] eqn:Ea; [now apply s_cells|]. apply nth_error_None in Ea. lia.
  - symmetry. apply nth_error_None. lia.
Qed.

Lemma nrep_pages : forall s n, nrep s n -> pages (fst s) = map ipage (insts n).
Proof.
  intros s n [_ H]. unfold pages. destruct (insts n) as [|c rest].
  - destruct H as [-> _]. reflexivity.
  - destruct H as (-> & -> & Hs). cbn [Z.eqb map]. unfold stacked. now rewrite (srep_stacked _ _ Hs).
Qed.

Lemma nrep_init : forall pm, zlen (sitems (page_stack pm)) = depth -> nrep (pman_init pm, []) no_pages.
Proof.
  intros pm H. split; [reflexivity|]. cbn [no_pages insts fst pman_init initialized page_stack]. split; [reflexivity|].
  pose proof (zlen_nonneg _ (sitems (page_stack pm))).
  constructor; cbn [stack_init idx sitems]; try assumption; try reflexivity.
  - unfold zlen at 1. cbn. lia.
  - intros [|j] a Hj; discriminate.
Qed.

Lemma refines_l : forall pm h, zlen (sitems (page_stack pm)) = depth ->
  match navigates cfg ev depth no_pages h with
  | Undef => True
  | Abort => pman_run cfg ev (pman_init pm, []) h = Abort
  | Timeout => False
  | Done (n, rs) => exists pm', pman_run cfg ev (pman_init pm, []) h = Done (pm', tr_ (hist n), rs) /\
      pages pm' = map ipage (insts n)
  end.
Proof.
  intros pm h Hd. pose proof (run_rep h _ _ (nrep_init pm Hd)) as H.
  destruct (navigates cfg ev depth no_pages h) as [[n rs]| | |]; try exact H.
  destruct H as ([pm' tr] & E & Hr). exists pm'. pose proof (nrep_pages _ _ Hr) as Hp. destruct Hr as [Ht _]. cbn [fst snd] in *.
  subst tr. auto.
Qed.
Unset Default Proof Using.
End Refine.

(** *** Lives *)

Lemma lives_app : forall h k w, lives w (h ++ k) = match lives w h with Some w' => lives w' k | None => None end.
Proof.
  induction h as [|l h IH]; intros k w; cbn [lives app]; [reflexivity|]. destruct (live w l); [apply IH|reflexivity].
Qed.

(** The world agrees with the stack. *)
Definition wrep (w : world) (n : nav) : Prop :=
  lives (mkWorld [] None 0) (hist n) = Some w /\
  NoDup (map num (insts n)) /\ (forall k, In k (alive w) <-> In k (map num (insts n))) /\
  opened w = match insts n with [] => None | c :: _ => Some (num c) end /\
  next w = count n /\ (forall k, In k (map num (insts n)) -> (k < count n)%nat).

Lemma alive_in : forall w i, is_alive w i = true <-> In (num i) (alive w).
Proof.
  intros w i. unfold is_alive. rewrite existsb_exists. split.
  - intros (k & Hk & E). apply Nat.eqb_eq in E. now rewrite E.
  - intros H. exists (num i). split; [exact H|apply Nat.eqb_refl].
Qed.

Lemma destroys : forall l w, NoDup (map num l) -> (forall i, In i l -> In (num i) (alive w)) ->
  opened w = None ->
  exists w', lives w (map LDestroy l) = Some w' /\ opened w' = None /\ next w' = next w /\
    forall k, In k (alive w') <-> In k (alive w) /\ ~ In k (map num l).
Proof.
  induction l as [|i l IH]; intros w Hn Ha Ho; cbn [map lives].
  - exists w. repeat split; auto; tauto.
  - cbn [map] in Hn. apply NoDup_cons_iff in Hn as [Hi Hn]. cbn [live].
    assert (E1 : is_alive w i = true) by (apply alive_in, Ha; now left). rewrite E1.
    unfold is_open. rewrite Ho. cbn [andb negb].
    set (w1 := mkWorld (filter (fun k => negb (k =? num i)%nat) (alive w)) None (next w)).
    assert (Hw1 : forall k, In k (alive w1) <-> In k (alive w) /\ k <> num i).
    { intros k. cbn [w1 alive]. rewrite filter_In, negb_true_iff, Nat.eqb_neq. tauto. }
    destruct (IH w1 Hn) as (w' & E & O & N & A).
    + intros j Hj. apply Hw1. split; [apply Ha; now right|]. intros Hc. apply Hi. rewrite <- Hc. now apply in_map.
    + reflexivity.
    + exists w'. repeat split; try assumption.
      * apply A in H. rewrite Hw1 in H. tauto.
      * intros [Hk|Hk]; apply A in H; rewrite Hw1 in H; [|tauto]. destruct H as [[_ H] _]. congruence.
      * intros [H1 H2]. apply A. rewrite Hw1. cbn [In] in H2. split; [split; [exact H1|]|]; intuition.
Qed.

Lemma nodup_app : forall (a b : list nat), NoDup (a ++ b) -> NoDup a /\ NoDup b /\ (forall k, In k b -> ~ In k a).
Proof.
  induction a as [|y a IH]; intros b H; cbn [app] in H.
  - split; [constructor|]. split; [exact H|]. intros k _ [].
  - apply NoDup_cons_iff in H as [H1 H2]. destruct (IH b H2) as (A & B & C). split.
    + constructor; [|exact A]. intros Hy. apply H1. apply in_or_app. now left.
    + split; [exact B|]. intros k Hk [->|Hy]; [apply H1; apply in_or_app; now right|now apply (C k)].
Qed.

Section Lives.
Variable cfg : config.
Variable ev : env.
Variable depth : Z.

Lemma updated_lives : forall h i w, lives (mkWorld [] None 0) h = Some w -> is_open w i = true ->
  lives (mkWorld [] None 0) (fst (updated cfg ev h i)) = Some w.
Proof.
  intros h i w Hl Ho. unfold updated. destruct (updates cfg); [|exact Hl]. destruct (update (ipage i)); [|exact Hl].
  cbn [fst]. rewrite lives_app, Hl. cbn [lives live]. now rewrite Ho.
Qed.

(** Showing a page when nothing is open. *)
Lemma shown_lives : forall n h w below p x, lives (mkWorld [] None 0) h = Some w ->
  NoDup (map num below) -> (forall k, In k (alive w) <-> In k (map num below)) -> opened w = None -> next w = count n ->
  (forall k, In k (map num below) -> (k < count n)%nat) ->
  exists w', wrep w' (fst (shown cfg ev n h below p x)).
Proof.
  intros n h w below p x Hl Hnd Ha Ho Hx Hlt. unfold shown.
  set (q := mkPage (id p) _ x (create p) (destroy p) (open_ p) (close_ p) (update p) (process_event p)).
  set (i := mkInst (count n) q).
  exists (mkWorld (count n :: alive w) (Some (count n)) (S (count n))).
  set (w' := mkWorld (count n :: alive w) (Some (count n)) (S (count n))).
  assert (E : lives (mkWorld [] None 0) (h ++ [LCreate i; LOpen i]) = Some w').
  { rewrite lives_app, Hl. cbn [lives live i num]. rewrite Hx, Nat.eqb_refl. unfold is_alive. cbn [alive existsb num opened].
    rewrite Nat.eqb_refl, Ho. reflexivity. }
  pose proof (updated_lives _ i _ E ltac:(unfold is_open, w'; cbn; apply Nat.eqb_refl)) as HU.
  destruct (updated cfg ev (h ++ [LCreate i; LOpen i]) i) as [h' v]. cbn [fst] in *.
  unfold wrep. cbn [hist insts count map]. cbn [i num]. split; [exact HU|]. split.
  { constructor; [|exact Hnd]. intros Hin. specialize (Hlt _ Hin). lia. }
  split; [intros k; cbn [w' alive In]; rewrite Ha; tauto|]. split; [reflexivity|]. split; [reflexivity|].
  intros k [<-|Hk]; [lia|]. specialize (Hlt _ Hk). lia.
Qed.

Lemma reopened_lives : forall n h w i below, lives (mkWorld [] None 0) h = Some w ->
  NoDup (map num (i :: below)) -> (forall k, In k (alive w) <-> In k (map num (i :: below))) -> opened w = None ->
  next w = count n -> (forall k, In k (map num (i :: below)) -> (k < count n)%nat) ->
  exists w', wrep w' (fst (reopened cfg ev n h i below)).
Proof.
  intros n h w i below Hl Hnd Ha Ho Hx Hlt. unfold reopened.
  exists (mkWorld (alive w) (Some (num i)) (next w)). set (w' := mkWorld (alive w) (Some (num i)) (next w)).
  assert (E : lives (mkWorld [] None 0) (h ++ [LOpen i]) = Some w').
  { rewrite lives_app, Hl. cbn [lives live]. assert (Hi : is_alive w i = true) by (apply alive_in, Ha; now left).
    rewrite Hi, Ho. reflexivity. }
  pose proof (updated_lives _ i _ E ltac:(unfold is_open, w'; cbn; apply Nat.eqb_refl)) as HU.
  destruct (updated cfg ev (h ++ [LOpen i]) i) as [h' v]. cbn [fst] in *.
  unfold wrep. cbn [hist insts count]. repeat split; try assumption; apply Ha.
Qed.

Lemma close_lives : forall n w c rest, wrep w n -> insts n = c :: rest ->
  lives (mkWorld [] None 0) (hist n ++ [LClose c]) = Some (mkWorld (alive w) None (next w)).
Proof.
  intros n w c rest (Hl & _ & _ & Ho & _) Hi. rewrite lives_app, Hl. cbn [lives live].
  unfold is_open. rewrite Ho, Hi, Nat.eqb_refl. reflexivity.
Qed.

(** Closing the current instance and destroying it and [gone]. *)
Lemma leave_lives : forall n w c gone kept, wrep w n -> insts n = c :: gone ++ kept ->
  exists w', lives (mkWorld [] None 0) (hist n ++ LClose c :: map LDestroy (c :: gone)) = Some w' /\
    opened w' = None /\ next w' = count n /\ (forall k, In k (alive w') <-> In k (map num kept)) /\
    NoDup (map num kept) /\ (forall k, In k (map num kept) -> (k < count n)%nat).
Proof.
  intros n w c gone kept Hw Hi. pose proof (close_lives n w c (gone ++ kept) Hw Hi) as Hc.
  destruct Hw as (Hl & Hnd & Ha & Ho & Hx & Hlt). rewrite Hi in *. 
  assert (Hm : map num (c :: gone ++ kept) = map num (c :: gone) ++ map num kept) by (cbn [map app]; now rewrite map_app).
  rewrite Hm in *.
  set (w1 := mkWorld (alive w) None (next w)) in *.
  destruct (destroys (c :: gone) w1) as (w' & E & O & N & A).
  - exact (proj1 (nodup_app _ _ Hnd)).
  - intros i Hin. cbn [w1 alive]. apply Ha. apply in_or_app. left. now apply in_map.
  - reflexivity.
  - exists w'. split.
    { change (LClose c :: map LDestroy (c :: gone)) with ([LClose c] ++ map LDestroy (c :: gone)).
      rewrite app_assoc, lives_app, Hc. exact E. }
    split; [exact O|]. split; [rewrite N; exact Hx|]. split.
    + intros k. rewrite A. cbn [w1 alive]. rewrite Ha, in_app_iff.
      assert (In k (map num kept) -> ~ In k (map num (c :: gone))); [|tauto].
      exact (proj2 (proj2 (nodup_app _ _ Hnd)) k).
    + split; [exact (proj1 (proj2 (nodup_app _ _ Hnd)))|]. intros k Hk. apply Hlt. apply in_or_app. now right.
Qed.

Lemma split_at_app : forall k l, fst (split_at k l) ++ snd (split_at k l) = l.
Proof.
  intros k. induction l as [|i l IH]; cbn [split_at]; [reflexivity|]. destruct (id (ipage i) =? k); [reflexivity|].
  destruct (split_at k l) as [a b]. cbn [fst snd app] in *. now rewrite IH.
Qed.

Lemma navigate_lives : forall n w o n' r, wrep w n -> navigate cfg ev depth n o = Done (n', r) -> exists w', wrep w' n'.
Proof.
  intros n w o n' r Hw H. destruct o as [p x| |p x|p x|k| |e]; cbn [navigate] in H.
  - destruct (insts n) as [|c rest] eqn:Ei.
    + destruct (shown cfg ev n (hist n) [] p x) as [m v] eqn:Es. injection H as <- <-.
      pose proof Hw as (Hl & Hnd & Ha & Ho & Hx & Hlt). rewrite Ei in *.
      destruct (shown_lives n (hist n) w [] p x Hl Hnd Ha Ho Hx Hlt) as (w' & Hw'). rewrite Es in Hw'. eauto.
    + destruct (depth <? zlen (c :: rest)); [discriminate|].
      destruct (shown cfg ev n (hist n ++ [LClose c]) (c :: rest) p x) as [m v] eqn:Es. injection H as <- <-.
      pose proof (close_lives n w c rest Hw Ei) as Hc. pose proof Hw as (Hl & Hnd & Ha & Ho & Hx & Hlt). rewrite Ei in *.
      destruct (shown_lives n _ _ (c :: rest) p x Hc Hnd Ha eq_refl Hx Hlt) as (w' & Hw'). rewrite Es in Hw'. eauto.
  - destruct (insts n) as [|c [|d rest]] eqn:Ei; [discriminate|injection H as <- <-; eauto|].
    destruct (reopened cfg ev n (hist n ++ [LClose c; LDestroy c]) d rest) as [m v] eqn:Es. injection H as <- <-.
    destruct (leave_lives n w c [] (d :: rest) Hw Ei) as (w' & Hl & Ho & Hx & Ha & Hnd & Hlt).
    destruct (reopened_lives n _ w' d rest Hl Hnd Ha Ho Hx Hlt) as (w2 & Hw2). cbn [map] in Hw2. rewrite Es in Hw2. eauto.
  - destruct (insts n) as [|c rest] eqn:Ei; [discriminate|].
    destruct (shown cfg ev n (hist n ++ [LClose c; LDestroy c]) rest p x) as [m v] eqn:Es. injection H as <- <-.
    destruct (leave_lives n w c [] rest Hw Ei) as (w' & Hl & Ho & Hx & Ha & Hnd & Hlt).
    destruct (shown_lives n _ w' rest p x Hl Hnd Ha Ho Hx Hlt) as (w2 & Hw2). cbn [map] in Hw2. rewrite Es in Hw2. eauto.
  - destruct (insts n) as [|c rest] eqn:Ei; [discriminate|].
    destruct (shown cfg ev n (hist n ++ LClose c :: map LDestroy (c :: rest)) [] p x) as [m v] eqn:Es. injection H as <- <-.
    destruct (leave_lives n w c rest [] Hw ltac:(now rewrite app_nil_r)) as (w' & Hl & Ho & Hx & Ha & Hnd & Hlt).
    destruct (shown_lives n _ w' [] p x Hl Hnd Ha Ho Hx Hlt) as (w2 & Hw2). rewrite Es in Hw2. eauto.
  - destruct (insts n) as [|c rest] eqn:Ei; [discriminate|].
    pose proof (split_at_app k rest) as Hsp. destruct (split_at k rest) as [gone kept]. cbn [fst snd] in Hsp.
    destruct (leave_lives n w c gone kept Hw ltac:(now rewrite Hsp)) as (w' & Hl & Ho & Hx & Ha & Hnd & Hlt).
    destruct kept as [|d below].
    + injection H as <- <-. exists w'. unfold wrep. cbn [hist insts count]. repeat split; try assumption; apply Ha.
    + destruct (reopened cfg ev n (hist n ++ LClose c :: map LDestroy (c :: gone)) d below) as [m v] eqn:Es. injection H as <- <-.
      destruct (reopened_lives n _ w' d below Hl Hnd Ha Ho Hx Hlt) as (w2 & Hw2). rewrite Es in Hw2. eauto.
  - destruct (insts n) as [|c rest] eqn:Ei; [discriminate|].
    pose proof Hw as (Hl & Hnd & Ha & Ho & Hx & Hlt).
    pose proof (updated_lives (hist n) c w Hl ltac:(unfold is_open; rewrite Ho, Ei; apply Nat.eqb_refl)) as HU.
    destruct (updated cfg ev (hist n) c) as [h v]. injection H as <- <-. exists w. unfold wrep. cbn [hist insts count fst] in *.
    rewrite Ei in *. repeat split; try assumption; apply Ha.
  - destruct (insts n) as [|c rest] eqn:Ei; [discriminate|]. destruct (process_event (ipage c)); [|discriminate].
    injection H as <- <-. exists w. pose proof Hw as (Hl & Hnd & Ha & Ho & Hx & Hlt).
    unfold wrep, record. cbn [hist insts count]. rewrite lives_app, Hl. cbn [lives live].
    assert (E : is_open w c = true) by (unfold is_open; rewrite Ho, Ei; apply Nat.eqb_refl). rewrite E. repeat split; try assumption; apply Ha.
Qed.

Lemma navigates_lives : forall h n w n' rs, wrep w n -> navigates cfg ev depth n h = Done (n', rs) -> exists w', wrep w' n'.
Proof.
  induction h as [|o h IH]; intros n w n' rs Hw H; cbn [navigates] in H.
  - injection H as <- <-. eauto.
  - destruct (navigate cfg ev depth n o) as [[m r]| | |] eqn:E; cbn [obind] in H; try discriminate.
    destruct (navigate_lives _ _ _ _ _ Hw E) as (w' & Hw').
    destruct (navigates cfg ev depth m h) as [[m' rs']| | |] eqn:E'; cbn [obind] in H; try discriminate.
    injection H as <- <-. eapply IH; eassumption.
Qed.

Lemma no_pages_wrep : wrep (mkWorld [] None 0) no_pages.
Proof. unfold wrep. cbn. repeat split; try tauto; constructor. Qed.

End Lives.

(** *** Names *)
Section Names.
Variable cfg : config.
Variable ev : env.
Variable depth : Z.

Definition named (n : nav) : Prop :=
  one_per_number (hist n) /\ (forall i, In i (insts n) -> exists l, In l (hist n) /\ who l = i) /\
  (forall l, In l (hist n) -> (num (who l) < count n)%nat).

(** New entries about known instances. *)
Lemma named_old : forall n new is, named n -> (forall l, In l new -> In (who l) (insts n)) -> (forall i, In i is -> In i (insts n)) ->
  named (mkNav is (hist n ++ new) (count n)).
Proof.
  intros n new is (H1 & H2 & H3) Hn Hi.
  assert (K : forall l, In l (hist n ++ new) -> exists l', In l' (hist n) /\ who l' = who l).
  { intros l Hl. apply in_app_or in Hl as [Hl|Hl]; [eauto|]. destruct (H2 _ (Hn _ Hl)) as (l' & A & B). eauto. }
  unfold named. cbn [hist insts count]. split; [|split].
  - intros a b Ha Hb E. destruct (K _ Ha) as (a' & A & EA), (K _ Hb) as (b' & B & EB). rewrite <- EA, <- EB in *. exact (H1 _ _ A B E).
  - intros i Hin. destruct (H2 _ (Hi _ Hin)) as (l & A & B). exists l. split; [apply in_or_app; now left|exact B].
  - intros l Hl. destruct (K _ Hl) as (l' & A & E). rewrite <- E. exact (H3 _ A).
Qed.

(** Then the creation of a new one, and entries about it. *)
Lemma named_new : forall n i new is, named n -> num i = count n -> (forall l, In l new -> who l = i) -> In (LCreate i) new ->
  (forall j, In j is -> In j (insts n)) -> named (mkNav (i :: is) (hist n ++ new) (S (count n))).
Proof.
  intros n i new is (H1 & H2 & H3) En Hn Hc Hi. unfold named. cbn [hist insts count]. split; [|split].
  - intros a b Ha Hb E. apply in_app_or in Ha as [Ha|Ha]; apply in_app_or in Hb as [Hb|Hb].
    + exact (H1 _ _ Ha Hb E).
    + apply H3 in Ha. rewrite (Hn _ Hb), En in E. lia.
    + apply H3 in Hb. rewrite (Hn _ Ha), En in E. lia.
    + now rewrite (Hn _ Ha), (Hn _ Hb).
  - intros j [<-|Hj].
    + exists (LCreate i). split; [apply in_or_app; now right|reflexivity].
    + destruct (H2 _ (Hi _ Hj)) as (l & A & B). exists l. split; [apply in_or_app; now left|exact B].
  - intros l Hl. apply in_app_or in Hl as [Hl|Hl]; [apply H3 in Hl; lia|]. rewrite (Hn _ Hl). lia.
Qed.

Lemma created_app : forall h k, created (h ++ k) = created h ++ created k.
Proof. intros. apply flat_map_app. Qed.

Lemma updated_names : forall h i, exists t, fst (updated cfg ev h i) = h ++ t /\ (forall l, In l t -> who l = i) /\ created t = [].
Proof.
  intros h i. unfold updated. destruct (updates cfg), (update (ipage i)); cbn [fst];
    try (exists []; rewrite app_nil_r; split; [reflexivity|]; split; [intros l []|reflexivity]).
  eexists [_]. split; [reflexivity|]. split; [intros l [<-|[]]; reflexivity|reflexivity].
Qed.

Lemma shown_names : forall n is h below p x, named (mkNav is h (count n)) -> (forall j, In j below -> In j is) ->
  named (fst (shown cfg ev n h below p x)) /\ created (hist (fst (shown cfg ev n h below p x))) = created h ++ [blank p x].
Proof.
  intros n is h below p x Hn Hb. unfold shown.
  set (i := mkInst (count n) _). destruct (updated_names (h ++ [LCreate i; LOpen i]) i) as (t & E & Hw & Ht).
  destruct (updated cfg ev (h ++ [LCreate i; LOpen i]) i) as [h' v]. cbn [fst hist] in *. subst h'. rewrite <- app_assoc. split.
  - apply (named_new (mkNav is h (count n))).
    + exact Hn.
    + reflexivity.
    + intros l Hl. cbn [app In] in Hl. destruct Hl as [<-|[<-|Hl]]; try reflexivity. exact (Hw _ Hl).
    + now left.
    + exact Hb.
  - rewrite !created_app, Ht. cbn [created flat_map app]. reflexivity.
Qed.

Lemma reopened_names : forall n is h i below, named (mkNav is h (count n)) -> (forall j, In j (i :: below) -> In j is) ->
  named (fst (reopened cfg ev n h i below)) /\ created (hist (fst (reopened cfg ev n h i below))) = created h.
Proof.
  intros n is h i below Hn Hb. unfold reopened. destruct (updated_names (h ++ [LOpen i]) i) as (t & E & Hw & Ht).
  destruct (updated cfg ev (h ++ [LOpen i]) i) as [h' v]. cbn [fst hist] in *. subst h'. rewrite <- app_assoc. split.
  - apply (named_old (mkNav is h (count n))); [exact Hn| |exact Hb].
    intros l [<-|Hl]; [|rewrite (Hw _ Hl)]; apply Hb; now left.
  - rewrite !created_app, Ht. cbn [created flat_map app]. apply app_nil_r.
Qed.

Lemma destroys_created : forall l, created (map LDestroy l) = [].
Proof. induction l as [|i l IH]; [reflexivity|exact IH]. Qed.

Lemma leave_names : forall n c gone, named n -> (forall j, In j (c :: gone) -> In j (insts n)) ->
  named (mkNav (insts n) (hist n ++ LClose c :: map LDestroy (c :: gone)) (count n)) /\
  created (hist n ++ LClose c :: map LDestroy (c :: gone)) = created (hist n).
Proof.
  intros n c gone Hn Hg. split.
  - apply named_old; [exact Hn| |auto]. intros l [<-|Hl]; [apply Hg; now left|].
    apply in_map_iff in Hl as (j & <- & Hj). exact (Hg _ Hj).
  - rewrite created_app. change (created (LClose c :: map LDestroy (c :: gone))) with (created (map LDestroy (c :: gone))).
    rewrite destroys_created. apply app_nil_r.
Qed.

Lemma navigate_names : forall n o n' r, named n -> navigate cfg ev depth n o = Done (n', r) ->
  named n' /\ created (hist n') = created (hist n) ++ brought [o].
Proof.
  intros n o n' r Hn H. assert (Hself : named (mkNav (insts n) (hist n) (count n))) by now destruct n.
  destruct o as [p x| |p x|p x|k| |e]; cbn [navigate brought flat_map app] in *; rewrite ?app_nil_r.
  - destruct (insts n) as [|c rest] eqn:Ei.
    + pose proof (shown_names n [] (hist n) [] p x Hself (fun j H => H)) as K.
      destruct (shown cfg ev n (hist n) [] p x) as [m v]. injection H as <- <-. exact K.
    + destruct (depth <? zlen (c :: rest)); [discriminate|].
      assert (Hc : named (mkNav (c :: rest) (hist n ++ [LClose c]) (count n))).
      { apply named_old; [exact Hn| |]; rewrite Ei; [|auto]. intros l [<-|[]]. now left. }
      pose proof (shown_names n (c :: rest) (hist n ++ [LClose c]) (c :: rest) p x Hc (fun j H => H)) as K.
      destruct (shown cfg ev n (hist n ++ [LClose c]) (c :: rest) p x) as [m v]. injection H as <- <-.
      rewrite created_app in K. cbn [created flat_map] in K. rewrite app_nil_r in K. exact K.
  - destruct (insts n) as [|c [|d rest]] eqn:Ei; [discriminate|injection H as <- <-; split; [exact Hn|reflexivity]|].
    destruct (leave_names n c [] Hn) as [L C]; [rewrite Ei; intros j [<-|[]]; now left|].
    cbn [map] in L, C. pose proof (reopened_names n _ _ d rest L) as K. rewrite Ei in K. specialize (K (fun j H => or_intror H)).
    destruct (reopened cfg ev n (hist n ++ [LClose c; LDestroy c]) d rest) as [m v]. injection H as <- <-. rewrite C in K. exact K.
  - destruct (insts n) as [|c rest] eqn:Ei; [discriminate|].
    destruct (leave_names n c [] Hn) as [L C]; [rewrite Ei; intros j [<-|[]]; now left|].
    cbn [map] in L, C. pose proof (shown_names n _ _ rest p x L) as K. rewrite Ei in K. specialize (K (fun j H => or_intror H)).
    destruct (shown cfg ev n (hist n ++ [LClose c; LDestroy c]) rest p x) as [m v]. injection H as <- <-. rewrite C in K. exact K.
  - destruct (insts n) as [|c rest] eqn:Ei; [discriminate|].
    destruct (leave_names n c rest Hn) as [L C]; [rewrite Ei; auto|].
    pose proof (shown_names n _ _ [] p x L (fun j (H : In j []) => match H with end)) as K.
    destruct (shown cfg ev n (hist n ++ LClose c :: map LDestroy (c :: rest)) [] p x) as [m v]. injection H as <- <-. rewrite C in K. exact K.
  - destruct (insts n) as [|c rest] eqn:Ei; [discriminate|].
    pose proof (split_at_app k rest) as Hsp. destruct (split_at k rest) as [gone kept]. cbn [fst snd] in Hsp.
    destruct (leave_names n c gone Hn) as [L C].
    { rewrite Ei. intros j [<-|Hj]; [now left|]. right. rewrite <- Hsp. apply in_or_app. now left. }
    destruct kept as [|d below].
    + injection H as <- <-. cbn [hist]. split; [|exact C]. destruct L as (L1 & _ & L3). split; [exact L1|]. split; [intros i []|exact L3].
    + pose proof (reopened_names n _ _ d below L) as K. rewrite Ei in K.
      assert (Hin : forall j, In j (d :: below) -> In j (c :: rest)).
      { intros j Hj. right. rewrite <- Hsp. apply in_or_app. now right. }
      specialize (K Hin). destruct (reopened cfg ev n (hist n ++ LClose c :: map LDestroy (c :: gone)) d below) as [m v].
      injection H as <- <-. rewrite C in K. exact K.
  - destruct (insts n) as [|c rest] eqn:Ei; [discriminate|]. destruct (updated_names (hist n) c) as (t & E & Hw & Ht).
    destruct (updated cfg ev (hist n) c) as [h v]. injection H as <- <-. cbn [fst hist] in *. subst h. split.
    + apply named_old; [exact Hn| |rewrite Ei; auto]. intros l Hl. rewrite (Hw _ Hl), Ei. now left.
    + now rewrite created_app, Ht, app_nil_r.
  - destruct (insts n) as [|c rest] eqn:Ei; [discriminate|]. destruct (process_event (ipage c)); [|discriminate]. injection H as <- <-.
    unfold record. cbn [hist]. split.
    + apply named_old; [exact Hn| |auto]. intros l [<-|[]]. rewrite Ei. now left.
    + rewrite created_app. apply app_nil_r.
Qed.

Lemma brought_app : forall h k, brought (h ++ k) = brought h ++ brought k.
Proof. intros. apply flat_map_app. Qed.

Lemma navigates_names : forall h n n' rs, named n -> navigates cfg ev depth n h = Done (n', rs) ->
  named n' /\ created (hist n') = created (hist n) ++ brought h.
Proof.
  induction h as [|o h IH]; intros n n' rs Hn H; cbn [navigates] in H.
  - injection H as <- <-. split; [exact Hn|]. cbn [brought flat_map]. now rewrite app_nil_r.
  - destruct (navigate cfg ev depth n o) as [[m r]| | |] eqn:E; cbn [obind] in H; try discriminate.
    destruct (navigate_names _ _ _ _ Hn E) as [Hm C].
    destruct (navigates cfg ev depth m h) as [[m' rs']| | |] eqn:E'; cbn [obind] in H; try discriminate.
    injection H as <- <-. destruct (IH _ _ _ Hm E') as [Hk C']. split; [exact Hk|].
    rewrite C', C, <- app_assoc. change (o :: h) with ([o] ++ h). now rewrite (brought_app [o] h).
Qed.

Lemma no_pages_named : named no_pages.
Proof. split; [intros a b []|]. split; [intros i []|intros l []]. Qed.
End Names.

(** *** Ids *)
Section Ids.
Variable cfg : config.
Variable ev : env.
Variable depth : Z.

Definition iids (n : nav) : list Z := map (fun i => id (ipage i)) (insts n).

Lemma shown_ids : forall n h below p x,
  iids (fst (shown cfg ev n h below p x)) = id p :: map (fun i => id (ipage i)) below.
Proof. intros. unfold shown. destruct (updated cfg ev _ _) as [h' v]. reflexivity. Qed.

Lemma reopened_ids : forall n h i below,
  iids (fst (reopened cfg ev n h i below)) = id (ipage i) :: map (fun i => id (ipage i)) below.
Proof. intros. unfold reopened. destruct (updated cfg ev _ _) as [h' v]. reflexivity. Qed.

Lemma split_at_ids : forall k l, map (fun i => id (ipage i)) (snd (split_at k l)) = ids_from k (map (fun i => id (ipage i)) l).
Proof.
  intros k. induction l as [|i l IH]; cbn [split_at ids_from map snd]; [reflexivity|].
  destruct (id (ipage i) =? k); [reflexivity|]. destruct (split_at k l). exact IH.
Qed.

Lemma navigate_ids : forall n o n' r, navigate cfg ev depth n o = Done (n', r) -> iids n' = ids_step (iids n) o.
Proof.
  intros n o n' r H. unfold iids at 2. destruct o as [p x| |p x|p x|k| |e]; cbn [navigate ids_step] in *.
  - destruct (insts n) as [|c rest].
    + pose proof (shown_ids n (hist n) [] p x) as E. destruct (shown cfg ev n (hist n) [] p x). injection H as <- <-. exact E.
    + destruct (depth <? zlen (c :: rest)); [discriminate|]. pose proof (shown_ids n (hist n ++ [LClose c]) (c :: rest) p x) as E.
      destruct (shown cfg ev n (hist n ++ [LClose c]) (c :: rest) p x). injection H as <- <-. exact E.
  - destruct (insts n) as [|c [|d rest]] eqn:Ei; [discriminate|injection H as <- <-; unfold iids; now rewrite Ei|].
    pose proof (reopened_ids n (hist n ++ [LClose c; LDestroy c]) d rest) as E.
    destruct (reopened cfg ev n (hist n ++ [LClose c; LDestroy c]) d rest). injection H as <- <-. exact E.
  - destruct (insts n) as [|c rest]; [discriminate|]. pose proof (shown_ids n (hist n ++ [LClose c; LDestroy c]) rest p x) as E.
    destruct (shown cfg ev n (hist n ++ [LClose c; LDestroy c]) rest p x). injection H as <- <-. exact E.
  - destruct (insts n) as [|c rest]; [discriminate|]. pose proof (shown_ids n (hist n ++ LClose c :: map LDestroy (c :: rest)) [] p x) as E.
    destruct (shown cfg ev n (hist n ++ LClose c :: map LDestroy (c :: rest)) [] p x). injection H as <- <-. exact E.
  - destruct (insts n) as [|c rest]; [discriminate|]. cbn [map tl]. rewrite <- split_at_ids.
    destruct (split_at k rest) as [gone [|d below]]; cbn [snd].
    + injection H as <- <-. reflexivity.
    + pose proof (reopened_ids n (hist n ++ LClose c :: map LDestroy (c :: gone)) d below) as E.
      destruct (reopened cfg ev n (hist n ++ LClose c :: map LDestroy (c :: gone)) d below). injection H as <- <-. exact E.
  - destruct (insts n) as [|c rest] eqn:Ei; [discriminate|]. destruct (updated cfg ev (hist n) c). injection H as <- <-. reflexivity.
  - destruct (insts n) as [|c rest] eqn:Ei; [discriminate|]. destruct (process_event (ipage c)); [|discriminate]. injection H as <- <-.
    unfold iids, record. cbn [insts]. now rewrite Ei.
Qed.

Lemma navigates_ids : forall h n n' rs, navigates cfg ev depth n h = Done (n', rs) -> iids n' = fold_left ids_step h (iids n).
Proof.
  induction h as [|o h IH]; intros n n' rs H; cbn [navigates fold_left] in *.
  - now injection H as <- <-.
  - destruct (navigate cfg ev depth n o) as [[m r]| | |] eqn:E; cbn [obind] in H; try discriminate.
    destruct (navigates cfg ev depth m h) as [[m' rs']| | |] eqn:E'; cbn [obind] in H; try discriminate.
    injection H as <- <-. rewrite (IH _ _ _ E'). f_equal. exact (navigate_ids _ _ _ _ E).
Qed.

(** All instances handle events. *)
Definition handles (n : nav) : Prop := Forall (fun i => process_event (ipage i) <> None) (insts n).

Lemma shown_handles : forall n h below p x, process_event p <> None ->
  Forall (fun i => process_event (ipage i) <> None) below -> handles (fst (shown cfg ev n h below p x)).
Proof. intros. unfold shown. destruct (updated cfg ev _ _) as [h' v]. unfold handles. cbn [fst insts]. constructor; assumption. Qed.

Lemma reopened_handles : forall n h i below, Forall (fun i => process_event (ipage i) <> None) (i :: below) ->
  handles (fst (reopened cfg ev n h i below)).
Proof. intros. unfold reopened. destruct (updated cfg ev _ _) as [h' v]. exact H. Qed.

Lemma navigate_plain : forall n o, plain o -> handles n -> insts n <> [] -> 
  (is_change o -> zlen (insts n) <= depth) ->
  exists n' r, navigate cfg ev depth n o = Done (n', r) /\ handles n' /\ insts n' <> [].
Proof.
  intros n o Hp Hh Hne Hd. unfold handles in Hh.
  assert (Hne' : forall m, iids m <> [] -> insts m <> []) by (intros m H E; apply H; unfold iids; now rewrite E).
  destruct (insts n) as [|c rest] eqn:Ei; [contradiction|]. pose proof (proj1 (Forall_cons_iff _ _ _) Hh) as [Hc Hr].
  destruct o as [p x| |p x|p x|k| |e]; cbn [navigate plain is_change] in *; rewrite Ei.
  - specialize (Hd I). destruct (Z.ltb_spec depth (zlen (c :: rest))); [lia|].
    pose proof (shown_handles n (hist n ++ [LClose c]) (c :: rest) p x Hp Hh) as H1.
    pose proof (shown_ids n (hist n ++ [LClose c]) (c :: rest) p x) as H2.
    destruct (shown cfg ev n (hist n ++ [LClose c]) (c :: rest) p x) as [m v]. do 2 eexists. split; [reflexivity|]. split; [exact H1|].
    apply Hne'. cbn [fst] in H2. rewrite H2. discriminate.
  - destruct rest as [|d rest].
    + do 2 eexists. split; [reflexivity|]. unfold handles. rewrite Ei. split; [exact Hh|discriminate].
    + pose proof (reopened_handles n (hist n ++ [LClose c; LDestroy c]) d rest Hr) as H1.
      pose proof (reopened_ids n (hist n ++ [LClose c; LDestroy c]) d rest) as H2.
      destruct (reopened cfg ev n (hist n ++ [LClose c; LDestroy c]) d rest) as [m v]. do 2 eexists. split; [reflexivity|]. split; [exact H1|].
      apply Hne'. cbn [fst] in H2. rewrite H2. discriminate.
  - pose proof (shown_handles n (hist n ++ [LClose c; LDestroy c]) rest p x Hp Hr) as H1.
    pose proof (shown_ids n (hist n ++ [LClose c; LDestroy c]) rest p x) as H2.
    destruct (shown cfg ev n (hist n ++ [LClose c; LDestroy c]) rest p x) as [m v]. do 2 eexists. split; [reflexivity|]. split; [exact H1|].
    apply Hne'. cbn [fst] in H2. rewrite H2. discriminate.
  - pose proof (shown_handles n (hist n ++ LClose c :: map LDestroy (c :: rest)) [] p x Hp (Forall_nil _)) as H1.
    pose proof (shown_ids n (hist n ++ LClose c :: map LDestroy (c :: rest)) [] p x) as H2.
    destruct (shown cfg ev n (hist n ++ LClose c :: map LDestroy (c :: rest)) [] p x) as [m v]. do 2 eexists. split; [reflexivity|]. split; [exact H1|].
    apply Hne'. cbn [fst] in H2. rewrite H2. discriminate.
  - contradiction.
  - destruct (updated cfg ev (hist n) c) as [h v]. do 2 eexists. split; [reflexivity|]. unfold handles. cbn [insts].
    split; [exact Hh|discriminate].
  - destruct (process_event (ipage c)) eqn:Ef; [|contradiction]. do 2 eexists. split; [reflexivity|]. unfold handles, record. cbn [insts].
    rewrite Ei. split; [exact Hh|discriminate].
Qed.

Lemma navigates_plain : forall h n, Forall plain h -> handles n -> insts n <> [] ->
  (forall h1 o h2, h = h1 ++ o :: h2 -> is_change o -> zlen (fold_left ids_step h1 (iids n)) <= depth) ->
  exists n' rs, navigates cfg ev depth n h = Done (n', rs).
Proof.
  induction h as [|o h IH]; intros n Hp Hh Hne Hd; cbn [navigates]; [eauto|].
  apply Forall_cons_iff in Hp as [Ho Hp].
  destruct (navigate_plain n o Ho Hh Hne) as (m & r & E & Hm & Hm').
  { intros Hc. specialize (Hd [] o h eq_refl Hc). cbn [fold_left] in Hd. unfold iids, zlen in Hd. rewrite map_length in Hd. exact Hd. }
  rewrite E. cbn [obind]. destruct (IH m Hp Hm Hm') as (n' & rs & E').
  { intros h1 o' h2 Eh Hc. rewrite (navigate_ids _ _ _ _ E). apply (Hd (o :: h1) o' h2); [now rewrite Eh|exact Hc]. }
  rewrite E'. cbn [obind]. eauto.
Qed.

End Ids.

(** *** NDEBUG *)

Lemma reset_loop_ndebug : forall ev cfg fuel pm tr i,
  reset_loop (as_ndebug cfg) ev fuel pm tr i = reset_loop cfg ev fuel pm tr i.
Proof.
  reflexivity.
Qed.

Lemma step_ndebug : forall cfg ev s o r,
  ~ is_change o \/ initialized (fst s) = 0 ->
  pman_step cfg ev s o = Done r -> pman_step (as_ndebug cfg) ev s o = Done r.
Proof.
  intros cfg ev [pm tr] o r Hc H. destruct o as [p x| |p x|p x|k| |e]; cbn [pman_step is_change fst] in *;
    try (rewrite change_eq in *); try (rewrite swap_eq in *); try (rewrite rebase_eq in *).
  - destruct Hc as [Hc|Hc]; [destruct (Hc I)|]. unfold pman_change_page_extra in *. rewrite Hc in *. exact H.
  - unfold pman_back, assert in *. cbn [ndebug as_ndebug orb].
    destruct (ndebug cfg || negb (initialized pm =? 0)); [exact H|discriminate].
  - exact H.
  - exact H.
  - unfold pman_reset_to_page in *. destruct (current pm); cbn [obind] in *; try discriminate. now rewrite reset_loop_ndebug.
  - unfold pman_page_update, assert in *. cbn [ndebug as_ndebug orb].
    destruct (ndebug cfg || negb (initialized pm =? 0)); [exact H|discriminate].
  - unfold pman_process_page_event, assert in *. cbn [ndebug as_ndebug orb].
    destruct (ndebug cfg || negb (initialized pm =? 0)); [exact H|discriminate].
Qed.

Lemma run_ndebug : forall cfg ev h s r, Forall (fun o => ~ is_change o) h ->
  pman_run cfg ev s h = Done r -> pman_run (as_ndebug cfg) ev s h = Done r.
Proof.
  intros cfg ev. induction h as [|o h IH]; intros s r Hf H; cbn [pman_run] in *; [exact H|].
  apply Forall_cons_iff in Hf as [Ho Hf].
  destruct (pman_step cfg ev s o) as [[s' v]| | |] eqn:E; cbn [obind] in H; try discriminate.
  rewrite (step_ndebug _ _ _ _ _ (or_introl Ho) E). cbn [obind].
  destruct (pman_run cfg ev s' h) as [[s'' rs]| | |] eqn:E'; cbn [obind] in H; try discriminate.
  rewrite (IH _ _ Hf E'). exact H.
Qed.
