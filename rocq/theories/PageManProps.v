(** Properties C70-C75, C134-C136: the page manager.  A history of calls is executed by [pman_run] after
    [pman_init] on arbitrary memory; it returns the manager, the trace of callback calls and the
    returned values.  [navigates] executes it on the stack machine of the specification. *)
From Verif Require Import Base BaseLemmas StackModel PageManModel PageManSpec PageManSystem PageManProofs PageManExactProofs.

(** C70: the manager and the stack machine agree on the pages, the callback calls and the results of
    every history, and abort together (the specification is [Undef] outside the contract: swap,
    rebase or reset without a page, an event for a page without a handler). *)
Theorem pman_refines : forall cfg ev depth, ndebug cfg = false -> depth <= 65535 ->
  forall pm h, zlen (sitems (page_stack pm)) = depth ->
  match navigates cfg ev depth no_pages h with
  | Undef => True
  | Abort => pman_run cfg ev (pman_init pm, []) h = Abort
  | Timeout => False
  | Done (n, rs) => exists pm', pman_run cfg ev (pman_init pm, []) h = Done (pm', trace (updates cfg) (hist n), rs) /\
      pages pm' = map ipage (insts n)
  end.
Proof. exact refines_l. Qed.
Print Assumptions pman_refines.

(** C70: the ids of the pages follow the five rules; histories that start with a change, stay
    within the depth and contain no reset always run. *)
Theorem pman_stack : forall cfg ev depth, ndebug cfg = false -> depth <= 65535 ->
  forall pm p x h, zlen (sitems (page_stack pm)) = depth -> Forall plain (NChange p x :: h) ->
  (forall h1 o h2, h = h1 ++ o :: h2 -> is_change o -> zlen (ids (NChange p x :: h1)) <= depth) ->
  exists pm' tr rs, pman_run cfg ev (pman_init pm, []) (NChange p x :: h) = Done (pm', tr, rs) /\
    map id (pages pm') = ids (NChange p x :: h).
Proof.
  intros cfg ev depth Hd Hdep pm p x h Hpm Hp Hch. apply Forall_cons_iff in Hp as [Hpp Hp].
  assert (HD : exists n rs, navigates cfg ev depth no_pages (NChange p x :: h) = Done (n, rs)).
  { unfold no_pages. cbn [navigates navigate insts hist].
    pose proof (shown_handles cfg ev (mkNav [] [] 0) [] [] p x Hpp (Forall_nil _)) as H1.
    pose proof (shown_ids cfg ev (mkNav [] [] 0) [] [] p x) as H2.
    destruct (shown cfg ev (mkNav [] [] 0) [] [] p x) as [m v]. cbn [fst] in H1, H2. cbn [obind].
    destruct (navigates_plain cfg ev depth h m Hp H1) as (n & rs & E).
    - intros E. unfold iids in H2. rewrite E in H2. discriminate.
    - intros h1 o h2 Eh Hc. rewrite H2. exact (Hch h1 o h2 Eh Hc).
    - rewrite E. cbn [obind]. eauto. }
  destruct HD as (n & rs & E). pose proof (refines_l cfg ev depth Hd Hdep pm (NChange p x :: h) Hpm) as H. rewrite E in H.
  destruct H as (pm' & Er & Hpg). exists pm', (trace (updates cfg) (hist n)), rs. split; [exact Er|].
  rewrite Hpg, map_map. exact (navigates_ids cfg ev depth _ _ _ _ E).
Qed.
Print Assumptions pman_stack.

(** C70: the same for every history the specification accepts, resets included. *)
Theorem pman_ids : forall cfg ev depth, ndebug cfg = false -> depth <= 65535 ->
  forall pm h pm' tr rs, zlen (sitems (page_stack pm)) = depth -> navigates cfg ev depth no_pages h <> Undef ->
  pman_run cfg ev (pman_init pm, []) h = Done (pm', tr, rs) -> map id (pages pm') = ids h.
Proof.
  intros cfg ev depth Hd Hdep pm h pm' tr rs Hpm Hn Hr. pose proof (refines_l cfg ev depth Hd Hdep pm h Hpm) as H.
  destruct (navigates cfg ev depth no_pages h) as [[n rs']| | |] eqn:E; [|congruence|rewrite H in Hr; discriminate|contradiction].
  destruct H as (pm2 & Er & Hpg). rewrite Er in Hr. injection Hr as <- <- <-. rewrite Hpg, map_map.
  exact (navigates_ids cfg ev depth _ _ _ _ E).
Qed.
Print Assumptions pman_ids.

(** C71, for histories within the contract (the first page is not shown by a rebase or swap, see
    [pman_first_rebase_refuted]): the calls are those of a lawful life of numbered instances, one for
    each page brought by a call; the living ones are the pages of the manager, and exactly the current
    one is open. *)
Theorem pman_lifecycle_partial : forall cfg ev depth, ndebug cfg = false -> depth <= 65535 ->
  forall pm h pm' tr rs, zlen (sitems (page_stack pm)) = depth -> navigates cfg ev depth no_pages h <> Undef ->
  pman_run cfg ev (pman_init pm, []) h = Done (pm', tr, rs) ->
  exists l w is, lawful (updates cfg) h tr l w /\
    pages pm' = map ipage is /\ NoDup (map num is) /\
    (forall k, In k (alive w) <-> In k (map num is)) /\
    (forall i, In i is -> exists m, In m l /\ who m = i) /\
    opened w = match is with [] => None | c :: _ => Some (num c) end.
Proof.
  intros cfg ev depth Hd Hdep pm h pm' tr rs Hpm Hn Hr. pose proof (refines_l cfg ev depth Hd Hdep pm h Hpm) as H.
  destruct (navigates cfg ev depth no_pages h) as [[n rs']| | |] eqn:E; [|congruence|rewrite H in Hr; discriminate|contradiction].
  destruct H as (pm2 & Er & Hpg). rewrite Er in Hr. injection Hr as <- <- <-.
  destruct (navigates_lives cfg ev depth _ _ _ _ _ no_pages_wrep E) as (w & H1 & H2 & H3 & H4 & _).
  destruct (navigates_names cfg ev depth _ _ _ _ no_pages_named E) as [(N1 & N2 & _) C].
  exists (hist n), w, (insts n). split; [|split; [exact Hpg|auto]]. repeat split; assumption.
Qed.
Print Assumptions pman_lifecycle_partial.

(** A page with all callbacks; the function pointers are its id plus a constant.  Every created page
    gets the number of calls made so far as its data. *)
Definition full_page (i : Z) : page :=
  mkPage i 0 0 (Some (i + 10)) (Some (i + 20)) (Some (i + 30)) (Some (i + 40)) (Some (i + 50)) (Some (i + 60)).
Definition sample_env : env :=
  mkEnv (fun tr _ _ => zlen tr) (fun tr _ _ => zlen tr) (fun _ _ _ e => e + 1).
Definition sample_cfg : config := mkConfig true false 0 0.

Example pman_stack_example :
  let h := [NChange (full_page 2) 7; NEvent 4; NChange (full_page 3) 0; NBack; NSwap (full_page 4) 0] in
  Forall plain (NChange (full_page 1) 0 :: h) /\
  (forall h1 o h2, h = h1 ++ o :: h2 -> is_change o -> zlen (ids (NChange (full_page 1) 0 :: h1)) <= 2) /\
  ids (NChange (full_page 1) 0 :: h) = [4; 1] /\
  match pman_run sample_cfg sample_env (pman_init (zeroed 2), []) (NChange (full_page 1) 0 :: h) with
  | Done (pm, tr, rs) => map id (pages pm) = [4; 1] /\ zlen tr = 21 /\ rs = [(2,0); (6,0); (5,0); (11,0); (15,0); (20,0)]
  | _ => False
  end.
Proof.
  cbv zeta. split; [repeat constructor; discriminate|]. split.
  - intros h1 o h2 E Hc.
    do 5 (destruct h1 as [|? h1]; cbn [app] in E; [injection E as <- <-; try destruct Hc; vm_compute; discriminate|injection E as <- E]).
    destruct h1; discriminate.
  - vm_compute. repeat split.
Qed.

(** C72: reset_to_page with the page on the stack: [gone] lies above it. *)
Theorem pman_reset_found : forall cfg ev depth, ndebug cfg = false -> depth <= 65535 ->
  forall pm h n rs c gone d below, zlen (sitems (page_stack pm)) = depth ->
  navigates cfg ev depth no_pages h = Done (n, rs) -> insts n = c :: gone ++ d :: below ->
  forall k, id (ipage d) = k -> Forall (fun i => id (ipage i) <> k) gone ->
  exists pm' tail v, pman_run cfg ev (pman_init pm, []) (h ++ [NReset k]) =
      Done (pm', trace (updates cfg) (hist n ++ [LClose c; LDestroy c] ++ map LDestroy gone ++ [LOpen d]) ++ tail, rs ++ [(v, 1)]) /\
    pages pm' = map ipage (d :: below) /\ (updates cfg = false -> tail = []) /\ (update (ipage d) = None -> tail = []) /\
    (forall f, update (ipage d) = Some f -> updates cfg = true -> tail = [EUpdate f (data (ipage d)) v]).
Proof.
  intros cfg ev depth Hd Hdep pm h n rs c gone d below Hpm Hn Hi k Hk Hg.
  assert (Hsp : split_at k (gone ++ d :: below) = (gone, d :: below)).
  { clear Hi. induction Hg as [|i gone Hx Hg IH]; cbn [app split_at].
    - destruct (Z.eqb_spec (id (ipage d)) k); [reflexivity|contradiction].
    - destruct (Z.eqb_spec (id (ipage i)) k); [contradiction|]. now rewrite IH. }
  assert (Hnav : forall n0 h0 o n1 rs1, navigates cfg ev depth n0 h0 = Done (n1, rs1) ->
    navigates cfg ev depth n0 (h0 ++ [o]) = do (n2, r) <- navigate cfg ev depth n1 o; Done (n2, rs1 ++ [r])).
  { intros n0 h0 o. revert n0. induction h0 as [|a h0 IH]; intros n0 n1 rs1 H; cbn [navigates app] in *.
    - injection H as <- <-. destruct (navigate cfg ev depth n0 o) as [[? ?]| | |]; reflexivity.
    - destruct (navigate cfg ev depth n0 a) as [[m r]| | |]; cbn [obind] in *; try discriminate.
      destruct (navigates cfg ev depth m h0) as [[m' rs']| | |] eqn:E; cbn [obind] in *; try discriminate.
      injection H as <- <-. rewrite (IH _ _ _ E). destruct (navigate cfg ev depth m' o) as [[? ?]| | |]; reflexivity. }
  pose proof (refines_l cfg ev depth Hd Hdep pm (h ++ [NReset k]) Hpm) as H. rewrite (Hnav _ _ _ _ _ Hn) in H.
  cbn [navigate] in H. rewrite Hi, Hsp in H. unfold reopened in H.
  set (hh := hist n ++ LClose c :: map LDestroy (c :: gone)) in *.
  assert (Ehh : hist n ++ [LClose c; LDestroy c] ++ map LDestroy gone ++ [LOpen d] = hh ++ [LOpen d]).
  { unfold hh. rewrite <- app_assoc. reflexivity. }
  rewrite Ehh. unfold updated in H. destruct (updates cfg) eqn:Eu.
  - destruct (update (ipage d)) as [f|] eqn:Ef; cbn [obind] in H; destruct H as (pm' & E & Hp); cbn [hist insts] in *.
    + rewrite trace_app in E. unfold trace at 2 in E. cbn [flat_map seen] in E. rewrite Ef in E.
      exists pm'. eexists. eexists. split; [exact E|]. split; [exact Hp|]. split; [discriminate|]. split; [discriminate|].
      intros f' Hf _. injection Hf as <-. reflexivity.
    + exists pm', [], (VIEW_NULL cfg). rewrite app_nil_r. split; [exact E|]. split; [exact Hp|]. repeat split; discriminate.
  - cbn [obind] in H. destruct H as (pm' & E & Hp). cbn [hist insts] in *.
    exists pm', [], (VIEW_NULL cfg). rewrite app_nil_r. split; [exact E|]. split; [exact Hp|]. repeat split; discriminate.
Qed.
Print Assumptions pman_reset_found.

Example pman_reset_example :
  match pman_run sample_cfg sample_env (pman_init (zeroed 3), [])
    [NChange (full_page 1) 0; NChange (full_page 2) 0; NChange (full_page 3) 0; NReset 1] with
  | Done (pm, tr, rs) => map id (pages pm) = [1] /\ nth 3 rs (0, 0) = (15, 1) /\
      skipn 11 tr = [EClose 43 8; EDestroy 23 8 0; EDestroy 22 4 0; EOpen 31 0; EUpdate 51 0 15]
  | _ => False
  end.
Proof. vm_compute. repeat split. Qed.

(** C72: without the page: all pages are destroyed, the manager is uninitialised and a change is a
    first change again. *)
Theorem pman_reset_not_found_partial : forall cfg ev depth, ndebug cfg = false -> depth <= 65535 ->
  forall pm h n rs c rest, zlen (sitems (page_stack pm)) = depth ->
  navigates cfg ev depth no_pages h = Done (n, rs) -> insts n = c :: rest ->
  forall k, Forall (fun i => id (ipage i) <> k) rest ->
  exists pm', pman_run cfg ev (pman_init pm, []) (h ++ [NReset k]) =
      Done (pm', trace (updates cfg) (hist n ++ [LClose c; LDestroy c] ++ map LDestroy rest), rs ++ [(VIEW_NULL cfg, 0)]) /\
    initialized pm' = 0 /\ pages pm' = [] /\
    forall p x, exists pm2 tr2 rs2, pman_run cfg ev (pman_init pm, []) (h ++ [NReset k; NChange p x]) = Done (pm2, tr2, rs2) /\
      map id (pages pm2) = [id p].
Proof.
  intros cfg ev depth Hd Hdep pm h n rs c rest Hpm Hn Hi k Hg.
  assert (Hsp : split_at k rest = (rest, [])).
  { clear Hi. induction Hg as [|i gone Hx Hg IH]; cbn [split_at]; [reflexivity|].
    destruct (Z.eqb_spec (id (ipage i)) k); [contradiction|]. now rewrite IH. }
  assert (Hrun : forall s0 h0 o s1 rs1, pman_run cfg ev s0 h0 = Done (s1, rs1) -> forall h1,
    pman_run cfg ev s0 (h0 ++ o :: h1) = do (s2, r) <- pman_step cfg ev s1 o; do (s3, rs2) <- pman_run cfg ev s2 h1; Done (s3, rs1 ++ r :: rs2)).
  { intros s0 h0 o. revert s0. induction h0 as [|a h0 IH]; intros s0 s1 rs1 H h1; cbn [pman_run app] in *.
    - injection H as <- <-. destruct (pman_step cfg ev s0 o) as [[? ?]| | |]; cbn [obind]; reflexivity.
    - destruct (pman_step cfg ev s0 a) as [[m r]| | |]; cbn [obind] in *; try discriminate.
      destruct (pman_run cfg ev m h0) as [[m' rs']| | |] eqn:E; cbn [obind] in *; try discriminate.
      injection H as <- <-. rewrite (IH _ _ _ E). destruct (pman_step cfg ev m' o) as [[? ?]| | |]; cbn [obind]; try reflexivity.
      destruct (pman_run cfg ev p h1) as [[? ?]| | |]; reflexivity. }
  pose proof (run_rep cfg ev depth Hd Hdep h _ _ (nrep_init cfg depth Hd Hdep pm Hpm)) as H. rewrite Hn in H.
  destruct H as (s1 & E1 & R1).
  pose proof (step_rep cfg ev depth Hd Hdep s1 n (NReset k) R1) as H. cbn [navigate] in H. rewrite Hi, Hsp in H.
  destruct H as ([pm2 tr2] & E2 & R2). exists pm2. rewrite (Hrun _ _ _ _ _ E1), E2. cbn [obind pman_run].
  pose proof (nrep_pages cfg depth Hd Hdep _ _ R2) as HP. cbn [fst insts map] in HP.
  pose proof R2 as [T2 [I2 S2]]. cbn [fst snd hist insts] in T2, I2, S2. rewrite T2. split; [reflexivity|]. split; [exact I2|]. split; [exact HP|].
  intros p x. rewrite (Hrun _ _ _ _ _ E1), E2. cbn [obind pman_run].
  pose proof (step_rep cfg ev depth Hd Hdep _ _ (NChange p x) R2) as H. cbn [navigate insts hist] in H.
  pose proof (shown_ids cfg ev (mkNav [] (hist n ++ LClose c :: map LDestroy (c :: rest)) (count n)) (hist n ++ LClose c :: map LDestroy (c :: rest)) [] p x) as HI.
  destruct (shown cfg ev _ _ [] p x) as [n3 v]. destruct H as ([pm3 tr3] & E3 & R3). rewrite E3. cbn [obind].
  exists pm3, tr3. eexists. split; [reflexivity|]. pose proof (nrep_pages cfg depth Hd Hdep _ _ R3) as HP3. cbn [fst] in HP3, HI.
  rewrite HP3, map_map. exact HI.
Qed.
Print Assumptions pman_reset_not_found_partial.

(** C72 is false: after a reset that found nothing, a rebase or swap destroys the old page again. *)
Theorem pman_reset_refuted : exists pm h f d x tr1 tr2 tr3 rs pm',
  pman_run sample_cfg sample_env (pman_init pm, []) h = Done (pm', tr1 ++ [EDestroy f d x] ++ tr2 ++ [EDestroy f d x] ++ tr3, rs) /\
  h = [NChange (full_page 1) 0; NReset 5; NRebase (full_page 2) 0].
Proof.
  exists (zeroed 2), [NChange (full_page 1) 0; NReset 5; NRebase (full_page 2) 0], 21, 0, 0.
  exists [ECreate 11 0 0; EOpen 31 0; EUpdate 51 0 2; EClose 41 0], [EClose 41 0]. do 3 eexists. split; [|reflexivity].
  vm_compute. reflexivity.
Qed.
Print Assumptions pman_reset_refuted.

(** C73 is false: a first rebase leaves the manager uninitialised, so the next change forgets the
    page without closing or destroying it, and an event aborts. *)
Theorem pman_first_rebase_refuted :
  (exists pm' tr rs, pman_run sample_cfg sample_env (pman_init (zeroed 2), []) [NRebase (full_page 1) 0; NChange (full_page 2) 0; NBack] =
     Done (pm', tr, rs) /\ map id (pages pm') = [2] /\ existsb (fun e => match e with EClose 41 _ | EDestroy 21 _ _ => true | _ => false end) tr = false) /\
  (exists pm' tr rs, pman_run sample_cfg sample_env (pman_init (zeroed 2), []) [NChange (full_page 1) 0; NChange (full_page 2) 0; NBack] =
     Done (pm', tr, rs) /\ map id (pages pm') = [1]) /\
  pman_run sample_cfg sample_env (pman_init (zeroed 2), []) [NSwap (full_page 1) 0; NEvent 3] = Abort /\
  (* and memory that is not zeroed is used as function pointers *)
  pman_run sample_cfg sample_env (pman_init (mkPman 0 None (mkStack 0 []) ), []) [NRebase (full_page 1) 0] = Undef.
Proof.
  split; [|split; [|split; reflexivity]]; (do 3 eexists; split; [vm_compute; reflexivity|vm_compute; repeat split]).
Qed.
Print Assumptions pman_first_rebase_refuted.

(** C73: the same callbacks, current page and result as a first change; only [initialized] differs. *)
Theorem pman_first_rebase_partial : forall cfg ev pm p x, current_page pm = Some zero_page ->
  exists pm1 tr v, pman_change_page_extra cfg ev (pman_init pm) [] p x = Done (with_init pm1 1, tr, v) /\
    pman_swap_page_extra cfg ev (pman_init pm) [] p x = Done (pm1, tr, v) /\
    pman_rebase_page_extra cfg ev (pman_init pm) [] p x = Done (pm1, tr, v).
Proof.
  intros cfg ev pm p x Hc. unfold pman_change_page_extra, pman_swap_page_extra, pman_rebase_page_extra, pman_init, current.
  cbn [current_page initialized page_stack Z.eqb]. rewrite Hc. cbn [obind]. unfold stack_init. cbn [idx]. cbn [Z.to_nat clear_page_stack].
  unfold stack_pop. cbn [idx Z.eqb obind]. unfold show. cbn [call_destroy call_close destroy close_ zero_page].
  destruct (match create (set_extra p x) with Some f => _ | None => _ end) as [q tr].
  destruct (call_update cfg ev (call_open tr q) q) as [tr' v]. exists (mkPman 0 (Some q) (mkStack 0 (sitems (page_stack pm)))), tr', v.
  repeat split.
Qed.
Print Assumptions pman_first_rebase_partial.

(** C74 is false: with NDEBUG no page is ever pushed, and [NBack] finds nothing. *)
Theorem pman_ndebug_refuted : exists h pm1 tr1 rs1 pm2 tr2 rs2,
  pman_run sample_cfg sample_env (pman_init (zeroed 2), []) h = Done (pm1, tr1, rs1) /\
  pman_run (as_ndebug sample_cfg) sample_env (pman_init (zeroed 2), []) h = Done (pm2, tr2, rs2) /\
  map id (pages pm1) = [1] /\ map id (pages pm2) = [2].
Proof.
  exists [NChange (full_page 1) 0; NChange (full_page 2) 0; NBack]. do 6 eexists.
  split; [vm_compute; reflexivity|]. split; [vm_compute; reflexivity|]. vm_compute. repeat split.
Qed.
Print Assumptions pman_ndebug_refuted.

(** C74: every other call, and every history without changes after the first one, is unaffected. *)
Theorem pman_ndebug_partial : forall cfg ev,
  (forall s o r, ~ is_change o \/ initialized (fst s) = 0 ->
     pman_step cfg ev s o = Done r -> pman_step (as_ndebug cfg) ev s o = Done r) /\
  (forall pm p x h r, Forall (fun o => ~ is_change o) h ->
     pman_run cfg ev (pman_init pm, []) (NChange p x :: h) = Done r ->
     pman_run (as_ndebug cfg) ev (pman_init pm, []) (NChange p x :: h) = Done r).
Proof.
  intros cfg ev. split; [apply step_ndebug|]. intros pm p x h r Hf H. cbn [pman_run] in *.
  destruct (pman_step cfg ev (pman_init pm, []) (NChange p x)) as [[s v]| | |] eqn:E; cbn [obind] in H; try discriminate.
  rewrite (step_ndebug cfg ev (pman_init pm, []) (NChange p x) (s, v) (or_intror eq_refl) E). cbn [obind].
  destruct (pman_run cfg ev s h) as [[s' rs]| | |] eqn:E'; cbn [obind] in H; try discriminate.
  now rewrite (run_ndebug cfg ev h s (s', rs) Hf E').
Qed.
Print Assumptions pman_ndebug_partial.

Example pman_ndebug_example :
  exists r, pman_run sample_cfg sample_env (pman_init (zeroed 2), []) [NChange (full_page 1) 0; NSwap (full_page 2) 3; NEvent 1; NBack] = Done r.
Proof. eexists. vm_compute. reflexivity. Qed.

(** C75: a change on a full stack aborts; on a stack that is not full it pushes. *)
Theorem pman_depth : forall cfg ev depth, ndebug cfg = false -> depth <= 65535 ->
  forall pm h pm' tr rs p x, zlen (sitems (page_stack pm)) = depth -> navigates cfg ev depth no_pages h <> Undef ->
  pman_run cfg ev (pman_init pm, []) h = Done (pm', tr, rs) ->
  zlen (pages pm') <= depth + 1 /\
  (zlen (pages pm') = depth + 1 -> pman_change_page_extra cfg ev pm' tr p x = Abort) /\
  (zlen (pages pm') <= depth -> exists pm2 tr2 v, pman_change_page_extra cfg ev pm' tr p x = Done (pm2, tr2, v) /\
     exists q, id q = id p /\ pages pm2 = q :: pages pm').
Proof.
  intros cfg ev depth Hd Hdep pm h pm' tr rs p x Hpm Hn Hr.
  pose proof (run_rep cfg ev depth Hd Hdep h _ _ (nrep_init cfg depth Hd Hdep pm Hpm)) as H.
  destruct (navigates cfg ev depth no_pages h) as [[n rs']| | |] eqn:E; [|congruence|rewrite H in Hr; discriminate|contradiction].
  destruct H as (s & Er & R). rewrite Er in Hr. injection Hr as -> ->.
  pose proof (nrep_pages cfg depth Hd Hdep _ _ R) as HP. cbn [fst] in HP. rewrite HP.
  assert (Hz : zlen (map ipage (insts n)) = zlen (insts n)) by (unfold zlen; now rewrite map_length). rewrite Hz.
  assert (Hpos : 0 <= depth) by (rewrite <- Hpm; apply zlen_nonneg).
  pose proof (step_rep cfg ev depth Hd Hdep _ _ (NChange p x) R) as H. cbn [navigate pman_step] in H. rewrite ?change_eq in H.
  assert (Hin : forall n' v, shown cfg ev n (match insts n with [] => hist n | c :: _ => hist n ++ [LClose c] end) (insts n) p x = (n', v) ->
    exists q, id q = id p /\ map ipage (insts n') = q :: map ipage (insts n)).
  { intros n' v. unfold shown. destruct (updated cfg ev _ _) as [hh vv]. intros Hs. injection Hs as <- <-. cbn [insts map ipage].
    eexists. split; [|reflexivity]. reflexivity. }
  split; [|split].
  - destruct R as [_ R]. cbn [fst] in R. destruct (insts n) as [|c rest]; [unfold zlen; cbn; lia|].
    destruct R as (_ & _ & R). destruct R. unfold zlen in *. rewrite map_length in *. cbn [length]. lia.
  - intros Hl. destruct (insts n) as [|c rest]; [unfold zlen in Hl; cbn in Hl; lia|].
    replace (depth <? zlen (c :: rest)) with true in H by (symmetry; apply Z.ltb_lt; lia).
    destruct (pman_change_page_extra cfg ev pm' tr p x) as [[[? ?] ?]| | |]; cbn [obind] in H; congruence.
  - intros Hl. destruct (insts n) as [|c rest] eqn:Ei.
    + destruct (shown cfg ev n (hist n) [] p x) as [n' v] eqn:Es. destruct (Hin _ _ eq_refl) as (q & Hq1 & Hq2).
      destruct H as ([pm2 tr2] & E2 & R2). pose proof (nrep_pages cfg depth Hd Hdep _ _ R2) as HP2. cbn [fst] in HP2.
      destruct (pman_change_page_extra cfg ev pm' tr p x) as [[[pm3 tr3] v3]| | |]; cbn [obind] in E2; try discriminate.
      injection E2 as -> -> ->. exists pm2, tr2, v. split; [reflexivity|]. exists q. split; [exact Hq1|]. now rewrite HP2, Hq2.
    + destruct (Z.ltb_spec depth (zlen (c :: rest))); [lia|].
      destruct (shown cfg ev n (hist n ++ [LClose c]) (c :: rest) p x) as [n' v] eqn:Es. destruct (Hin _ _ eq_refl) as (q & Hq1 & Hq2).
      destruct H as ([pm2 tr2] & E2 & R2). pose proof (nrep_pages cfg depth Hd Hdep _ _ R2) as HP2. cbn [fst] in HP2.
      destruct (pman_change_page_extra cfg ev pm' tr p x) as [[[pm3 tr3] v3]| | |]; cbn [obind] in E2; try discriminate.
      injection E2 as -> -> ->. exists pm2, tr2, v. split; [reflexivity|]. exists q. split; [exact Hq1|]. now rewrite HP2, Hq2.
Qed.
Print Assumptions pman_depth.

Example pman_depth_example :
  let h := [NChange (full_page 1) 0; NChange (full_page 2) 0; NChange (full_page 3) 0] in
  navigates sample_cfg sample_env 2 no_pages h <> Undef /\
  match pman_run sample_cfg sample_env (pman_init (zeroed 2), []) h with
  | Done (pm, tr, _) => zlen (pages pm) = 3 /\ pman_change_page_extra sample_cfg sample_env pm tr (full_page 4) 0 = Abort
  | _ => False
  end.
Proof. vm_compute. repeat split. discriminate. Qed.

(** C134: every history, in both builds, from any memory (a current page of indeterminate bytes is [None]). *)
Theorem pman_exact : forall cfg ev depth, depth <= 65535 ->
  forall pm h, zlen (sitems (page_stack pm)) = depth ->
  match desk_run cfg ev depth (mkDesk false (current_page pm) [] []) h with
  | Undef => pman_run cfg ev (pman_init pm, []) h = Undef
  | Abort => pman_run cfg ev (pman_init pm, []) h = Abort
  | Timeout => False
  | Done (d, rs) => exists pm', pman_run cfg ev (pman_init pm, []) h = Done (pm', calls d, rs) /\
      initialized pm' = (if ready d then 1 else 0) /\ current_page pm' = front d /\ stacked pm' = pile d
  end.
Proof. exact exact_l. Qed.
Print Assumptions pman_exact.

Example pman_exact_example :
  desk_run (as_ndebug sample_cfg) sample_env 2 (mkDesk false (Some zero_page) [] [])
    [NRebase (full_page 1) 0; NChange (full_page 2) 7; NChange (full_page 3) 0; NBack; NReset 2; NSwap (full_page 4) 0] =
  Done (mkDesk false (Some (set_data (full_page 4) 14)) []
    [ECreate 11 0 0; EOpen 31 0; EUpdate 51 0 2; ECreate 12 7 3; EOpen 32 3; EUpdate 52 3 5; EClose 42 3; ECreate 13 0 7;
     EOpen 33 7; EUpdate 53 7 9; EClose 43 7; EDestroy 23 7 0; EClose 43 7; EDestroy 23 7 0; ECreate 14 0 14; EOpen 34 14; EUpdate 54 14 16],
    [(2, 0); (5, 0); (9, 0); (0, 0); (0, 0); (16, 0)]).
Proof. vm_compute. reflexivity. Qed.

(** C135: compiled with NDEBUG nothing is ever stacked. *)
Theorem pman_ndebug_exact : forall cfg ev depth, depth <= 65535 ->
  forall pm h pm' tr rs, ndebug cfg = true -> zlen (sitems (page_stack pm)) = depth ->
  pman_run cfg ev (pman_init pm, []) h = Done (pm', tr, rs) ->
  stacked pm' = [] /\ pman_back cfg ev pm' tr = Done (pm', tr, VIEW_NULL cfg) /\
  (forall k pm2 tr2 v f, pman_reset_to_page cfg ev pm' tr k = Done (pm2, tr2, v, f) -> f = 0) /\
  (Forall keeps h -> Forall (fun e => ~ ends e) tr).
Proof. exact ndebug_l. Qed.
Print Assumptions pman_ndebug_exact.

Example pman_ndebug_exact_example :
  let h := [NChange (full_page 1) 0; NChange (full_page 2) 0; NBack; NChange (full_page 3) 0; NUpdate] in
  Forall keeps h /\
  match pman_run (as_ndebug sample_cfg) sample_env (pman_init (zeroed 2), []) h with
  | Done (pm, tr, _) => map id (pages pm) = [3] /\ zlen tr = 12
  | _ => False
  end.
Proof. cbv zeta. split; [repeat constructor|]. vm_compute. repeat split. Qed.

(** C136: pages shown without a change do not count; the first change drops the one shown last. *)
Theorem pman_forgets : forall cfg ev depth, depth <= 65535 ->
  forall pm h pm' tr rs, zlen (sitems (page_stack pm)) = depth -> Forall (fun o => ~ is_change o) h ->
  pman_run cfg ev (pman_init pm, []) h = Done (pm', tr, rs) ->
  initialized pm' = 0 /\
  forall p x, exists pm2 t v q, pman_change_page_extra cfg ev pm' tr p x = Done (pm2, tr ++ t, v) /\
    Forall (fun e => ~ leaves e) t /\ pages pm2 = [q] /\ id q = id p.
Proof. exact forgets_l. Qed.
Print Assumptions pman_forgets.

Example pman_forgets_example :
  let h := [NRebase (full_page 1) 0; NSwap (full_page 2) 5; NReset 1; NSwap (full_page 3) 0] in
  Forall (fun o => ~ is_change o) h /\
  match pman_run sample_cfg sample_env (pman_init (zeroed 2), []) h with
  | Done (pm, tr, _) => option_map id (current_page pm) = Some 3 /\ zlen tr = 15
  | _ => False
  end.
Proof. cbv zeta. split; [repeat constructor; intros []|]. vm_compute. repeat split. Qed.
