(** The exact behaviour of the page manager. *)
From Verif Require Import Base BaseLemmas StackModel StackSpec StackProofs PageManModel PageManSpec PageManSystem PageManProofs.

Section Exact.
Variable cfg : config.
Variable ev : env.
Variable depth : Z.
Hypothesis Hdepth : depth <= 65535.

(** The lemmas about the stack are independent of the configuration. *)
Definition c0 : config := mkConfig false false 0 0.

Record drep (s : pman * list event) (d : desk) : Prop := {
  dr_calls : snd s = calls d;
  dr_ready : initialized (fst s) = if ready d then 1 else 0;
  dr_front : current_page (fst s) = front d;
  dr_pile : srep depth (page_stack (fst s)) (pile d)
}.

Lemma close_l : forall (t : list event) (p : page), call_close t p = t ++ closes p.
Proof. intros t p. unfold call_close, closes. destruct (close_ p); [reflexivity|now rewrite app_nil_r]. Qed.
Lemma destroy_l : forall (t : list event) (p : page), call_destroy t p = t ++ destroyed p.
Proof. intros t p. unfold call_destroy, destroyed. destruct (destroy p); [reflexivity|now rewrite app_nil_r]. Qed.
Lemma open_l : forall (t : list event) (p : page), call_open t p = t ++ opens p.
Proof. intros t p. unfold call_open, opens. destruct (open_ p); [reflexivity|now rewrite app_nil_r]. Qed.

Lemma refreshed_l : forall pm t p l, current_page pm = Some p -> srep depth (page_stack pm) l ->
  forall r : bool, initialized pm = (if r then 1 else 0) ->
  let (t', v) := call_update cfg ev t p in
  snd (refreshed cfg ev r p l t) = v /\ drep (pm, t') (fst (refreshed cfg ev r p l t)).
Proof.
  intros pm t p l Hc Hs r Hi. unfold call_update, refreshed. destruct (updates cfg); [destruct (update p) as [f|]|];
    (split; [reflexivity|]; constructor; cbn [fst snd calls ready front pile]; auto).
Qed.

Lemma presented_l : forall pm t l p x (r : bool), srep depth (page_stack pm) l -> initialized pm = (if r then 1 else 0) ->
  exists s', show cfg ev pm t p x = (s', snd (presented cfg ev r l t p x)) /\ drep s' (fst (presented cfg ev r l t p x)).
Proof.
  intros pm t l p x r Hs Hi. unfold show, presented. cbn [create set_extra].
  set (d := match create p with Some f => ret_create ev t f x | None => DATA_NULL cfg end).
  set (q := mkPage (id p) d x (create p) (destroy p) (open_ p) (close_ p) (update p) (process_event p)).
  set (made := match create p with Some f => [ECreate f x d] | None => [] end).
  assert (E : match create p with
    | Some f => let d := ret_create ev t f x in (set_data (set_extra p x) d, t ++ [ECreate f x d])
    | None => (set_data (set_extra p x) (DATA_NULL cfg), t) end = (q, t ++ made)).
  { unfold q, made, d. destruct (create p) eqn:E; unfold set_data, set_extra; cbn; rewrite ?E, ?app_nil_r; reflexivity. }
  cbn [obind] in *. rewrite E. rewrite open_l, <- app_assoc.
  pose proof (refreshed_l (with_page pm q) (t ++ made ++ opens q) q l eq_refl Hs r Hi) as H.
  destruct (call_update cfg ev (t ++ made ++ opens q) q) as [t' v]. destruct H as [<- H]. eexists. split; [reflexivity|exact H].
Qed.

Lemma clear_l : forall l fuel s t, srep depth s l -> (length l < fuel)%nat ->
  exists s', clear_page_stack fuel s t = Done (s', t ++ flat_map destroyed l) /\ srep depth s' [].
Proof using Hdepth.
  induction l as [|p l IH]; intros fuel s t Hs Hf; (destruct fuel as [|fuel]; [lia|]); cbn [clear_page_stack].
  - rewrite (pop_nil c0 depth eq_refl Hdepth) by exact Hs. cbn [obind flat_map]. exists s. rewrite app_nil_r. auto.
  - destruct (pop_cons c0 depth eq_refl Hdepth _ _ _ Hs) as (s' & E & Hs'). rewrite E. cbn [obind Z.eqb flat_map].
    rewrite destroy_l. destruct (IH fuel s' (t ++ destroyed p) Hs' ltac:(cbn [length] in Hf; lia)) as (s2 & E2 & H2).
    exists s2. rewrite E2, <- app_assoc. auto.
Qed.

Lemma reset_l : forall k l fuel pm t c, current_page pm = Some c -> srep depth (page_stack pm) l -> initialized pm = 0 -> (length l < fuel)%nat ->
  let (gone, kept) := seek k l in
  let t' := t ++ flat_map destroyed gone in
  match kept with
  | [] => exists pm', reset_loop cfg ev fuel pm t k = Done (pm', t', VIEW_NULL cfg, 0) /\ drep (pm', t') (mkDesk false (Some c) [] t')
  | q :: l' => exists s', reset_loop cfg ev fuel pm t k = Done (s', snd (refreshed cfg ev true q l' (t' ++ opens q)), 1) /\
      drep s' (fst (refreshed cfg ev true q l' (t' ++ opens q)))
  end.
Proof using Hdepth.
  intros k. induction l as [|p l IH]; intros fuel pm t c Hc Hs Hi Hf; (destruct fuel as [|fuel]; [lia|]); cbn [reset_loop seek].
  - rewrite (pop_nil c0 depth eq_refl Hdepth) by exact Hs. cbn [obind flat_map]. rewrite app_nil_r. eexists. split; [reflexivity|]. constructor; cbn; auto.
  - destruct (pop_cons c0 depth eq_refl Hdepth _ _ _ Hs) as (s' & E & Hs'). rewrite E. cbn [obind Z.eqb].
    destruct (id p =? k).
    + cbn [flat_map]. rewrite app_nil_r, open_l.
      pose proof (refreshed_l (with_page (with_init (with_stack pm s') 1) p) (t ++ opens p) p l eq_refl Hs' true eq_refl) as H.
      destruct (call_update cfg ev (t ++ opens p) p) as [t' v]. destruct H as [<- H]. eexists. split; [reflexivity|exact H].
    + rewrite destroy_l.
      specialize (IH fuel (with_stack pm s') (t ++ destroyed p) c Hc Hs' Hi ltac:(cbn [length] in Hf; lia)).
      destruct (seek k l) as [gone kept]. cbn [flat_map]. rewrite app_assoc. exact IH.
Qed.

Lemma fuel_l : forall (s : stack page) l, srep depth s l -> (length l < S (Z.to_nat (idx s)))%nat.
Proof. intros s l H. destruct H. rewrite s_idx. unfold zlen. lia. Qed.

Lemma desk_step_l : forall s d o, drep s d ->
  match desk_step cfg ev depth d o with
  | Undef => pman_step cfg ev s o = Undef
  | Abort => pman_step cfg ev s o = Abort
  | Timeout => False
  | Done (d', r) => exists s', pman_step cfg ev s o = Done (s', r) /\ drep s' d'
  end.
Proof using Hdepth.
  intros [pm tr] d o R. pose proof R as [R1 R2 R3 R4]. cbn [fst snd] in *. subst tr.
  destruct o as [p x| |p x|p x|k| |e]; cbn [desk_step pman_step]; rewrite ?change_eq, ?swap_eq, ?rebase_eq.
  - unfold pman_change_page_extra. rewrite R2. destruct (ready d); cbn [Z.eqb].
    + unfold current. rewrite R3. destruct (front d) as [c|]; [|reflexivity]. cbn [obind]. rewrite close_l.
      destruct (ndebug cfg); cbn [obind].
      * destruct (presented_l pm (calls d ++ closes c) (pile d) p x true R4 R2) as ([a b] & E & R'). rewrite E. cbn [obind].
        destruct (presented _ _ _ _ _ _ _) as [d' v]. exists (a, b). auto.
      * destruct (Z.leb_spec depth (zlen (pile d))) as [Hl|Hl].
        -- rewrite (push_full c0 depth eq_refl Hdepth _ _ _ R4) by (destruct R4; lia). reflexivity.
        -- destruct (push_ok c0 depth eq_refl Hdepth _ c _ R4 Hl) as (s' & E & Hs'). rewrite E. cbn [obind Z.eqb].
           destruct (presented_l (with_stack pm s') (calls d ++ closes c) (c :: pile d) p x true Hs' R2) as ([a b] & E2 & R'). rewrite E2. cbn [obind].
           destruct (presented _ _ _ _ _ _ _) as [d' v]. exists (a, b). auto.
    + destruct (presented_l (with_init pm 1) (calls d) (pile d) p x true R4 eq_refl) as ([a b] & E2 & R'). cbn [obind]. rewrite E2.
      destruct (presented _ _ _ _ _ _ _) as [d' v]. exists (a, b). auto.
  - unfold pman_back, assert. rewrite R2.
    replace (negb ((if ready d then 1 else 0) =? 0)) with (ready d) by (destruct (ready d); reflexivity).
    rewrite <- negb_orb. destruct (ndebug cfg || ready d) eqn:En; cbn [negb]; [|reflexivity]. cbn [obind].
    destruct (pile d) as [|q l] eqn:Ep.
    + rewrite (pop_nil c0 depth eq_refl Hdepth) by exact R4. cbn [obind]. eexists. split; [reflexivity|]. constructor; cbn [fst snd with_stack initialized current_page page_stack]; auto. now rewrite Ep.
    + destruct (pop_cons c0 depth eq_refl Hdepth _ _ _ R4) as (s' & E & Hs'). rewrite E. cbn [obind Z.eqb]. unfold current. rewrite R3.
      destruct (front d) as [c|]; [|reflexivity]. cbn [obind]. rewrite close_l, destroy_l, open_l, <- !app_assoc.
      pose proof (refreshed_l (with_page (with_stack pm s') q) (calls d ++ closes c ++ destroyed c ++ opens q) q l eq_refl Hs' (ready d) R2) as H.
      destruct (call_update cfg ev _ q) as [t' v]. destruct H as [<- H].
      destruct (refreshed _ _ _ _ _ _) as [d' v]. cbn [plainly fst snd obind] in *. eexists. split; [reflexivity|exact H].
  - unfold pman_swap_page_extra, current. rewrite R3. destruct (front d) as [c|]; [|reflexivity]. cbn [obind].
    rewrite close_l, destroy_l, <- !app_assoc.
    destruct (presented_l pm (calls d ++ closes c ++ destroyed c) (pile d) p x (ready d) R4 R2) as ([a b] & E & R'). rewrite E. cbn [obind].
    destruct (presented _ _ _ _ _ _ _) as [d' v]. exists (a, b). auto.
  - unfold pman_rebase_page_extra, current. rewrite R3. destruct (front d) as [c|]; [|reflexivity]. cbn [obind].
    rewrite close_l, destroy_l, <- !app_assoc.
    destruct (clear_l (pile d) (S (Z.to_nat (idx (page_stack pm)))) (page_stack pm) (calls d ++ closes c ++ destroyed c) R4 (fuel_l _ _ R4)) as (s' & E & Hs').
    rewrite E. cbn [obind flat_map]. rewrite <- !app_assoc.
    destruct (presented_l (with_stack pm s') (calls d ++ closes c ++ destroyed c ++ flat_map destroyed (pile d)) [] p x (ready d) Hs' R2) as ([a b] & E2 & R').
    rewrite E2. cbn [obind]. destruct (presented _ _ _ _ _ _ _) as [d' v]. exists (a, b). auto.
  - unfold pman_reset_to_page, current. rewrite R3. destruct (front d) as [c|]; [|reflexivity]. cbn [obind].
    rewrite close_l, destroy_l, <- !app_assoc.
    pose proof (reset_l k (pile d) (S (Z.to_nat (idx (page_stack pm)))) (with_init pm 0) (calls d ++ closes c ++ destroyed c) c R3 R4 eq_refl (fuel_l _ _ R4)) as H.
    destruct (seek k (pile d)) as [gone kept]. cbn [flat_map]. cbv zeta in H. rewrite <- !app_assoc in H. rewrite <- ?app_assoc.
    destruct kept as [|q l].
    + destruct H as (pm' & E & R'). rewrite E. cbn [obind]. eexists. split; [reflexivity|exact R'].
    + destruct H as ([a b] & E & R'). rewrite E. cbn [obind]. destruct (refreshed _ _ _ _ _ _) as [d' v]. cbn [fst snd] in *. exists (a, b). auto.
  - unfold pman_page_update, assert. rewrite R2.
    replace (negb ((if ready d then 1 else 0) =? 0)) with (ready d) by (destruct (ready d); reflexivity).
    rewrite <- negb_orb. destruct (ndebug cfg || ready d) eqn:En; cbn [negb]; [|reflexivity]. cbn [obind].
    destruct (updates cfg) eqn:Eu.
    + unfold current. rewrite R3. destruct (front d) as [c|] eqn:Ef; [|reflexivity]. cbn [obind].
      pose proof (refreshed_l pm (calls d) c (pile d) R3 R4 (ready d) R2) as H.
      destruct (call_update cfg ev _ c) as [t' v]. destruct H as [<- H].
      destruct (refreshed _ _ _ _ _ _) as [d' v]. cbn [plainly fst snd obind] in *. eexists. split; [reflexivity|exact H].
    + cbn [obind]. eexists. split; [reflexivity|exact R].
  - unfold pman_process_page_event, assert. rewrite R2.
    replace (negb ((if ready d then 1 else 0) =? 0)) with (ready d) by (destruct (ready d); reflexivity).
    rewrite <- negb_orb. destruct (ndebug cfg || ready d) eqn:En; cbn [negb]; [|reflexivity]. cbn [obind].
    unfold current. rewrite R3. destruct (front d) as [c|] eqn:Ef; [|reflexivity]. cbn [obind].
    destruct (process_event c) as [f|]; [|reflexivity]. cbn [obind]. eexists. split; [reflexivity|]. constructor; cbn; auto.
Qed.

Lemma desk_run_l : forall h s d, drep s d ->
  match desk_run cfg ev depth d h with
  | Undef => pman_run cfg ev s h = Undef
  | Abort => pman_run cfg ev s h = Abort
  | Timeout => False
  | Done (d', rs) => exists s', pman_run cfg ev s h = Done (s', rs) /\ drep s' d'
  end.
Proof using Hdepth.
  induction h as [|o h IH]; intros s d R; cbn [desk_run pman_run].
  - exists s. auto.
  - pose proof (desk_step_l s d o R) as H. destruct (desk_step cfg ev depth d o) as [[d' r]| | |]; cbn [obind].
    + destruct H as (s' & E & R'). rewrite E. cbn [obind]. specialize (IH s' d' R').
      destruct (desk_run cfg ev depth d' h) as [[d'' rs]| | |]; cbn [obind].
      * destruct IH as (s'' & E' & R''). rewrite E'. cbn [obind]. exists s''. auto.
      * now rewrite IH.
      * now rewrite IH.
      * exact IH.
    + now rewrite H.
    + now rewrite H.
    + exact H.
Qed.

Lemma drep_init : forall pm, zlen (sitems (page_stack pm)) = depth -> drep (pman_init pm, []) (mkDesk false (current_page pm) [] []).
Proof using Hdepth.
  intros pm H. constructor; cbn [fst snd calls ready front pile pman_init initialized current_page page_stack]; try reflexivity.
  exact (proj2 (proj2 (nrep_init c0 depth eq_refl Hdepth pm H))).
Qed.

Lemma exact_l : forall pm h, zlen (sitems (page_stack pm)) = depth ->
  match desk_run cfg ev depth (mkDesk false (current_page pm) [] []) h with
  | Undef => pman_run cfg ev (pman_init pm, []) h = Undef
  | Abort => pman_run cfg ev (pman_init pm, []) h = Abort
  | Timeout => False
  | Done (d, rs) => exists pm', pman_run cfg ev (pman_init pm, []) h = Done (pm', calls d, rs) /\
      initialized pm' = (if ready d then 1 else 0) /\ current_page pm' = front d /\ stacked pm' = pile d
  end.
Proof using Hdepth.
  intros pm h H. pose proof (desk_run_l h _ _ (drep_init pm H)) as R.
  destruct (desk_run cfg ev depth _ h) as [[d rs]| | |]; try exact R. destruct R as ([pm' tr] & E & [R1 R2 R3 R4]). cbn [fst snd] in *. subst tr.
  exists pm'. split; [exact E|]. split; [exact R2|]. split; [exact R3|]. unfold stacked. exact (srep_stacked c0 depth eq_refl Hdepth _ _ R4).
Qed.

(** Consequences. *)
Lemma refreshed_parts : forall r p l t, let d := fst (refreshed cfg ev r p l t) in
  ready d = r /\ pile d = l /\ front d = Some p /\ exists e, calls d = t ++ e /\ Forall (fun e => ~ leaves e) e.
Proof.
  intros r p l t. unfold refreshed. destruct (updates cfg); [destruct (update p)|]; cbn; (split; [reflexivity|]; split; [reflexivity|]; split; [reflexivity|]);
    first [solve [exists []; rewrite app_nil_r; auto] | eexists; split; [reflexivity|repeat constructor; intros []]].
Qed.

Lemma presented_parts : forall r l t p x, let d := fst (presented cfg ev r l t p x) in
  ready d = r /\ pile d = l /\ (exists q, front d = Some q /\ id q = id p) /\
  exists e, calls d = t ++ e /\ Forall (fun e => ~ leaves e) e.
Proof.
  intros r l t p x. unfold presented. set (q := mkPage _ _ _ _ _ _ _ _ _). set (made := match create p with Some f => _ | None => [] end).
  destruct (refreshed_parts r q l (t ++ made ++ opens q)) as (A & B & C & e & D & E). cbv zeta in *.
  split; [exact A|]. split; [exact B|]. split; [exists q; auto|]. exists (made ++ opens q ++ e). rewrite D, <- !app_assoc. split; [reflexivity|].
  apply Forall_app. split; [unfold made; destruct (create p); repeat constructor; intros []|].
  apply Forall_app. split; [unfold opens; destruct (open_ q); repeat constructor; intros []|exact E].
Qed.

Lemma leaves_ends : forall l, Forall (fun e => ~ leaves e) l -> Forall (fun e => ~ ends e) l.
Proof. intros l. apply Forall_impl. intros [| | | | |] H; cbn in *; auto. Qed.

Lemma closes_ends : forall p, Forall (fun e => ~ ends e) (closes p).
Proof. intros p. unfold closes. destruct (close_ p); repeat constructor; intros []. Qed.

Ltac parts := match goal with
  | H : plainly (presented cfg ev ?r ?l ?t ?p ?x) = Done _ |- _ =>
      pose proof (presented_parts r l t p x); destruct (presented cfg ev r l t p x); cbn [plainly fst] in *; injection H as <- _
  | H : plainly (refreshed cfg ev ?r ?p ?l ?t) = Done _ |- _ =>
      pose proof (refreshed_parts r p l t); destruct (refreshed cfg ev r p l t); cbn [plainly fst] in *; injection H as <- _
  end.

(** Without a push the pile stays empty. *)
Lemma step_empty : forall d o d' r, ndebug cfg = true \/ (ready d = false /\ ~ is_change o) -> pile d = [] ->
  desk_step cfg ev depth d o = Done (d', r) ->
  pile d' = [] /\ (~ is_change o -> ready d = false -> ready d' = false) /\
  (ndebug cfg = true -> keeps o -> exists e, calls d' = calls d ++ e /\ Forall (fun e => ~ ends e) e).
Proof.
  intros d o d' r Hc Hp H. destruct o as [p x| |p x|p x|k| |e]; cbn [desk_step] in H; rewrite Hp in *; cbn [is_change keeps seek] in *.
  - destruct (ready d) eqn:Er.
    + destruct (front d); [|discriminate]. destruct (ndebug cfg); [|destruct Hc as [|[]]; discriminate]. parts.
      destruct H0 as (A & B & C & e & D & E). split; [exact B|]. split; [tauto|]. intros _ _. exists (closes p0 ++ e).
      rewrite D, <- app_assoc. split; [reflexivity|]. apply Forall_app. split; [apply closes_ends|now apply leaves_ends].
    + parts. destruct H0 as (A & B & C & e & D & E). split; [exact B|]. split; [tauto|]. intros _ _. exists e. split; [exact D|now apply leaves_ends].
  - destruct (_ && _); [discriminate|]. injection H as <- _. split; [exact Hp|]. split; [auto|]. intros _ _. exists []. rewrite app_nil_r. auto.
  - destruct (front d); [|discriminate]. parts. destruct H0 as (A & B & _). split; [exact B|]. split; [congruence|]. intros _ [].
  - destruct (front d); [|discriminate]. parts. destruct H0 as (A & B & _). split; [exact B|]. split; [congruence|]. intros _ [].
  - destruct (front d); [|discriminate]. injection H as <- _. cbn. split; [reflexivity|]. split; [auto|]. intros _ [].
  - destruct (_ && _); [discriminate|]. destruct (updates cfg).
    + destruct (front d); [|discriminate]. parts. destruct H0 as (A & B & C & e & D & E). split; [exact B|]. split; [congruence|].
      intros _ _. exists e. split; [exact D|now apply leaves_ends].
    + injection H as <- _. split; [exact Hp|]. split; [auto|]. intros _ _. exists []. rewrite app_nil_r. auto.
  - destruct (_ && _); [discriminate|]. destruct (front d); [|discriminate]. destruct (process_event p); [|discriminate].
    injection H as <- _. cbn. split; [reflexivity|]. split; [auto|]. intros _ _. eexists. split; [reflexivity|]. repeat constructor. intros [].
Qed.

Lemma run_ndebug_empty : ndebug cfg = true -> forall h d d' rs, pile d = [] -> desk_run cfg ev depth d h = Done (d', rs) ->
  pile d' = [] /\ (Forall keeps h -> exists e, calls d' = calls d ++ e /\ Forall (fun e => ~ ends e) e).
Proof.
  intros Hn. induction h as [|o h IH]; intros d d' rs Hp H; cbn [desk_run] in H.
  - injection H as <- _. split; [exact Hp|]. intros _. exists []. rewrite app_nil_r. auto.
  - destruct (desk_step cfg ev depth d o) as [[d1 r]| | |] eqn:E; cbn [obind] in H; try discriminate.
    destruct (desk_run cfg ev depth d1 h) as [[d2 rs2]| | |] eqn:E2; cbn [obind] in H; try discriminate. injection H as <- _.
    destruct (step_empty d o d1 r (or_introl Hn) Hp E) as (A & _ & B). destruct (IH d1 d2 rs2 A E2) as (C & D). split; [exact C|].
    intros Hk. apply Forall_cons_iff in Hk as [Hk1 Hk2]. destruct (B Hn Hk1) as (e1 & B1 & B2). destruct (D Hk2) as (e2 & D1 & D2).
    exists (e1 ++ e2). rewrite D1, B1, <- app_assoc. split; [reflexivity|]. apply Forall_app. auto.
Qed.

Lemma run_unready : forall h d d' rs, pile d = [] -> ready d = false -> Forall (fun o => ~ is_change o) h ->
  desk_run cfg ev depth d h = Done (d', rs) -> pile d' = [] /\ ready d' = false.
Proof.
  induction h as [|o h IH]; intros d d' rs Hp Hr Hh H; cbn [desk_run] in H.
  - injection H as <- _. auto.
  - apply Forall_cons_iff in Hh as [Ho Hh].
    destruct (desk_step cfg ev depth d o) as [[d1 r]| | |] eqn:E; cbn [obind] in H; try discriminate.
    destruct (desk_run cfg ev depth d1 h) as [[d2 rs2]| | |] eqn:E2; cbn [obind] in H; try discriminate. injection H as <- _.
    destruct (step_empty d o d1 r (or_intror (conj Hr Ho)) Hp E) as (A & B & _). exact (IH d1 d2 rs2 A (B Ho Hr) Hh E2).
Qed.

Lemma run_desk : forall pm h pm' tr rs, zlen (sitems (page_stack pm)) = depth ->
  pman_run cfg ev (pman_init pm, []) h = Done (pm', tr, rs) ->
  exists d, desk_run cfg ev depth (mkDesk false (current_page pm) [] []) h = Done (d, rs) /\ drep (pm', tr) d.
Proof using Hdepth.
  intros pm h pm' tr rs H E. pose proof (desk_run_l h _ _ (drep_init pm H)) as R.
  destruct (desk_run cfg ev depth _ h) as [[d rs']| | |]; try (rewrite R in E; discriminate); [|contradiction].
  destruct R as (s & E' & R). rewrite E in E'. injection E' as <- <-. exists d. auto.
Qed.

Lemma ndebug_l : forall pm h pm' tr rs, ndebug cfg = true -> zlen (sitems (page_stack pm)) = depth ->
  pman_run cfg ev (pman_init pm, []) h = Done (pm', tr, rs) ->
  stacked pm' = [] /\ pman_back cfg ev pm' tr = Done (pm', tr, VIEW_NULL cfg) /\
  (forall k pm2 tr2 v f, pman_reset_to_page cfg ev pm' tr k = Done (pm2, tr2, v, f) -> f = 0) /\
  (Forall keeps h -> Forall (fun e => ~ ends e) tr).
Proof using Hdepth.
  intros pm h pm' tr rs Hn Hz E. destruct (run_desk pm h pm' tr rs Hz E) as (d & Ed & R).
  destruct (run_ndebug_empty Hn h (mkDesk false (current_page pm) [] []) d rs eq_refl Ed) as [Hp Hk]. pose proof R as [R1 R2 R3 R4]. cbn [fst snd calls app] in *. rewrite Hp in R4.
  split; [exact (srep_stacked c0 depth eq_refl Hdepth _ _ R4)|]. split; [|split].
  - unfold pman_back, assert. rewrite Hn. cbn [orb obind]. rewrite (pop_nil c0 depth eq_refl Hdepth _ R4). cbn [obind]. now destruct pm'.
  - intros k pm2 tr2 v f H. pose proof (desk_step_l _ d (NReset k) R) as S. cbn [pman_step] in S. rewrite H in S. cbn [obind desk_step] in S.
    rewrite Hp in S. cbn [seek] in S. destruct (front d); [|discriminate]. destruct S as (s' & S & _). injection S as _ _ <-. reflexivity.
  - intros H. destruct (Hk H) as (e & Ee & He). rewrite R1, Ee. exact He.
Qed.

Lemma forgets_l : forall pm h pm' tr rs, zlen (sitems (page_stack pm)) = depth -> Forall (fun o => ~ is_change o) h ->
  pman_run cfg ev (pman_init pm, []) h = Done (pm', tr, rs) ->
  initialized pm' = 0 /\
  forall p x, exists pm2 t v q, pman_change_page_extra cfg ev pm' tr p x = Done (pm2, tr ++ t, v) /\
    Forall (fun e => ~ leaves e) t /\ pages pm2 = [q] /\ id q = id p.
Proof using Hdepth.
  intros pm h pm' tr rs Hz Hh E. destruct (run_desk pm h pm' tr rs Hz E) as (d & Ed & R).
  destruct (run_unready h (mkDesk false (current_page pm) [] []) d rs eq_refl eq_refl Hh Ed) as [Hp Hr]. pose proof R as [R1 R2 R3 R4]. cbn [fst snd] in *. rewrite Hr in R2.
  split; [exact R2|]. intros p x. pose proof (desk_step_l _ d (NChange p x) R) as S. cbn [pman_step desk_step] in S. rewrite Hr in S.
  rewrite change_eq in S. pose proof (presented_parts true (pile d) (calls d) p x) as P. destruct (presented cfg ev true (pile d) (calls d) p x) as [d' v].
  cbn [plainly fst] in *. destruct P as (A & B & (q & C & C') & e & D & F). destruct S as ([pm2 tr2] & S & [S1 S2 S3 S4]). cbn [fst snd] in *.
  destruct (pman_change_page_extra cfg ev pm' tr p x) as [[[a b] v']| | |]; cbn [obind] in S; try discriminate. injection S as <- <- <-.
  exists a, e, v', q. split; [congruence|]. split; [exact F|]. split; [|exact C']. unfold pages, stacked. rewrite S2, A, S3, C. cbn [Z.eqb].
  rewrite B, Hp in S4. now rewrite (srep_stacked c0 depth eq_refl Hdepth _ _ S4).
Qed.

End Exact.
