(** Proofs about callbacks that navigate. *)
From Verif Require Import Base BaseLemmas StackModel StackSpec StackSystem StackProofs.
From Verif Require Import PageManModel PageManSpec PageManSystem PageManProofs PageNestModel PageNestSpec.

Ltac peel H :=
  match type of H with
  | obind ?a _ = Done _ => let E := fresh "E" in destruct a eqn:E; cbn [obind] in H; try discriminate H
  end.

(** *** Nested calls are calls made afterwards *)

Lemma pman_run_app : forall cfg ev h s k s1 r1 s2 r2, pman_run cfg ev s h = Done (s1, r1) ->
  pman_run cfg ev s1 k = Done (s2, r2) -> pman_run cfg ev s (h ++ k) = Done (s2, r1 ++ r2).
Proof.
  induction h as [|o h IH]; intros s k s1 r1 s2 r2 H1 H2; cbn [pman_run app] in *.
  - injection H1 as <- <-. exact H2.
  - destruct (pman_step cfg ev s o) as [[m r]| | |]; cbn [obind] in *; try discriminate.
    destruct (pman_run cfg ev m h) as [[m' rs]| | |] eqn:E; cbn [obind] in *; try discriminate.
    injection H1 as <- <-. rewrite (IH _ _ _ _ _ _ E H2). reflexivity.
Qed.

(** The loops of the flat model do not depend on the fuel. *)
Lemma pop_idx : forall (st st' : stack page) r p, stack_pop st true = Done (st', (r, Some p)) ->
  (Z.to_nat (idx st') < Z.to_nat (idx st))%nat.
Proof.
  intros st st' r p H. unfold stack_pop in H. destruct (Z.eqb_spec (idx st) 0); [discriminate|].
  unfold zget in H. destruct (Z.ltb_spec (idx st - 1) 0) as [Hl|Hl]; [discriminate|].
  destruct (nth_error (sitems st) (Z.to_nat (idx st - 1))); cbn [obind] in H; [|discriminate].
  injection H as <- _ _. cbn [idx]. unfold wrap.
  pose proof (Z.mod_le (idx st - 1) (2 ^ 16) Hl ltac:(lia)).
  pose proof (Z.mod_pos_bound (idx st - 1) (2 ^ 16) ltac:(lia)). lia.
Qed.

Lemma clear_enough : forall fuel s tr, (Z.to_nat (idx s) < fuel)%nat -> clear_page_stack fuel s tr <> Timeout.
Proof.
  induction fuel as [|fuel IH]; intros s tr H; [lia|]. cbn [clear_page_stack].
  destruct (stack_pop s true) as [[s' [r [p|]]]| | |] eqn:E; cbn [obind]; try discriminate.
  - apply pop_idx in E. destruct (r =? 0); [|discriminate]. apply IH. lia.
  - unfold stack_pop in E. destruct (idx s =? 0); [discriminate|]. destruct (zget (sitems s) (idx s - 1)) eqn:Eg; try discriminate.
    unfold zget in Eg. destruct (_ <? 0); [discriminate|]. destruct (nth_error _ _); discriminate.
Qed.

Lemma clear_same : forall f g s tr, clear_page_stack f s tr <> Timeout -> clear_page_stack g s tr <> Timeout ->
  clear_page_stack f s tr = clear_page_stack g s tr.
Proof.
  induction f as [|f IH]; intros [|g] s tr Hf Hg; cbn [clear_page_stack] in *; try (now destruct Hf + now destruct Hg).
  destruct (stack_pop s true) as [[s' [r [p|]]]| | |]; cbn [obind] in *; try reflexivity.
  destruct (r =? 0); [|reflexivity]. now apply IH.
Qed.

Section Flat.
Variable cfg : config.
Variable ev : env.

Lemma reset_enough : forall fuel pm tr i, (Z.to_nat (idx (page_stack pm)) < fuel)%nat -> reset_loop cfg ev fuel pm tr i <> Timeout.
Proof.
  induction fuel as [|fuel IH]; intros pm tr i H; [lia|]. cbn [reset_loop].
  destruct (stack_pop (page_stack pm) true) as [[s' [r [p|]]]| | |] eqn:E; cbn [obind]; try discriminate.
  - apply pop_idx in E. destruct (r =? 0); [|discriminate]. destruct (id p =? i).
    + destruct (call_update cfg ev (call_open tr p) p). discriminate.
    + apply IH. cbn [with_stack page_stack]. lia.
  - unfold stack_pop in E. destruct (idx _ =? 0); [discriminate|].
    destruct (zget (sitems (page_stack pm)) (idx (page_stack pm) - 1)) eqn:Eg; try discriminate.
    unfold zget in Eg. destruct (_ <? 0); [discriminate|]. destruct (nth_error _ _); discriminate.
Qed.

Lemma reset_same : forall f g pm tr i, reset_loop cfg ev f pm tr i <> Timeout -> reset_loop cfg ev g pm tr i <> Timeout ->
  reset_loop cfg ev f pm tr i = reset_loop cfg ev g pm tr i.
Proof.
  induction f as [|f IH]; intros [|g] pm tr i Hf Hg; cbn [reset_loop] in *; try (now destruct Hf + now destruct Hg).
  destruct (stack_pop (page_stack pm) true) as [[s' [r [p|]]]| | |]; cbn [obind] in *; try reflexivity.
  destruct (r =? 0); [|reflexivity]. destruct (id p =? i); [reflexivity|]. now apply IH.
Qed.

Definition follows (s s' : nest) : Prop :=
  exists l rs, asked s' = asked s ++ l /\ pman_run cfg ev (man s, made s) l = Done (man s', made s', rs).

Lemma follows_refl : forall s, follows s s.
Proof. intros s. exists [], []. rewrite app_nil_r. auto. Qed.

Lemma follows_trans : forall a b c, follows a b -> follows b c -> follows a c.
Proof.
  intros a b c (l & r & A & R) (l' & r' & A' & R'). exists (l ++ l'), (r ++ r'). split; [now rewrite A', A, app_assoc|].
  exact (pman_run_app _ _ _ _ _ _ _ _ _ R R').
Qed.

Section Body.
Variable cb : event -> nest -> outcome nest.
Variable fuel : nat.
Hypothesis Hexit : forall e s s', is_exit e = true -> cb e s = Done s' -> s' = s.
Hypothesis Hopen : updates cfg = true -> forall e s s', is_opening e = true -> cb e s = Done s' -> s' = s.
Hypothesis Hcb : forall e s s', cb e s = Done s' -> follows s s'.
Set Default Proof Using "Hexit Hopen Hcb".

Lemma f_close : forall s s', n_close cb s = Done s' ->
  exists p, current (man s) = Done p /\ s' = mkNest (man s) (call_close (made s) p) (asked s).
Proof.
  intros s s' H. unfold n_close in H. peel H. exists a. split; [reflexivity|]. unfold call_close.
  destruct (close_ a); [unfold does in H; refine (Hexit _ _ _ _ H); reflexivity|]. injection H as <-. now destruct s.
Qed.

Lemma f_destroy : forall s s', n_destroy cb s = Done s' ->
  exists p, current (man s) = Done p /\ s' = mkNest (man s) (call_destroy (made s) p) (asked s).
Proof.
  intros s s' H. unfold n_destroy in H. peel H. exists a. split; [reflexivity|]. unfold call_destroy.
  destruct (destroy a); [unfold does in H; refine (Hexit _ _ _ _ H); reflexivity|]. injection H as <-. now destruct s.
Qed.

Lemma f_discard : forall p s s', n_discard cb p s = Done s' -> s' = mkNest (man s) (call_destroy (made s) p) (asked s).
Proof.
  intros p s s' H. unfold n_discard in H. unfold call_destroy.
  destruct (destroy p); [unfold does in H; refine (Hexit _ _ _ _ H); reflexivity|]. injection H as <-. now destruct s.
Qed.

Lemma f_update : forall s s', n_update cfg ev cb s = Done s' -> forall p, current (man s) = Done p ->
  follows (mkNest (man s) (fst (call_update cfg ev (made s) p)) (asked s)) s'.
Proof.
  intros s s' H p Hp. unfold n_update in H. unfold call_update. destruct (updates cfg).
  - rewrite Hp in H. cbn [obind] in H. destruct (update p); cbn [fst].
    + exact (Hcb _ _ _ H).
    + injection H as <-. destruct s. apply follows_refl.
  - cbn [fst]. injection H as <-. destruct s. apply follows_refl.
Qed.

Lemma f_opening : forall s s', (do s <- n_open cb s; n_update cfg ev cb s) = Done s' -> forall p, current (man s) = Done p ->
  follows (mkNest (man s) (fst (call_update cfg ev (call_open (made s) p) p)) (asked s)) s'.
Proof.
  intros s s' H p Hp. peel H. rename a into s1. unfold n_open in E. rewrite Hp in E. cbn [obind] in E.
  destruct (bool_dec (updates cfg) true) as [Eu|Eu]; [|apply not_true_is_false in Eu].
  - assert (Es : s1 = mkNest (man s) (call_open (made s) p) (asked s)).
    { unfold call_open. destruct (open_ p); [unfold does in E; refine (Hopen Eu _ _ _ _ E); reflexivity|]. injection E as <-. now destruct s. }
    pose proof (f_update _ _ H p) as Hf. rewrite Es in Hf. cbn [man made asked] in Hf. exact (Hf Hp).
  - unfold n_update in H. rewrite Eu in H. injection H as <-. unfold call_update. rewrite Eu. cbn [fst]. unfold call_open.
    destruct (open_ p); [exact (Hcb _ _ _ E)|]. injection E as <-. destruct s. apply follows_refl.
Qed.

Lemma f_show : forall p x s s', n_show cfg ev cb p x s = Done s' ->
  exists pm tr v, show cfg ev (man s) (made s) p x = (pm, tr, v) /\ follows (mkNest pm tr (asked s)) s'.
Proof.
  intros p x s s' H. unfold n_show in H. peel H. rename a into s1. unfold n_create in E.
  cbn [with_man with_page man current current_page obind made] in E. unfold show. cbv zeta.
  destruct (create (set_extra p x)) as [f|] eqn:Ec.
  - peel E. pose proof (Hexit (ECreate f (extra (set_extra p x)) (ret_create ev (made s) f (extra (set_extra p x)))) _ _ eq_refl E0) as ->.
    cbn [man current current_page obind with_man made asked with_page initialized page_stack] in E. injection E as <-.
    pose proof (f_opening _ _ H _ eq_refl) as Hf. cbn [man made asked] in Hf.
    change (extra (set_extra p x)) with x in *.
    destruct (call_update _ _ _ _) as [t v]. cbn [fst] in Hf. exists (with_page (man s) (set_data (set_extra p x) (ret_create ev (made s) f x))), t, v.
    split; [reflexivity|exact Hf].
  - cbn [man current current_page obind with_man made asked with_page initialized page_stack] in E. injection E as <-.
    pose proof (f_opening _ _ H _ eq_refl) as Hf. cbn [man made asked] in Hf.
    destruct (call_update _ _ _ _) as [t v]. cbn [fst] in Hf. exists (with_page (man s) (set_data (set_extra p x) (DATA_NULL cfg))), t, v.
    split; [reflexivity|exact Hf].
Qed.

Lemma f_clear : forall n s s', n_clear cb n s = Done s' ->
  exists st tr, clear_page_stack n (page_stack (man s)) (made s) = Done (st, tr) /\ s' = mkNest (with_stack (man s) st) tr (asked s).
Proof.
  induction n as [|n IH]; intros s s' H; [discriminate|]. cbn [n_clear clear_page_stack] in *.
  destruct (stack_pop (page_stack (man s)) true) as [[st [r [p|]]]| | |]; cbn [obind] in *; try discriminate.
  - destruct (r =? 0); [|injection H as <-; eauto]. peel H. apply f_discard in E. subst a.
    apply IH in H as (st' & tr' & E' & ->). cbn [man with_man with_stack page_stack made asked] in *. eauto.
  - injection H as <-. eauto.
Qed.

Lemma f_reset : forall n i s s', n_reset cfg ev cb n i s = Done s' ->
  exists pm tr v f, reset_loop cfg ev n (man s) (made s) i = Done (pm, tr, v, f) /\ follows (mkNest pm tr (asked s)) s'.
Proof.
  induction n as [|n IH]; intros i s s' H; [discriminate|]. cbn [n_reset reset_loop] in *.
  destruct (stack_pop (page_stack (man s)) true) as [[st [r [p|]]]| | |]; cbn [obind] in *; try discriminate.
  - destruct (r =? 0); [|injection H as <-; do 4 eexists; split; [reflexivity|apply follows_refl]].
    destruct (id p =? i).
    + pose proof (f_opening _ _ H _ eq_refl) as Hf. cbn [man made asked with_man] in Hf.
      destruct (call_update _ _ _ _) as [t v]. cbn [fst] in Hf. do 4 eexists. split; [reflexivity|exact Hf].
    + peel H. apply f_discard in E. subst a. exact (IH _ _ _ H).
  - injection H as <-. do 4 eexists. split; [reflexivity|apply follows_refl].
Qed.

Lemma f_call : forall o s s', n_call cfg ev cb fuel o s = Done s' ->
  exists pm tr r, pman_step cfg ev (man s, made s) o = Done (pm, tr, r) /\ follows (mkNest pm tr (asked s)) s'.
Proof.
  intros o s s' H. unfold pman_step. destruct o as [p x| |p x|p x|i| |e]; cbn [n_call] in H.
  - rewrite change_eq. unfold n_change in H. unfold pman_change_page_extra. destruct (initialized (man s) =? 0).
    + apply f_show in H as (pm & tr & v & E & F). cbn [man made with_man] in E. rewrite E. cbn [obind]. eauto.
    + peel H. apply f_close in E as (q & E & ->). rewrite E. cbn [obind man made with_man asked] in *. destruct (ndebug cfg).
      * apply f_show in H as (pm & tr & v & E' & F). cbn [man made asked] in E', F. rewrite E'. cbn [obind]. eauto.
      * rewrite E in H. cbn [obind] in H. destruct (stack_push (page_stack (man s)) q) as [[st r]| | |]; cbn [obind] in *; try discriminate.
        destruct (r =? 1); [discriminate|].
        apply f_show in H as (pm & tr & v & E' & F). cbn [man made asked with_man] in E', F. rewrite E'. cbn [obind]. eauto.
  - unfold n_back in H. unfold pman_back. destruct (assert cfg _) eqn:Ea; cbn [obind] in *; try discriminate.
    destruct (stack_pop (page_stack (man s)) true) as [[st [r [q|]]]| | |]; cbn [obind] in *; try discriminate.
    + destruct (r =? 0).
      * peel H. apply f_close in E as (p & E & ->). cbn [man made asked with_man] in *.
        change (current (with_stack (man s) st)) with (current (man s)) in E. rewrite E. cbn [obind].
        peel H. apply f_destroy in E0 as (p' & E0 & ->). cbn [man made asked with_man] in *.
        change (current (with_stack (man s) st)) with (current (man s)) in E0. rewrite E in E0. injection E0 as <-.
        pose proof (f_opening _ _ H _ eq_refl) as Hf. cbn [man made asked] in Hf.
        destruct (call_update _ _ _ _) as [t v]. cbn [fst obind] in *. do 3 eexists. split; [reflexivity|exact Hf].
      * injection H as <-. cbn [obind]. do 3 eexists. split; [reflexivity|]. apply follows_refl.
    + injection H as <-. do 3 eexists. split; [reflexivity|]. apply follows_refl.
  - rewrite swap_eq. unfold n_swap in H. unfold pman_swap_page_extra. peel H. apply f_close in E as (q & E & ->).
    cbn [man made asked] in *. peel H. apply f_destroy in E0 as (q' & E0 & ->). cbn [man made asked] in *. rewrite E in E0. injection E0 as <-.
    rewrite E. cbn [obind]. apply f_show in H as (pm & tr & v & E' & F). cbn [man made asked] in E', F. rewrite E'. cbn [obind]. eauto.
  - rewrite rebase_eq. unfold n_rebase in H. unfold pman_rebase_page_extra. peel H. apply f_close in E as (q & E & ->).
    cbn [man made asked] in *. peel H. apply f_destroy in E0 as (q' & E0 & ->). cbn [man made asked] in *. rewrite E in E0. injection E0 as <-.
    rewrite E. cbn [obind]. peel H. apply f_clear in E0 as (st & tr & E0 & ->). cbn [man made asked] in *.
    rewrite (clear_same (S (Z.to_nat (idx (page_stack (man s))))) fuel), E0; [|apply clear_enough; lia|rewrite E0; discriminate].
    cbn [obind]. apply f_show in H as (pm & tr' & v & E' & F). cbn [man made asked] in E', F. rewrite E'. cbn [obind]. eauto.
  - unfold n_reset_to in H. unfold pman_reset_to_page. peel H. apply f_close in E as (q & E & ->).
    cbn [man made asked] in *. peel H. apply f_destroy in E0 as (q' & E0 & ->). cbn [man made asked with_man] in *. rewrite E in E0. injection E0 as <-.
    rewrite E. cbn [obind]. apply f_reset in H as (pm & tr & v & f & E0 & F). cbn [man made asked with_man] in *.
    rewrite (reset_same (S (Z.to_nat (idx (page_stack (man s))))) fuel), E0; [|apply reset_enough; cbn [with_init page_stack]; lia|rewrite E0; discriminate].
    cbn [obind]. eauto.
  - unfold n_page_update in H. unfold pman_page_update. destruct (assert cfg _); cbn [obind] in *; try discriminate.
    pose proof (f_update _ _ H) as Hf. unfold n_update in H. clear Hopen. destruct (updates cfg) eqn:Eu.
    + peel H. specialize (Hf _ eq_refl). cbn [obind]. destruct (call_update _ _ _ _) as [t v]. cbn [fst obind] in *. do 3 eexists. split; [reflexivity|exact Hf].
    + injection H as <-. cbn [obind]. do 3 eexists. split; [reflexivity|]. destruct s. apply follows_refl.
  - unfold n_event in H. unfold pman_process_page_event. destruct (assert cfg _); cbn [obind] in *; try discriminate.
    peel H. match type of H with (match process_event ?q with _ => _ end) = _ => destruct (process_event q) eqn:Ep end; [|discriminate]. cbn [obind]. rewrite Ep. cbn [obind]. do 3 eexists. split; [reflexivity|].
    exact (Hcb _ _ _ H).
Qed.
Unset Default Proof Using.
End Body.

Lemma acts_follows : forall prog, passive is_exit prog -> (updates cfg = true -> passive is_opening prog) ->
  forall fuel c k s s', acts cfg ev prog fuel c k s = Done s' -> follows s s'.
Proof.
  intros prog Hx Ho. induction fuel as [|fuel IH]; intros c k s s' H; [discriminate|]. cbn [acts] in H.
  destruct (prog c k s) as [o|]; [|injection H as <-; apply follows_refl].
  peel H. apply IH in H. eapply follows_trans; [|exact H].
  assert (Hp : forall b e t t', passive b prog -> b e = true -> acts cfg ev prog fuel (During e) 0 t = Done t' -> t' = t).
  { intros b e t t' Hb He Ha. destruct fuel; [discriminate|]. cbn [acts] in Ha. rewrite (Hb _ _ _ He) in Ha. congruence. }
  apply f_call in E as (pm & tr & r & E & F).
  - destruct F as (l & rs & A & R). cbn [man made asked] in *. exists (o :: l), (r :: rs). split; [rewrite A, <- app_assoc; reflexivity|].
    cbn [pman_run]. rewrite E. cbn [obind]. rewrite R. reflexivity.
  - intros e t t' He Ha. exact (Hp _ _ _ _ Hx He Ha).
  - intros Hu e t t' He Ha. exact (Hp _ _ _ _ (Ho Hu) He Ha).
  - intros e t t' Ha. exact (IH _ _ _ _ Ha).
Qed.

Lemma nested_flat_l : forall prog, passive is_exit prog -> (updates cfg = true -> passive is_opening prog) ->
  forall fuel pm s, runs cfg ev prog fuel pm = Done s ->
  exists rs, pman_run cfg ev (pman_init pm, []) (asked s) = Done (man s, made s, rs).
Proof.
  intros prog Hx Ho fuel pm s H. destruct (acts_follows prog Hx Ho _ _ _ _ _ H) as (l & rs & A & R).
  cbn [man made asked app] in *. exists rs. now rewrite A.
Qed.
End Flat.

(** *** Lives *)
Section Life.
Variable cfg : config.
Variable ev : env.
Variable depth : Z.
Hypothesis Hdebug : ndebug cfg = false.
Hypothesis Hdepth : depth <= 65535.
(** All pages handle events; nothing is ever reset. *)
Variables AH NR : Prop.

Notation tr_ := (trace (updates cfg)).
Notation nrep_ := (nrep cfg depth).

Definition good (n : nav) (a : list nop) : Prop :=
  (exists w, wrep w n) /\ iids n = ids a /\ (AH -> handles n) /\ named n /\ created (hist n) = brought a.
Definition inv (s : nest) : Prop := exists n, nrep_ (man s, made s) n /\ good n (asked s).
Definition ok (i : Prop) (r : outcome nest) : Prop :=
  match r with Done s => inv s /\ (NR -> i -> initialized (man s) <> 0) | Undef => ~ AH | _ => True end.

(** The specification without updates, all creations returning what they return now. *)
Definition cfg0 : config := mkConfig false false (VIEW_NULL cfg) (DATA_NULL cfg).
Definition ev0 (tr : list event) : env := mkEnv (fun _ => ret_create ev tr) (ret_update ev) (ret_event ev).

Lemma good_step : forall tr n a o n' r, good n a -> navigate cfg0 (ev0 tr) depth n o = Done (n', r) ->
  (AH -> handles n -> handles n') -> good n' (a ++ [o]).
Proof.
  intros tr n a o n' r ((w & W) & I & H & N & C) E Hh. split; [exact (navigate_lives _ _ _ _ _ _ _ _ W E)|]. split.
  - rewrite (navigate_ids _ _ _ _ _ _ _ E), I. unfold ids. rewrite fold_left_app. reflexivity.
  - destruct (navigate_names _ _ _ _ _ _ _ N E) as [N' C']. split; [auto|]. split; [exact N'|]. now rewrite C', C, brought_app.
Qed.

Section Body.
Variable cb : event -> nest -> outcome nest.
Variable fuel : nat.
Hypothesis Hexit : forall e s, is_exit e = true -> cb e s = Done s \/ cb e s = Timeout.
Hypothesis Hopen : updates cfg = true -> NR \/ forall e s, is_opening e = true -> cb e s = Done s \/ cb e s = Timeout.
Hypothesis Hcb : forall e s, inv s -> initialized (man s) <> 0 -> ok True (cb e s).
Set Default Proof Using "Hdebug Hdepth Hexit Hopen Hcb".

Lemma x_close : forall s c h, current_page (man s) = Some (ipage c) -> made s = tr_ h ->
  n_close cb s = Timeout \/ n_close cb s = Done (mkNest (man s) (tr_ (h ++ [LClose c])) (asked s)).
Proof.
  intros s c h Hc Hm. rewrite <- (close_trace cfg depth Hdebug Hdepth). unfold n_close, current. rewrite Hc. cbn [obind]. unfold call_close.
  destruct (close_ (ipage c)); [|right; rewrite <- Hm; now destruct s].
  unfold does. destruct (Hexit (EClose z (data (ipage c))) (mkNest (man s) (made s ++ [EClose z (data (ipage c))]) (asked s)) eq_refl) as [E|E];
    rewrite E; [right; now rewrite Hm|now left].
Qed.

Lemma x_discard : forall s c h, made s = tr_ h ->
  n_discard cb (ipage c) s = Timeout \/ n_discard cb (ipage c) s = Done (mkNest (man s) (tr_ (h ++ [LDestroy c])) (asked s)).
Proof.
  intros s c h Hm. rewrite <- (destroy_trace cfg depth Hdebug Hdepth). unfold n_discard. unfold call_destroy.
  destruct (destroy (ipage c)); [|right; rewrite <- Hm; now destruct s].
  unfold does. match goal with |- context [cb ?e ?t] => destruct (Hexit e t eq_refl) as [E|E] end;
    rewrite E; [right; now rewrite Hm|now left].
Qed.

Lemma x_destroy : forall s c h, current_page (man s) = Some (ipage c) -> made s = tr_ h ->
  n_destroy cb s = Timeout \/ n_destroy cb s = Done (mkNest (man s) (tr_ (h ++ [LDestroy c])) (asked s)).
Proof.
  intros s c h Hc Hm. unfold n_destroy, current. rewrite Hc. exact (x_discard s c h Hm).
Qed.

Lemma x_clear : forall l n s h, srep depth (page_stack (man s)) (map ipage l) -> made s = tr_ h ->
  n_clear cb n s = Timeout \/
  exists st, srep depth st [] /\ n_clear cb n s = Done (mkNest (with_stack (man s) st) (tr_ (h ++ map LDestroy l)) (asked s)).
Proof.
  induction l as [|i l IH]; intros n s h Hs Hm; (destruct n as [|n]; [now left|]); cbn [n_clear].
  - right. rewrite (pop_nil cfg depth Hdebug Hdepth) by assumption. cbn [obind map]. rewrite app_nil_r.
    exists (page_stack (man s)). split; [exact Hs|]. rewrite <- Hm. reflexivity.
  - cbn [map] in Hs. destruct (pop_cons cfg depth Hdebug Hdepth _ _ _ Hs) as (s' & E & Hs'). rewrite E. cbn [obind Z.eqb].
    destruct (x_discard (with_man s (with_stack (man s) s')) i h Hm) as [E'|E']; rewrite E'; cbn [obind]; [now left|].
    match goal with |- n_clear cb n ?t = _ \/ _ => destruct (IH n t (h ++ [LDestroy i]) Hs' eq_refl) as [E2|(st & H2 & E2)] end;
      [now left|]. right. exists st. split; [exact H2|]. rewrite E2, <- app_assoc. reflexivity.
Qed.

Lemma x_update : forall s, inv s -> (updates cfg = true -> initialized (man s) <> 0) ->
  (initialized (man s) <> 0) -> ok True (n_update cfg ev cb s).
Proof.
  intros s Hi _ Hz. unfold n_update. destruct (bool_dec (updates cfg) true) as [Eu|Eu]; [|apply not_true_is_false in Eu].
  - rewrite Eu. pose proof Hi as (n & [Ht Hn] & G). cbn [fst snd] in *. destruct (insts n) as [|c rest] eqn:Ei; [destruct Hn; contradiction|].
    destruct Hn as (H1 & Hc & Hs). unfold current. rewrite Hc. cbn [obind]. destruct (update (ipage c)) as [f|] eqn:Ef.
    + unfold does. apply Hcb; [|exact Hz]. cbn [man made asked].
      set (r := ret_update ev (made s) f (data (ipage c))).
      exists (mkNav (insts n) (hist n ++ [LUpdate c r]) (count n)). split.
      * split; cbn [fst snd hist insts].
        -- rewrite Ht, trace_app, trace_cons. cbn [trace flat_map seen]. rewrite Ef, Eu. reflexivity.
        -- rewrite Ei. auto.
      * destruct G as ((w & W) & I & H & N & C). split.
        -- exists w. destruct W as (Hl & Hnd & Ha & Ho & Hx & Hlt). unfold wrep. cbn [hist insts count].
           rewrite lives_app, Hl. cbn [lives live]. unfold is_open. rewrite Ho, Ei, Nat.eqb_refl. rewrite Ei in *.
           repeat split; try assumption; apply Ha.
        -- split; [exact I|]. split; [exact H|]. split; cbn [hist].
           ++ apply named_old; auto. intros l [<-|[]]. rewrite Ei. now left.
           ++ rewrite created_app. cbn [created flat_map]. now rewrite app_nil_r.
    + cbn [ok]. auto.
  - rewrite Eu. cbn [ok]. auto.
Qed.

Lemma x_opening : forall s c rest h cnt, made s = tr_ h -> initialized (man s) = 1 -> current_page (man s) = Some (ipage c) ->
  srep depth (page_stack (man s)) (map ipage rest) -> good (mkNav (c :: rest) (h ++ [LOpen c]) cnt) (asked s) ->
  ok True (do s <- n_open cb s; n_update cfg ev cb s).
Proof.
  intros s c rest h cnt Hm Hi Hc Hs G. unfold n_open, current. rewrite Hc. cbn [obind].
  set (s1 := mkNest (man s) (tr_ (h ++ [LOpen c])) (asked s)).
  assert (I1 : inv s1).
  { exists (mkNav (c :: rest) (h ++ [LOpen c]) cnt). split; [|exact G]. split; cbn [fst snd hist insts]; [reflexivity|auto]. }
  assert (Hz : initialized (man s1) <> 0) by (cbn [s1 man]; lia).
  assert (E1 : open_ (ipage c) = None -> s = s1).
  { intros Eo. unfold s1. rewrite <- (open_trace cfg depth Hdebug Hdepth). unfold call_open. rewrite Eo. rewrite <- Hm. now destruct s. }
  destruct (open_ (ipage c)) as [f|] eqn:Eo.
  - unfold does. assert (Es : mkNest (man s) (made s ++ [EOpen f (data (ipage c))]) (asked s) = s1).
    { unfold s1. rewrite <- (open_trace cfg depth Hdebug Hdepth). unfold call_open. rewrite Eo, Hm. reflexivity. }
    rewrite Es. pose proof (Hcb (EOpen f (data (ipage c))) s1 I1 Hz) as Ho.
    destruct (bool_dec (updates cfg) true) as [Eu|Eu]; [|apply not_true_is_false in Eu].
    + destruct (Hopen Eu) as [HNR|Hp].
      * destruct (cb (EOpen f (data (ipage c))) s1) as [s2| | |]; cbn [obind ok] in *; try exact Ho.
        destruct Ho as [I2 Z2]. specialize (Z2 HNR Logic.I). apply x_update; auto.
      * destruct (Hp (EOpen f (data (ipage c))) s1 eq_refl) as [E|E]; rewrite E; cbn [obind]; [|exact Logic.I].
        apply x_update; auto.
    + destruct (cb (EOpen f (data (ipage c))) s1) as [s2| | |]; cbn [obind] in *; try exact Ho.
      unfold n_update. rewrite Eu. exact Ho.
  - rewrite (E1 eq_refl). cbn [obind]. apply x_update; auto.
Qed.

(** A new page on top of [below] after [h]. *)
Lemma x_show : forall s h below p x cnt, made s = tr_ h -> initialized (man s) = 1 ->
  srep depth (page_stack (man s)) (map ipage below) ->
  good (fst (shown cfg0 (ev0 (made s)) (mkNav [] [] cnt) h below p x)) (asked s) ->
  ok True (n_show cfg ev cb p x s).
Proof.
  intros s h below p x cnt Hm Hi Hs G. unfold shown in G.
  set (d := match create p with Some f => _ | None => _ end) in G.
  set (i := mkInst _ _) in G.
  change (updated cfg0 (ev0 (made s)) (h ++ [LCreate i; LOpen i]) i) with (h ++ [LCreate i; LOpen i], VIEW_NULL cfg) in G. cbn [fst] in G.
  unfold n_show.
  assert (Hcr : n_create cfg ev cb (with_man s (with_page (man s) (set_extra p x))) = Timeout \/
    n_create cfg ev cb (with_man s (with_page (man s) (set_extra p x))) =
      Done (mkNest (with_page (man s) (ipage i)) (tr_ (h ++ [LCreate i])) (asked s))).
  { rewrite trace_app, trace_cons. cbn [trace flat_map]. rewrite app_nil_r. unfold seen, i. cbn [ipage create extra data].
    match goal with |- ?a = Timeout \/ _ => remember a as z eqn:Ez end.
    unfold n_create, with_man, with_page, set_extra in Ez. unfold with_page.
    cbn [man current current_page obind made asked create extra initialized page_stack id data destroy open_ close_ update process_event] in Ez.
    subst d. destruct (create p) as [f|] eqn:Ec.
    - unfold does in Ez. match type of Ez with context [cb ?e ?t] => destruct (Hexit e t eq_refl) as [E|E] end; rewrite E in Ez;
        cbn [obind] in Ez; [|now left].
      right. rewrite Ez. cbn [man current current_page obind made asked initialized page_stack]. rewrite Hm. reflexivity.
    - right. rewrite Ez. rewrite app_nil_r, Hm. reflexivity. }
  destruct Hcr as [E|E]; rewrite E; cbn [obind]; [exact Logic.I|].
  apply (x_opening (mkNest (with_page (man s) (ipage i)) (tr_ (h ++ [LCreate i])) (asked s)) i below (h ++ [LCreate i]) (S cnt));
    try assumption; try reflexivity. rewrite <- app_assoc. exact G.
Qed.

Lemma x_reset : forall k l n s h cnt, srep depth (page_stack (man s)) (map ipage l) -> initialized (man s) = 0 -> made s = tr_ h -> ~ NR ->
  (let (gone, kept) := split_at k l in
   let h' := h ++ map LDestroy gone in
   good (match kept with [] => mkNav [] h' cnt | d :: below => mkNav (d :: below) (h' ++ [LOpen d]) cnt end) (asked s)) ->
  ok True (n_reset cfg ev cb n k s).
Proof.
  intros k. induction l as [|i l IH]; intros n s h cnt Hs Hi Hm HN G; (destruct n as [|n]; [exact Logic.I|]); cbn [n_reset split_at] in *.
  - rewrite (pop_nil cfg depth Hdebug Hdepth) by assumption. cbn [obind map ok] in *. rewrite app_nil_r in G. split; [|contradiction].
    exists (mkNav [] h cnt). split; [|exact G]. split; cbn [fst snd hist insts with_man with_stack man made initialized page_stack]; auto.
  - cbn [map] in Hs. destruct (pop_cons cfg depth Hdebug Hdepth _ _ _ Hs) as (s' & E & Hs'). rewrite E. cbn [obind Z.eqb].
    destruct (id (ipage i) =? k).
    + cbn [map] in G. rewrite app_nil_r in G.
      apply (x_opening (with_man (with_man s (with_stack (man s) s')) (with_page (with_init (man (with_man s (with_stack (man s) s'))) 1) (ipage i))) i l h cnt);
        try assumption; reflexivity.
    + destruct (x_discard (with_man s (with_stack (man s) s')) i h Hm) as [E'|E']; rewrite E'; cbn [obind]; [exact Logic.I|].
      apply (IH n _ (h ++ [LDestroy i]) cnt); try assumption; try reflexivity.
      destruct (split_at k l) as [gone kept]. cbn [map] in G. rewrite <- app_assoc. exact G.
Qed.

Lemma good_step' : forall tr s a o n' r n, good n a -> navigate cfg0 (ev0 tr) depth n o = Done (n', r) -> asked s = a ++ [o] ->
  (AH -> handles n -> handles n') -> good n' (asked s).
Proof. intros. rewrite H1. eapply good_step; eassumption. Qed.

Lemma split_handles : forall k l, Forall (fun i => process_event (ipage i) <> None) l ->
  Forall (fun i => process_event (ipage i) <> None) (snd (split_at k l)).
Proof.
  intros k. induction l as [|i l IH]; intros H; cbn [split_at snd]; [constructor|].
  destruct (id (ipage i) =? k); [exact H|]. apply Forall_cons_iff in H as [_ H]. specialize (IH H).
  destruct (split_at k l). exact IH.
Qed.

Lemma x_call : forall o s n a, nrep_ (man s, made s) n -> good n a -> asked s = a ++ [o] ->
  (needs_page o = true -> initialized (man s) <> 0) -> (NR -> forall i, o <> NReset i) ->
  (AH -> match o with NChange p _ | NSwap p _ | NRebase p _ => process_event p <> None | _ => True end) ->
  ok True (n_call cfg ev cb fuel o s).
Proof.
  intros o s n a [Ht Hn] G Ha Hp Hr Hh. cbn [fst snd] in Ht, Hn.
  assert (Gh : AH -> handles n) by apply G.
  destruct o as [p x| |p x|p x|k| |e]; cbn [n_call needs_page] in *.
  - (* change *)
    unfold n_change. destruct (insts n) as [|c rest] eqn:Ei.
    + destruct Hn as [Hi Hs]. rewrite Hi. cbn [Z.eqb].
      apply (x_show (with_man s (with_init (man s) 1)) (hist n) [] p x (count n)); try assumption; try reflexivity.
      eapply (good_step' (made s) (with_man s (with_init (man s) 1)) a (NChange p x)); [exact G| |exact Ha|].
      * cbn [navigate]. rewrite Ei. unfold shown. cbn [cfg0 updated updates count with_man made fst]. reflexivity.
      * intros HA _. unfold handles. cbn [insts]. constructor; [exact (Hh HA)|constructor].
    + destruct Hn as (Hi & Hc & Hs). rewrite Hi. cbn [Z.eqb].
      destruct (x_close s c (hist n) Hc Ht) as [E|E]; rewrite E; cbn [obind]; [exact Logic.I|]. rewrite Hdebug.
      unfold current. cbn [man]. rewrite Hc. cbn [obind].
      assert (Hz : zlen (c :: rest) = zlen (map ipage rest) + 1) by (unfold zlen; rewrite map_length; cbn [length]; lia).
      destruct (Z.ltb_spec depth (zlen (c :: rest))).
      * rewrite (push_full cfg depth Hdebug Hdepth _ _ _ Hs) by (destruct Hs; lia). exact Logic.I.
      * destruct (push_ok cfg depth Hdebug Hdepth _ (ipage c) _ Hs ltac:(lia)) as (st & E' & Hs'). rewrite E'. cbn [obind Z.eqb].
        match goal with |- ok True (n_show _ _ _ _ _ ?t) => apply (x_show t (hist n ++ [LClose c]) (c :: rest) p x (count n)); try assumption; try reflexivity;
          eapply (good_step' (made t) t a (NChange p x)); [exact G| |exact Ha|] end.
        -- cbn [navigate]. rewrite Ei. destruct (Z.ltb_spec depth (zlen (c :: rest))); [lia|].
           unfold shown. cbn [cfg0 updated updates count fst]. reflexivity.
        -- intros HA Hx. unfold handles in *. rewrite Ei in Hx. cbn [insts]. constructor; [exact (Hh HA)|exact Hx].
  - (* back *)
    unfold n_back, assert. rewrite Hdebug. cbn [orb]. destruct (insts n) as [|c [|d rest]] eqn:Ei.
    + destruct Hn as [Hi Hs]. rewrite Hi. exact Logic.I.
    + destruct Hn as (Hi & Hc & Hs). rewrite Hi. cbn [Z.eqb negb obind]. rewrite (pop_nil cfg depth Hdebug Hdepth) by assumption.
      cbn [obind ok]. split; [|intros _ _; cbn [with_man man with_stack initialized]; lia]. exists n. split.
      * split; cbn [fst snd with_man man made with_stack initialized current_page page_stack]; [exact Ht|]. rewrite Ei. auto.
      * eapply (good_step' (made s) (with_man s (with_stack (man s) (page_stack (man s)))) a NBack); [exact G| |exact Ha|auto].
        cbn [navigate]. rewrite Ei. reflexivity.
    + destruct Hn as (Hi & Hc & Hs). rewrite Hi. cbn [Z.eqb negb obind]. cbn [map] in Hs.
      destruct (pop_cons cfg depth Hdebug Hdepth _ _ _ Hs) as (st & E & Hs'). rewrite E. cbn [obind Z.eqb].
      match goal with |- context [n_close cb ?t] => destruct (x_close t c (hist n) Hc Ht) as [E'|E'] end; rewrite E'; cbn [obind]; [exact Logic.I|].
      match goal with |- context [n_destroy cb ?t] => destruct (x_destroy t c (hist n ++ [LClose c]) Hc eq_refl) as [E2|E2] end; rewrite E2; cbn [obind]; [exact Logic.I|].
      match goal with |- ok True (do s <- n_open _ ?t; _) =>
        apply (x_opening t d rest ((hist n ++ [LClose c]) ++ [LDestroy c]) (count n)); try assumption; try reflexivity;
        eapply (good_step' (made s) t a NBack); [exact G| |exact Ha|] end.
      * cbn [navigate]. rewrite Ei. unfold reopened. cbn [cfg0 updated updates fst]. repeat rewrite <- app_assoc. reflexivity.
      * intros HA Hx. unfold handles in *. rewrite Ei in Hx. cbn [insts]. now apply Forall_cons_iff in Hx as [_ Hx].
  - (* swap *)
    specialize (Hp eq_refl). destruct (insts n) as [|c rest] eqn:Ei; [destruct Hn; contradiction|]. destruct Hn as (Hi & Hc & Hs).
    unfold n_swap. destruct (x_close s c (hist n) Hc Ht) as [E'|E']; rewrite E'; cbn [obind]; [exact Logic.I|].
    match goal with |- context [n_destroy cb ?t] => destruct (x_destroy t c (hist n ++ [LClose c]) Hc eq_refl) as [E2|E2] end; rewrite E2; cbn [obind]; [exact Logic.I|].
    match goal with |- ok True (n_show _ _ _ _ _ ?t) => apply (x_show t ((hist n ++ [LClose c]) ++ [LDestroy c]) rest p x (count n)); try assumption; try reflexivity;
      eapply (good_step' (made t) t a (NSwap p x)); [exact G| |exact Ha|] end.
    + cbn [navigate]. rewrite Ei. unfold shown. cbn [cfg0 updated updates count fst made]. repeat rewrite <- app_assoc. reflexivity.
    + intros HA Hx. unfold handles in *. rewrite Ei in Hx. cbn [insts]. apply Forall_cons_iff in Hx as [_ Hx]. constructor; [exact (Hh HA)|exact Hx].
  - (* rebase *)
    specialize (Hp eq_refl). destruct (insts n) as [|c rest] eqn:Ei; [destruct Hn; contradiction|]. destruct Hn as (Hi & Hc & Hs).
    unfold n_rebase. destruct (x_close s c (hist n) Hc Ht) as [E'|E']; rewrite E'; cbn [obind]; [exact Logic.I|].
    match goal with |- context [n_destroy cb ?t] => destruct (x_destroy t c (hist n ++ [LClose c]) Hc eq_refl) as [E2|E2] end; rewrite E2; cbn [obind]; [exact Logic.I|].
    match goal with |- context [n_clear cb fuel ?t] => destruct (x_clear rest fuel t ((hist n ++ [LClose c]) ++ [LDestroy c]) Hs eq_refl) as [E3|(st & Hst & E3)] end;
      rewrite E3; cbn [obind]; [exact Logic.I|].
    match goal with |- ok True (n_show _ _ _ _ _ ?t) =>
      apply (x_show t (((hist n ++ [LClose c]) ++ [LDestroy c]) ++ map LDestroy rest) [] p x (count n)); try assumption; try reflexivity;
      eapply (good_step' (made t) t a (NRebase p x)); [exact G| |exact Ha|] end.
    + cbn [navigate]. rewrite Ei. unfold shown. cbn [cfg0 updated updates count fst made]. repeat rewrite <- app_assoc. reflexivity.
    + intros HA Hx. unfold handles in *. cbn [insts]. constructor; [exact (Hh HA)|constructor].
  - (* reset *)
    specialize (Hp eq_refl). destruct (insts n) as [|c rest] eqn:Ei; [destruct Hn; contradiction|]. destruct Hn as (Hi & Hc & Hs).
    unfold n_reset_to. destruct (x_close s c (hist n) Hc Ht) as [E'|E']; rewrite E'; cbn [obind]; [exact Logic.I|].
    match goal with |- context [n_destroy cb ?t] => destruct (x_destroy t c (hist n ++ [LClose c]) Hc eq_refl) as [E2|E2] end; rewrite E2; cbn [obind]; [exact Logic.I|].
    match goal with |- ok True (n_reset _ _ _ _ _ ?t) =>
      apply (x_reset k rest fuel t ((hist n ++ [LClose c]) ++ [LDestroy c]) (count n)); try assumption; try reflexivity end.
    { intros HN. exact (Hr HN k eq_refl). }
    pose proof (fun HA => split_handles k rest (proj2 (proj1 (Forall_cons_iff _ _ _) (eq_ind _ (fun l => Forall _ l) (Gh HA) _ Ei)))) as Hsp.
    destruct (split_at k rest) as [gone kept] eqn:Esp. cbn [snd] in Hsp. cbv zeta.
    destruct kept as [|d below];
      (match goal with |- good ?m (asked ?t) => eapply (good_step' (made s) t a (NReset k) m); [exact G| |exact Ha|intros HA _; exact (Hsp HA)] end);
      cbn [navigate]; rewrite Ei, Esp; unfold reopened; cbn [cfg0 updated updates count fst made]; repeat rewrite <- app_assoc; reflexivity.
  - (* update *)
    unfold n_page_update, assert. rewrite Hdebug. cbn [orb]. destruct (insts n) as [|c rest] eqn:Ei.
    + destruct Hn as [Hi _]. rewrite Hi. exact Logic.I.
    + destruct Hn as (Hi & Hc & Hs). rewrite Hi. cbn [Z.eqb negb obind]. apply x_update; try (intros; lia). exists n. split.
      * split; cbn [fst snd]; [exact Ht|]. rewrite Ei. auto.
      * eapply (good_step' (made s) s a NUpdate); [exact G| |exact Ha|auto]. cbn [navigate]. rewrite Ei.
        cbn [cfg0 updated updates]. destruct n as [ni nh nc]. cbn [insts hist count] in *. subst ni. reflexivity.
  - (* event *)
    unfold n_event, assert. rewrite Hdebug. cbn [orb]. destruct (insts n) as [|c rest] eqn:Ei.
    + destruct Hn as [Hi _]. rewrite Hi. exact Logic.I.
    + destruct Hn as (Hi & Hc & Hs). rewrite Hi. cbn [Z.eqb negb obind]. unfold current. rewrite Hc. cbn [obind].
      destruct (process_event (ipage c)) as [f|] eqn:Ef.
      * unfold does. apply Hcb; [|cbn [man]; lia]. set (r := ret_event ev (made s) f (data (ipage c)) e).
        exists (record n [LEvent c e r]). unfold record. split.
        -- split; cbn [fst snd hist insts man made].
           ++ rewrite Ht, trace_app, trace_cons. cbn [trace flat_map seen]. rewrite Ef. reflexivity.
           ++ rewrite Ei. auto.
        -- assert (Hg : good n (asked s)).
           { destruct G as (W & I & H & N & C). split; [exact W|]. split; [|split; [exact H|split; [exact N|now rewrite Ha, brought_app, C, app_nil_r]]]. rewrite Ha. unfold ids in *. rewrite fold_left_app. cbn [fold_left ids_step]. exact I. }
           destruct Hg as ((w & W) & I & H & N & C). split;
             [|split; [exact I|split; [exact H|split; [apply named_old; auto; intros l [<-|[]]; rewrite Ei; now left|cbn [hist]; rewrite created_app; cbn [created flat_map]; now rewrite app_nil_r]]]].
           exists w. destruct W as (Hl & Hnd & Hal & Ho & Hx & Hlt). unfold wrep. cbn [hist insts count].
           rewrite lives_app, Hl. cbn [lives live]. unfold is_open. rewrite Ho, Ei, Nat.eqb_refl. rewrite Ei in *.
           repeat split; try assumption; apply Hal.
      * intros HA. specialize (Gh HA). unfold handles in Gh. rewrite Ei in Gh. apply Forall_cons_iff in Gh as [Hb _]. contradiction.
Qed.
Unset Default Proof Using.
End Body.

Variable prog : program.
Hypothesis Hx : passive is_exit prog.
Hypothesis Ho : updates cfg = true -> NR \/ passive is_opening prog.
Hypothesis Hpol : polite prog.
Hypothesis HAH : AH -> handled prog.
Hypothesis HNR : NR -> resets_nothing prog.

Lemma acts_ok : forall fuel c k s, inv s -> ok (initialized (man s) <> 0) (acts cfg ev prog fuel c k s).
Proof using Hdebug Hdepth Hx Ho Hpol HAH HNR.
  assert (Hp : forall fuel b e t, passive b prog -> b e = true -> acts cfg ev prog fuel (During e) 0 t = Done t \/ acts cfg ev prog fuel (During e) 0 t = Timeout).
  { intros [|fuel] b e t Hb He; [now right|]. left. cbn [acts]. now rewrite (Hb _ _ _ He). }
  induction fuel as [|fuel IH]; intros c k s Hi; [exact Logic.I|]. cbn [acts].
  destruct (prog c k s) as [o|] eqn:Eo; [|split; auto]. pose proof Hi as (n & R & G).
  assert (H1 : ok True (n_call cfg ev (fun e => acts cfg ev prog fuel (During e) 0) fuel o (mkNest (man s) (made s) (asked s ++ [o])))).
  { apply (x_call _ _) with (n := n) (a := asked s).
    - intros e t He. exact (Hp _ _ _ _ Hx He).
    - intros Hu. destruct (Ho Hu) as [H|H]; [now left|right]. intros e t He. exact (Hp _ _ _ _ H He).
    - intros e t It Zt. specialize (IH (During e) 0%nat t It). destruct (acts _ _ _ _ _ _ t); cbn [ok] in *; auto. destruct IH. auto.
    - exact R.
    - exact G.
    - reflexivity.
    - exact (Hpol _ _ _ _ Eo).
    - intros HN i ->. exact (HNR HN _ _ _ _ Eo).
    - intros HA. exact (HAH HA _ _ _ _ Eo). }
  destruct (n_call _ _ _ _ _ _) as [s'| | |]; cbn [obind]; try exact H1.
  destruct H1 as [I1 Z1]. specialize (IH c (S k) s' I1). destruct (acts _ _ _ _ _ _ s'); cbn [ok] in *; auto.
  destruct IH as [I2 Z2]. auto.
Qed.

Lemma runs_ok : forall fuel pm, zlen (sitems (page_stack pm)) = depth -> ok False (runs cfg ev prog fuel pm).
Proof using Hdebug Hdepth Hx Ho Hpol HAH HNR.
  intros fuel pm H. unfold runs.
  assert (Hi : inv (mkNest (pman_init pm) [] [])).
  { exists no_pages. split; [exact (nrep_init cfg depth Hdebug Hdepth pm H)|]. split; [eexists; apply no_pages_wrep|]. split; [reflexivity|].
    split; [intros _; constructor|]. split; [exact no_pages_named|reflexivity]. }
  pose proof (acts_ok fuel App 0 _ Hi) as Hk. destruct (acts _ _ _ _ _ _ _); cbn [ok] in *; auto. destruct Hk. split; auto.
Qed.
End Life.

Lemma nested_lifecycle_l : forall cfg ev depth prog, ndebug cfg = false -> depth <= 65535 ->
  passive is_exit prog -> (updates cfg = true -> resets_nothing prog \/ passive is_opening prog) -> polite prog ->
  forall fuel pm s, zlen (sitems (page_stack pm)) = depth -> runs cfg ev prog fuel pm = Done s ->
  (exists l w is, lawful (updates cfg) (asked s) (made s) l w /\
    pages (man s) = map ipage is /\ NoDup (map num is) /\
    (forall k, In k (alive w) <-> In k (map num is)) /\
    (forall i, In i is -> exists m, In m l /\ who m = i) /\
    opened w = match is with [] => None | c :: _ => Some (num c) end) /\
  map id (pages (man s)) = ids (asked s).
Proof.
  intros cfg ev depth prog Hd Hdep Hx Ho Hp fuel pm s Hpm Hr.
  pose proof (runs_ok cfg ev depth Hd Hdep False (resets_nothing prog) prog Hx Ho Hp (fun H => match H with end) (fun H => H) fuel pm Hpm) as H.
  rewrite Hr in H. destruct H as [(n & R & (w & W) & I & _ & (N1 & N2 & _) & C) _].
  pose proof (nrep_pages cfg depth Hd Hdep _ _ R) as HP. destruct R as [Ht _]. cbn [fst snd] in *.
  destruct W as (H1 & H2 & H3 & H4 & _). split.
  - exists (hist n), w, (insts n). split; [|auto]. repeat split; assumption.
  - rewrite HP, map_map. exact I.
Qed.

Lemma nested_defined_l : forall cfg ev depth prog, ndebug cfg = false -> depth <= 65535 ->
  passive is_exit prog -> (updates cfg = true -> resets_nothing prog \/ passive is_opening prog) -> polite prog -> handled prog ->
  forall fuel pm, zlen (sitems (page_stack pm)) = depth -> runs cfg ev prog fuel pm <> Undef.
Proof.
  intros cfg ev depth prog Hd Hdep Hx Ho Hp Hh fuel pm Hpm E.
  pose proof (runs_ok cfg ev depth Hd Hdep True (resets_nothing prog) prog Hx Ho Hp (fun _ => Hh) (fun H => H) fuel pm Hpm) as H.
  rewrite E in H. apply H. exact Logic.I.
Qed.

(** *** Lawful lives of complete pages *)
Lemma live_open : forall w a w', live w a = Some w' -> (forall k, opened w = Some k -> In k (alive w)) ->
  forall k, opened w' = Some k -> In k (alive w').
Proof.
  intros w a w' E H k Hk. destruct a as [i|i|i|i|i r|i e r]; cbn [live] in E.
  - destruct (num i =? next w)%nat; [|discriminate]. injection E as <-. right. exact (H _ Hk).
  - destruct (is_alive w i) eqn:A; [|discriminate]. destruct (opened w); [discriminate|]. injection E as <-. injection Hk as <-. now apply alive_in.
  - destruct (is_open w i); [|discriminate]. injection E as <-. discriminate.
  - destruct (is_alive w i); [|discriminate]. destruct (is_open w i) eqn:O; [discriminate|]. injection E as <-. cbn [alive opened] in *.
    apply filter_In. split; [exact (H _ Hk)|]. unfold is_open in O. rewrite Hk in O. now rewrite O.
  - destruct (is_open w i); [|discriminate]. injection E as <-. auto.
  - destruct (is_open w i); [|discriminate]. injection E as <-. auto.
Qed.

Lemma lives_created : forall l w w', lives w l = Some w' -> (forall k, opened w = Some k -> In k (alive w)) -> forall m, In m l ->
  In (num (who m)) (alive w) \/ exists i, In (LCreate i) l /\ num i = num (who m).
Proof.
  induction l as [|a l IH]; intros w w' H Hop m Hm; [destruct Hm|]. cbn [lives] in H.
  destruct (live w a) as [w1|] eqn:E; [|discriminate]. pose proof (live_open _ _ _ E Hop) as Hop1.
  assert (K : forall k, In k (alive w1) -> In k (alive w) \/ exists i, In (LCreate i) (a :: l) /\ num i = k).
  { intros k Hk. destruct a as [i|i|i|i|i r|i e r]; cbn [live] in E.
    - destruct (num i =? next w)%nat; [|discriminate]. injection E as <-. destruct Hk as [<-|Hk]; [right; exists i; split; [now left|reflexivity]|now left].
    - destruct (is_alive w i); [|discriminate]. destruct (opened w); [discriminate|]. injection E as <-. now left.
    - destruct (is_open w i); [|discriminate]. injection E as <-. now left.
    - destruct (is_alive w i && negb (is_open w i)); [|discriminate]. injection E as <-. left. cbn [alive] in Hk. now apply filter_In in Hk as [Hk _].
    - destruct (is_open w i); [|discriminate]. injection E as <-. now left.
    - destruct (is_open w i); [|discriminate]. injection E as <-. now left. }
  assert (Ho : forall i, is_open w i = true -> In (num i) (alive w)).
  { intros i O. unfold is_open in O. destruct (opened w) as [k|]; [|discriminate]. apply Nat.eqb_eq in O. subst k. now apply Hop. }
  destruct Hm as [<-|Hm].
  - destruct a as [i|i|i|i|i r|i e r]; cbn [live who] in *.
    + right. exists i. split; [now left|reflexivity].
    + left. destruct (is_alive w i) eqn:A; [|discriminate]. now apply alive_in.
    + left. destruct (is_open w i) eqn:A; [|discriminate]. now apply Ho.
    + left. destruct (is_alive w i) eqn:A; [|discriminate]. now apply alive_in.
    + left. destruct (is_open w i) eqn:A; [|discriminate]. now apply Ho.
    + left. destruct (is_open w i) eqn:A; [|discriminate]. now apply Ho.
  - destruct (IH _ _ H Hop1 m Hm) as [A|(i & A & B)].
    + destruct (K _ A) as [B|B]; auto.
    + right. exists i. split; [now right|exact B].
Qed.

Lemma lives_gate : forall l w w', lives w l = Some w' -> (forall m, In m l -> complete (ipage (who m))) ->
  gate (match opened w with Some _ => true | None => false end) (trace true l) = true.
Proof.
  induction l as [|a l IH]; intros w w' H Hc; [reflexivity|]. cbn [lives] in H.
  destruct (live w a) as [w1|] eqn:E; [|discriminate].
  specialize (IH _ _ H (fun m Hm => Hc m (or_intror Hm))). specialize (Hc a (or_introl eq_refl)).
  destruct Hc as (C1 & C2 & C3 & C4 & C5 & C6). rewrite trace_cons.
  assert (Hopen : forall i, is_open w i = true -> match opened w with Some _ => true | None => false end = true).
  { intros i O. unfold is_open in O. now destruct (opened w). }
  destruct a as [i|i|i|i|i r|i e r]; cbn [live who seen] in *.
  - destruct (create (ipage i)); [|contradiction]. destruct (num i =? next w)%nat; [|discriminate]. injection E as <-. exact IH.
  - destruct (open_ (ipage i)); [|contradiction]. destruct (is_alive w i); [|discriminate]. destruct (opened w); [discriminate|].
    injection E as <-. exact IH.
  - destruct (close_ (ipage i)); [|contradiction]. destruct (is_open w i) eqn:O; [|discriminate]. injection E as <-.
    cbn [app gate]. rewrite (Hopen _ O). exact IH.
  - destruct (destroy (ipage i)); [|contradiction]. destruct (is_alive w i && negb (is_open w i)); [|discriminate]. injection E as <-. exact IH.
  - destruct (update (ipage i)); [|contradiction]. destruct (is_open w i) eqn:O; [|discriminate]. injection E as <-.
    cbn [app gate]. rewrite (Hopen _ O) in *. exact IH.
  - destruct (process_event (ipage i)); [|contradiction]. destruct (is_open w i) eqn:O; [|discriminate]. injection E as <-.
    cbn [app gate]. rewrite (Hopen _ O) in *. exact IH.
Qed.

Lemma lawful_gate : forall h tr l w, lawful true h tr l w -> Forall complete (brought h) -> gate false tr = true.
Proof.
  intros h tr l w (-> & Hl & Ho & Hc) Hb. apply (lives_gate l (mkWorld [] None 0) w Hl).
  intros m Hm. destruct (lives_created _ _ _ Hl ltac:(discriminate) m Hm) as [[]|(i & Hi & En)].
  pose proof (Ho (LCreate i) m Hi Hm En) as Ew. cbn [who] in Ew. rewrite <- Ew, <- Hc in *.
  rewrite Forall_forall in Hb. apply (Hb (blank (ipage i) (extra (ipage i)))). unfold created. apply in_flat_map.
  exists (LCreate i). split; [exact Hi|now left].
Qed.
