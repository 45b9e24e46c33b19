(** Latency of the key automaton. *)
From Verif Require Import Base KeypadModel KeypadSpec KeypadSystem KeypadProofs KeyLateSpec.

Section P.
Variables click longclick period J : Z.
Hypothesis Hc : 0 <= click <= longclick.
Hypothesis Hp : 0 <= period.
Hypothesis HJ : 0 <= J.

Local Notation step := (kstep click longclick period).

Fixpoint ktrace (s : phase) (h : list (Z * bool)) : list entry :=
  match h with
  | [] => []
  | (t, d) :: h' => (t, d, snd (step s t d)) :: ktrace (fst (step s t d)) h'
  end.

Definition final (s : phase) (h : list (Z * bool)) : phase := fold_left (fun s x => fst (step s (fst x) (snd x))) h s.

Fixpoint chain (prev : Z) (h : list (Z * bool)) : Prop :=
  match h with [] => True | (t, _) :: h' => prev <= t <= prev + J /\ chain t h' end.

Lemma ktrace_trace : forall h s, trace h (kevents click longclick period s h) = ktrace s h.
Proof.
  induction h as [|[t d] h IH]; intros s; [reflexivity|]. cbn [kevents ktrace]. destruct (step s t d) as [s' e] eqn:E.
  cbn [trace combine fst snd]. f_equal. apply IH.
Qed.

Lemma ktrace_app : forall h1 h2 s, ktrace s (h1 ++ h2) = ktrace s h1 ++ ktrace (final s h1) h2.
Proof.
  induction h1 as [|[t d] h1 IH]; intros h2 s; [reflexivity|]. cbn [app ktrace]. rewrite IH. reflexivity.
Qed.

Lemma ktrace_split : forall a h s b, ktrace s h = a ++ b ->
  exists h1 h2, h = h1 ++ h2 /\ a = ktrace s h1 /\ b = ktrace (final s h1) h2.
Proof.
  induction a as [|x a IH]; intros h s b E.
  - exists [], h. repeat split; try reflexivity. now symmetry.
  - destruct h as [|[t d] h]; [discriminate|]. cbn [app ktrace] in E. injection E as Ex E.
    destruct (IH _ _ _ E) as (h1 & h2 & -> & -> & ->). exists ((t, d) :: h1), h2. cbn [ktrace app]. rewrite <- Ex.
    repeat split; reflexivity.
Qed.

Lemma adv_chain : forall h p d, advancing (J + 1) ((p, d) :: h) -> chain p h.
Proof.
  induction h as [|[t d'] h IH]; intros p d H; [exact Logic.I|]. cbn in H. destruct H as [H1 H2]. cbn. split; [lia|].
  apply (IH t d'). exact H2.
Qed.

Lemma adv_suffix : forall h1 h2 G, advancing G (h1 ++ h2) -> advancing G h2.
Proof.
  induction h1 as [|[t d] h1 IH]; intros h2 G H; [exact H|]. apply IH. cbn [app] in H.
  destruct (h1 ++ h2) as [|[t' d'] l]; [exact Logic.I|]. cbn in H. exact (proj2 H).
Qed.

Lemma chain_prefix : forall h1 h2 p, chain p (h1 ++ h2) -> chain p h1.
Proof.
  induction h1 as [|[t d] h1 IH]; intros h2 p H; [exact Logic.I|]. cbn in *. split; [tauto|]. apply (IH h2). tauto.
Qed.

Lemma chain_suffix : forall h1 t d h2 p, chain p (h1 ++ (t, d) :: h2) -> chain t h2.
Proof.
  induction h1 as [|[t' d'] h1 IH]; intros t d h2 p H; cbn in H; [tauto|]. apply (IH t d h2 t'). tauto.
Qed.

(** A window of the trace: the calls after an entry, up to another one. *)
Lemma window : forall h s a p d x b t u e c, advancing (J + 1) h -> ktrace s h = a ++ (p, d, x) :: b ++ (t, u, e) :: c ->
  exists h1 g, step (final s h1) p d = (final s (h1 ++ [(p, d)]), x) /\ a = ktrace s h1 /\ chain p (g ++ [(t, u)]) /\
    b ++ [(t, u, e)] = ktrace (final s (h1 ++ [(p, d)])) (g ++ [(t, u)]) /\
    map (fun y => snd (fst y)) b = map snd g.
Proof.
  intros h s a p d x b t u e c Ha E. destruct (ktrace_split _ _ _ _ E) as (h1 & h2 & -> & -> & E2).
  destruct h2 as [|[p' d'] h2]; [discriminate|]. cbn [ktrace] in E2. injection E2 as <- <- -> E2.
  assert (EF : final s (h1 ++ [(p, d)]) = fst (step (final s h1) p d)) by (unfold final; rewrite fold_left_app; reflexivity).
  symmetry in E2. destruct (ktrace_split _ _ _ _ E2) as (g & h3 & -> & -> & E3).
  destruct h3 as [|[t' u'] h3]; [discriminate|]. cbn [ktrace] in E3. injection E3 as <- <- -> E3.
  exists h1, g. split; [rewrite EF; now destruct (step (final s h1) p d)|]. split; [reflexivity|]. split; [|split].
  - apply adv_suffix in Ha. apply adv_chain in Ha. replace (g ++ (t, u) :: h3) with ((g ++ [(t, u)]) ++ h3) in Ha by (now rewrite <- app_assoc).
    exact (chain_prefix _ _ _ Ha).
  - rewrite ktrace_app, EF. reflexivity.
  - clear. generalize (fst (step (final s h1) p d)). induction g as [|[y z] g IH]; intros s'; [reflexivity|].
    cbn [ktrace map fst snd]. f_equal. apply IH.
Qed.

Lemma held_down : forall b (g : list (Z * bool)), held b -> map (fun y : entry => snd (fst y)) b = map snd g -> Forall (fun x => snd x = true) g.
Proof.
  induction b as [|x b IH]; intros [|y g] H E; try discriminate; [constructor|]. cbn in E. injection E as E1 E2. inversion H; subst.
  constructor; [congruence|]. now apply IH.
Qed.

Lemma free_up : forall b (g : list (Z * bool)), free b -> map (fun y : entry => snd (fst y)) b = map snd g -> Forall (fun x => snd x = false) g.
Proof.
  induction b as [|x b IH]; intros [|y g] H E; try discriminate; [constructor|]. cbn in E. injection E as E1 E2. inversion H; subst.
  constructor; [congruence|]. now apply IH.
Qed.

Lemma window_down : forall g t, Forall (fun x : Z * bool => snd x = true) g -> Forall (fun x => snd x = true) (g ++ [(t, true)]).
Proof. intros g t H. apply Forall_app. split; [exact H|]. now repeat constructor. Qed.

Definition ends (t : Z) (g : list (Z * bool)) : Prop := exists g' u, g = g' ++ [(t, u)].

Lemma ends_cons : forall t x y g, ends t (x :: y :: g) -> ends t (y :: g).
Proof.
  intros t x y g (g' & u & E). destruct g' as [|z g']; [discriminate|]. cbn [app] in E. injection E as _ E. now exists g', u.
Qed.

Lemma ends_one : forall t y u, ends t [(y, u)] -> y = t.
Proof.
  intros t y u (g' & v & E). destruct g' as [|z g']; [now injection E|]. destruct g'; discriminate.
Qed.

(** Waiting for the click. *)
Lemma wait_click : forall g p prev t, chain prev g -> ends t g -> Forall (fun x => snd x = true) g -> prev <= p + click -> p + click < t ->
  exists b1 t1 g2, ktrace (Down p) g = b1 ++ (t1, true, Click) :: ktrace (Clicked p t1) g2 /\ quiet b1 /\
    p + click < t1 <= p + click + J /\ chain t1 g2 /\ Forall (fun x => snd x = true) g2 /\ (t1 < t -> ends t g2).
Proof.
  induction g as [|[y u] g IH]; intros p prev t Hch He Hd Hpr Ht; [destruct He as ([|? ?] & ? & He); discriminate|].
  cbn in Hch. destruct Hch as [Hy Hch]. inversion Hd as [|? ? Hu Hd']; subst. cbn [snd] in Hu. subst u. cbn [ktrace kstep].
  destruct (Z.ltb_spec (p + click) y) as [Hlt|Hge]; cbn [fst snd].
  - exists [], y, g. split; [reflexivity|]. split; [constructor|]. split; [lia|]. split; [exact Hch|]. split; [exact Hd'|].
    intros Hyt. destruct g as [|x g]; [apply ends_one in He; lia|]. exact (ends_cons _ _ _ _ He).
  - destruct g as [|x g]; [apply ends_one in He; lia|].
    destruct (IH p y t Hch (ends_cons _ _ _ _ He) Hd' ltac:(lia) Ht) as (b1 & t1 & g2 & E & Q & R).
    exists ((y, true, Nothing) :: b1), t1, g2. rewrite E. split; [reflexivity|]. split; [now constructor|exact R].
Qed.

(** Waiting for the long click. *)
Lemma wait_long : forall g p m prev t, chain prev g -> ends t g -> Forall (fun x => snd x = true) g -> p + longclick < t ->
  exists b1 t1 b2, ktrace (Clicked p m) g = b1 ++ (t1, true, Longclick) :: b2 /\
    p + longclick < t1 <= Z.max (p + longclick) prev + J.
Proof.
  induction g as [|[y u] g IH]; intros p m prev t Hch He Hd Ht; [destruct He as ([|? ?] & ? & He); discriminate|].
  cbn in Hch. destruct Hch as [Hy Hch]. inversion Hd as [|? ? Hu Hd']; subst. cbn [snd] in Hu. subst u. cbn [ktrace kstep].
  destruct (Z.ltb_spec (p + longclick) y) as [Hlt|Hge]; cbn [fst snd].
  - exists [], y, (ktrace (Long y) g). split; [reflexivity|]. lia.
  - destruct g as [|x g]; [apply ends_one in He; lia|]. destruct (m + period <? y); cbn [fst snd].
    + destruct (IH p y y t Hch (ends_cons _ _ _ _ He) Hd' Ht) as (b1 & t1 & b2 & E & R).
      exists ((y, true, Pressing) :: b1), t1, b2. rewrite E. split; [reflexivity|]. lia.
    + destruct (IH p m y t Hch (ends_cons _ _ _ _ He) Hd' Ht) as (b1 & t1 & b2 & E & R).
      exists ((y, true, Nothing) :: b1), t1, b2. rewrite E. split; [reflexivity|]. lia.
Qed.

(** Waiting for the next repeat. *)
Lemma wait_pressing : forall g p m prev t, chain prev g -> ends t g -> Forall (fun x => snd x = true) g -> prev <= m + period -> m + period < t ->
  exists b1 t1 y b2, ktrace (Clicked p m) g = b1 ++ (t1, true, y) :: b2 /\ quiet b1 /\ t1 <= m + period + J /\
    (y = Longclick \/ (y = Pressing /\ m + period < t1)).
Proof.
  induction g as [|[y u] g IH]; intros p m prev t Hch He Hd Hpr Ht; [destruct He as ([|? ?] & ? & He); discriminate|].
  cbn in Hch. destruct Hch as [Hy Hch]. inversion Hd as [|? ? Hu Hd']; subst. cbn [snd] in Hu. subst u. cbn [ktrace kstep].
  destruct (Z.ltb_spec (p + longclick) y) as [Hlt|Hge]; cbn [fst snd].
  - exists [], y, Longclick, (ktrace (Long y) g). split; [reflexivity|]. split; [constructor|]. split; [lia|now left].
  - destruct (Z.ltb_spec (m + period) y) as [Hlt'|Hge']; cbn [fst snd].
    + exists [], y, Pressing, (ktrace (Clicked p y) g). split; [reflexivity|]. split; [constructor|]. split; [lia|right; split; [reflexivity|lia]].
    + destruct g as [|x g]; [apply ends_one in He; lia|].
      destruct (IH p m y t Hch (ends_cons _ _ _ _ He) Hd' ltac:(lia) Ht) as (b1 & t1 & e1 & b2 & E & Q & R).
      exists ((y, true, Nothing) :: b1), t1, e1, b2. rewrite E. split; [reflexivity|]. split; [now constructor|exact R].
Qed.

Lemma wait_longpress : forall g m prev t, chain prev g -> ends t g -> Forall (fun x => snd x = true) g -> prev <= m + period -> m + period < t ->
  exists b1 t1 b2, ktrace (Long m) g = b1 ++ (t1, true, Longpress) :: b2 /\ quiet b1 /\ m + period < t1 <= m + period + J.
Proof.
  induction g as [|[y u] g IH]; intros m prev t Hch He Hd Hpr Ht; [destruct He as ([|? ?] & ? & He); discriminate|].
  cbn in Hch. destruct Hch as [Hy Hch]. inversion Hd as [|? ? Hu Hd']; subst. cbn [snd] in Hu. subst u. cbn [ktrace kstep].
  destruct (Z.ltb_spec (m + period) y) as [Hlt'|Hge']; cbn [fst snd].
  - exists [], y, (ktrace (Long y) g). split; [reflexivity|]. split; [constructor|]. lia.
  - destruct g as [|x g]; [apply ends_one in He; lia|].
    destruct (IH m y t Hch (ends_cons _ _ _ _ He) Hd' ltac:(lia) Ht) as (b1 & t1 & b2 & E & Q & R).
    exists ((y, true, Nothing) :: b1), t1, b2. rewrite E. split; [reflexivity|]. split; [now constructor|exact R].
Qed.

(** Waiting for the release. *)
Lemma wait_release : forall g r prev t, chain prev g -> ends t g -> Forall (fun x => snd x = false) g -> prev <= r + click -> r + click < t ->
  exists b1 t1 b2, ktrace (Leaving r) g = b1 ++ (t1, false, Release) :: b2 /\ quiet b1 /\ r + click < t1 <= r + click + J.
Proof.
  induction g as [|[y u] g IH]; intros r prev t Hch He Hd Hpr Ht; [destruct He as ([|? ?] & ? & He); discriminate|].
  cbn in Hch. destruct Hch as [Hy Hch]. inversion Hd as [|? ? Hu Hd']; subst. cbn [snd] in Hu. subst u. cbn [ktrace kstep].
  destruct (Z.ltb_spec (r + click) y) as [Hlt'|Hge']; cbn [fst snd].
  - exists [], y, (ktrace Idle g). split; [reflexivity|]. split; [constructor|]. lia.
  - destruct g as [|x g]; [apply ends_one in He; lia|].
    destruct (IH r y t Hch (ends_cons _ _ _ _ He) Hd' ltac:(lia) Ht) as (b1 & t1 & b2 & E & Q & R).
    exists ((y, false, Nothing) :: b1), t1, b2. rewrite E. split; [reflexivity|]. split; [now constructor|exact R].
Qed.

Lemma press_state : forall s p d s', step s p d = (s', Press) -> s' = Down p.
Proof.
  intros s p d s'. destruct s, d; cbn; repeat (match goal with |- context [if ?c then _ else _] => destruct c end); intros E; injection E; intros; subst; try discriminate; reflexivity.
Qed.

Lemma repeat_state : forall s m d s' x, step s m d = (s', x) ->
  match x with
  | Click | Pressing => exists p, s' = Clicked p m
  | Longclick | Longpress => s' = Long m
  | _ => True
  end.
Proof.
  intros s m d s' x. destruct s, d; cbn; repeat (match goal with |- context [if ?c then _ else _] => destruct c end); intros E; injection E; intros; subst; try exact Logic.I; try reflexivity; eexists; reflexivity.
Qed.

Lemma down_state : forall s q, match fst (step s q true) with Idle | Leaving _ => False | _ => True end.
Proof. intros s q. destruct s; cbn; repeat (match goal with |- context [if ?c then _ else _] => destruct c end); exact Logic.I. Qed.

Lemma prompt_l : forall s h, advancing (J + 1) h ->
  click_prompt click J (ktrace s h) /\ longclick_prompt click longclick J (ktrace s h) /\
  repeat_prompt period J (ktrace s h) /\ release_prompt click J (ktrace s h).
Proof.
  intros s h Ha. split; [|split; [|split]].
  - intros a p d b t e c E Hh Ht. destruct (window _ _ _ _ _ _ _ _ _ _ _ Ha E) as (h1 & g & ES & _ & Hch & -> & EM).
    rewrite (press_state _ _ _ _ ES). pose proof (window_down g t (held_down _ _ Hh EM)) as Hd.
    destruct (wait_click _ p p t Hch ltac:(now exists g, true) Hd ltac:(lia) Ht) as (b1 & t1 & g2 & E1 & Q & R & _).
    exists b1, t1, (ktrace (Clicked p t1) g2). split; [exact E1|]. split; [exact Q|exact R].
  - intros a p d b t e c E Hh Ht Ht'. destruct (window _ _ _ _ _ _ _ _ _ _ _ Ha E) as (h1 & g & ES & _ & Hch & -> & EM).
    rewrite (press_state _ _ _ _ ES). pose proof (window_down g t (held_down _ _ Hh EM)) as Hd.
    destruct (wait_click _ p p t Hch ltac:(now exists g, true) Hd ltac:(lia) ltac:(lia)) as (b1 & t1 & g2 & E1 & Q & R & Hch2 & Hd2 & He2).
    destruct (wait_long g2 p t1 t1 t Hch2 ltac:(apply He2; lia) Hd2 Ht) as (b2 & t2 & b3 & E2 & R2).
    exists (b1 ++ (t1, true, Click) :: b2), t2, b3. rewrite E1, E2, <- app_assoc. split; [reflexivity|]. lia.
  - intros a m d x b t e c E Hx Hh Ht. destruct (window _ _ _ _ _ _ _ _ _ _ _ Ha E) as (h1 & g & ES & _ & Hch & -> & EM).
    pose proof (window_down g t (held_down _ _ Hh EM)) as Hd. pose proof (repeat_state _ _ _ _ _ ES) as Hs.
    assert (He : ends t (g ++ [(t, true)])) by (now exists g, true).
    destruct x; try (exfalso; destruct Hx as [Hx|[Hx|Hx]]; discriminate).
    + destruct Hs as (p & ->). destruct (wait_pressing _ p m m t Hch He Hd ltac:(lia) Ht) as (b1 & t1 & y & b2 & E1 & Q & R). now exists b1, t1, y, b2.
    + destruct Hs as (p & ->). destruct (wait_pressing _ p m m t Hch He Hd ltac:(lia) Ht) as (b1 & t1 & y & b2 & E1 & Q & R). now exists b1, t1, y, b2.
    + rewrite Hs. destruct (wait_longpress _ m m t Hch He Hd ltac:(lia) Ht) as (b1 & t1 & b2 & E1 & Q & R).
      exists b1, t1, Longpress, b2. repeat split; try assumption; lia.
    + rewrite Hs. destruct (wait_longpress _ m m t Hch He Hd ltac:(lia) Ht) as (b1 & t1 & b2 & E1 & Q & R).
      exists b1, t1, Longpress, b2. repeat split; try assumption; lia.
  - intros a q x r e0 b t e c E Hf Ht.
    change (a ++ (q, true, x) :: (r, false, e0) :: b ++ (t, false, e) :: c) with (a ++ (q, true, x) :: ((r, false, e0) :: b) ++ (t, false, e) :: c) in E.
    destruct (window _ _ _ _ _ _ _ _ _ _ _ Ha E) as (h1 & g & ES & _ & Hch & EB & EM).
    assert (Hf' : free ((r, false, e0) :: b)) by (now constructor). pose proof (free_up _ _ Hf' EM) as Hu.
    destruct g as [|[r' u] g]; [discriminate|]. pose proof (down_state (final s h1) q) as Hs. rewrite ES in Hs. cbn [fst] in Hs.
    change (((r, false, e0) :: b) ++ [(t, false, e)]) with ((r, false, e0) :: b ++ [(t, false, e)]) in EB. rewrite EB.
    cbn [app ktrace] in *. injection EB as <- <- _ _. cbn in Hch. destruct Hch as [Hr Hch].
    inversion Hu as [|? ? _ Hu']; subst. assert (Hu2 : Forall (fun x : Z * bool => snd x = false) (g ++ [(t, false)])) by (apply Forall_app; split; [exact Hu'|now repeat constructor]).
    assert (He : ends t (g ++ [(t, false)])) by (now exists g, false).
    destruct (final s (h1 ++ [(q, true)])) as [|p|p m|m|r0]; try contradiction; cbn [kstep fst snd].
    + exists [], r, (ktrace Idle (g ++ [(t, false)])). split; [reflexivity|]. split; [constructor|lia].
    + destruct (wait_release _ r r t Hch He Hu2 ltac:(lia) Ht) as (b1 & t1 & b2 & E1 & Q & R).
      exists ((r, false, Nothing) :: b1), t1, b2. rewrite E1. split; [reflexivity|]. split; [now constructor|lia].
    + destruct (wait_release _ r r t Hch He Hu2 ltac:(lia) Ht) as (b1 & t1 & b2 & E1 & Q & R).
      exists ((r, false, Nothing) :: b1), t1, b2. rewrite E1. split; [reflexivity|]. split; [now constructor|lia].
Qed.
End P.
