(** Bounds on the delay of delayed watchers. *)
From Coq Require Import ZifyBool.
From Verif Require Import Base BaseLemmas TimeModel TimeSpec WatcherModel WatcherSpec WatcherSystem WatchLateSpec.

Section P.
Variable mem : Z -> list Z.
Variable init : list Z.
Variables (a n d J tc : Z) (v : list Z).
Hypothesis Hd : 0 < d.
Hypothesis HJ : 0 <= J.
Hypothesis Hv : forall t, tc <= t <= tc + d + 2 * J -> bytes (mem t) a n = v.

Lemma same_v : forall m m', bytes m a n = v -> bytes m' a n = v -> same_bytes m m' a n = true.
Proof. intros m m' H1 H2. unfold same_bytes. destruct (list_eq_dec _ _ _); congruence. Qed.

Lemma paced_ge : forall ts prev, paced J prev ts -> Forall (fun t => prev <= t) ts.
Proof.
  induction ts as [|t r IH]; intros prev H; [constructor|]. cbn in H. destruct H as (H1 & H2). constructor; [lia|].
  eapply Forall_impl; [|exact (IH t H2)]. cbv beta. lia.
Qed.

(** [h] is the history up to a moment after the change was noticed at [c]. *)
Lemma wait_l : forall post h tp mp c, h <> [] -> hd (0, []) h = (tp, mp) -> bytes mp a n = v ->
  last_change init a n h = Some c -> tc <= c -> c <= tc + J -> c <= tp < c + d -> paced J tp post ->
  c + d <= last post tp ->
  exists p1 t p2, post = p1 ++ t :: p2 /\ c + d <= t <= c + d + J /\
    settles init a n d ((t, mem t) :: rev (looks mem p1) ++ h) = true /\
    forall q t' r, p1 = q ++ t' :: r -> settles init a n d ((t', mem t') :: rev (looks mem q) ++ h) = false.
Proof.
  induction post as [|t post IH]; intros h tp mp c Hn Hh Hm Hc H1 H2 H3 Hp Hl; [cbn in Hl; lia|].
  cbn [paced] in Hp. destruct Hp as (Ht & Hp).
  destruct h as [|[tp' mp'] h]; [congruence|]. cbn [hd] in Hh. injection Hh as -> ->.
  assert (Hb : bytes (mem t) a n = v) by (apply Hv; lia).
  assert (Hch : changed init a n ((t, mem t) :: (tp, mp) :: h) = false).
  { cbn [changed before]. rewrite same_v; auto. }
  destruct (Z.leb_spec (c + d) t) as [Hge|Hlt].
  - exists [], t, post. split; [reflexivity|]. split; [lia|]. split.
    + cbn [looks map rev app]. unfold settles. rewrite Hch, Hc. cbn [negb andb]. lia.
    + intros q t' r E. now destruct q.
  - destruct (IH ((t, mem t) :: (tp, mp) :: h) t (mem t) c) as (p1 & t2 & p2 & E & Ht2 & HS & HN); try assumption; try discriminate; try lia; try reflexivity.
    { cbn [last_change]. cbn [last_change] in Hc. now rewrite Hch. }
    { clear - Hl. destruct post as [|y post]; [exact Hl|].
      assert (E : forall (l : list Z) x d1 d2, last (x :: l) d1 = last (x :: l) d2).
      { induction l as [|z l IHl]; intros x d1 d2; [reflexivity|]. cbn [last] in *. apply IHl. }
      rewrite (E post y t tp). exact Hl. }
    exists (t :: p1), t2, p2. split; [now rewrite E|]. split; [exact Ht2|]. split.
    + cbn [looks map rev]. rewrite <- app_assoc. exact HS.
    + intros q t' r Eq. destruct q as [|t0 q]; cbn [app] in Eq; injection Eq; intros.
      * subst. cbn [looks map rev app]. unfold settles. rewrite Hch, Hc. cbn [negb andb]. lia.
      * subst t0. cbn [looks map rev]. rewrite <- app_assoc. apply (HN q t' r). assumption.
Qed.

Lemma split_at : forall ts t0, paced J t0 ts -> t0 < tc ->
  exists pre post, ts = pre ++ post /\ Forall (fun t => t < tc) pre /\ Forall (fun t => tc <= t) post /\
    last_before tc t0 ts = last pre t0 /\ paced J (last pre t0) post /\ last pre t0 < tc.
Proof.
  induction ts as [|t r IH]; intros t0 Hp H0.
  - exists [], []. repeat split; auto.
  - cbn [paced] in Hp. destruct Hp as (Ht & Hp). destruct (Z.ltb_spec t tc) as [Hlt|Hge].
    + destruct (IH t Hp Hlt) as (pre & post & E & H1 & H2 & H3 & H4 & H5).
      assert (EL : forall l : list Z, last (t :: l) t0 = last l t).
      { clear. intros [|y l]; [reflexivity|]. revert y. induction l as [|z l IH]; intros y; [reflexivity|].
        cbn [last] in *. apply IH. }
      exists (t :: pre), post. split; [now rewrite E|]. split; [now constructor|]. split; [exact H2|].
      rewrite EL. split; [|split; assumption].
      unfold last_before in *. cbn [filter]. destruct (Z.ltb_spec t tc); [|lia]. now rewrite EL.
    + exists [], (t :: r). split; [reflexivity|]. split; [constructor|].
      assert (HF : Forall (fun x => tc <= x) (t :: r)).
      { constructor; [lia|]. eapply Forall_impl; [|exact (paced_ge r t Hp)]. cbv beta. lia. }
      split; [exact HF|]. split; [|split; [split; assumption|exact H0]].
      unfold last_before. assert (EF : filter (fun x => x <? tc) (t :: r) = []).
      { clear - HF. induction HF as [|x l Hx HF IH]; [reflexivity|]. cbn [filter]. destruct (Z.ltb_spec x tc); [lia|exact IH]. }
      now rewrite EF.
Qed.

Lemma before_looks : forall pre t0, init = mem t0 -> before init (rev (looks mem pre)) = mem (last pre t0).
Proof.
  intros pre t0 Hi. induction pre as [|x pre IH] using rev_ind; [exact Hi|].
  unfold looks. rewrite map_app, rev_app_distr. cbn [map rev app before]. now rewrite last_last.
Qed.

(** Where in the instants the callback comes. *)
Lemma late_l : forall ts t0, init = mem t0 -> paced J t0 ts -> t0 < tc ->
  bytes (mem (last_before tc t0 ts)) a n <> v -> tc + d + J <= last ts t0 ->
  exists q t r, ts = q ++ t :: r /\ tc + d <= t <= tc + d + 2 * J /\
    settles init a n d ((t, mem t) :: rev (looks mem q)) = true /\
    forall q' t' r', q = q' ++ t' :: r' -> tc <= t' ->
      settles init a n d ((t', mem t') :: rev (looks mem q')) = false.
Proof.
  intros ts t0 Hi Hp H0 Hne Hlast.
  destruct (split_at ts t0 Hp H0) as (pre & post & E & H1 & H2 & H3 & H4 & H5). rewrite H3 in Hne.
  destruct post as [|t1 post].
  { exfalso. rewrite app_nil_r in E. subst ts. lia. }
  cbn [paced] in H4. destruct H4 as (Ht1 & Hp1). apply Forall_cons_iff in H2 as [Htc H2].
  assert (Hb : bytes (mem t1) a n = v) by (apply Hv; lia).
  set (h1 := (t1, mem t1) :: rev (looks mem pre)).
  assert (Hch : changed init a n h1 = true).
  { unfold h1. cbn [changed]. rewrite (before_looks pre t0 Hi). unfold same_bytes.
    destruct (list_eq_dec _ _ _); [congruence|reflexivity]. }
  assert (Hlc : last_change init a n h1 = Some t1).
  { unfold h1 in *. cbn [last_change]. now rewrite Hch. }
  assert (HL : last ts t0 = last post t1).
  { rewrite E. clear. induction pre as [|x pre IH].
    - cbn [app]. destruct post as [|y l]; [reflexivity|].
      revert y. induction l as [|z l IHl]; intros y; [reflexivity|]. cbn [last] in *. apply IHl.
    - rewrite <- IH. cbn [app]. destruct (pre ++ t1 :: post) eqn:E2; [now destruct pre|].
      clear. cbn [last]. reflexivity. }
  destruct (wait_l post h1 t1 (mem t1) t1) as (p1 & t & p2 & E2 & Ht & HS & HN); try assumption; try lia; try reflexivity.
  { unfold h1. discriminate. }
  assert (HR : forall q, rev (looks mem q) ++ h1 = rev (looks mem (pre ++ t1 :: q))).
  { intros q. unfold looks, h1. rewrite map_app. cbn [map]. rewrite rev_app_distr. cbn [rev]. rewrite <- app_assoc. reflexivity. }
  exists (pre ++ t1 :: p1), t, p2. split; [rewrite E, E2, <- app_assoc; reflexivity|]. split; [lia|].
  split; [now rewrite <- HR|].
  intros q' t' r' Eq Ht'.
  (* t' is t1 or in p1 *)
  assert (HC : (exists x, q' = pre ++ t1 :: x /\ p1 = x ++ t' :: r') \/ (q' = pre /\ t' = t1)).
  { clear - Eq H1 Ht'. revert q' Eq. induction pre as [|x pre IH]; intros q' Eq.
    - destruct q' as [|y q']; cbn [app] in Eq; injection Eq; intros; subst.
      + right. split; reflexivity.
      + left. exists q'. split; reflexivity.
    - apply Forall_cons_iff in H1 as [Hx H1]. destruct q' as [|y q']; cbn [app] in Eq; injection Eq; intros; subst.
      + lia.
      + destruct (IH H1 q' ltac:(assumption)) as [(z & Ez & Ep)|(Ez & Et)].
        * left. exists z. split; [now rewrite Ez|exact Ep].
        * right. now rewrite Ez. }
  destruct HC as [(x & -> & Ex)|(-> & ->)].
  - rewrite <- HR. exact (HN x t' r' Ex).
  - change ((t1, mem t1) :: rev (looks mem pre)) with h1. unfold settles. unfold h1 at 1.
    destruct (rev (looks mem pre)) as [|[y z] l] eqn:El; [unfold h1; rewrite ?El; reflexivity|].
    unfold h1 in *. rewrite ?El in *. rewrite Hch. reflexivity.
Qed.
End P.

Lemma paced_snoc : forall J ts t0 t, paced J t0 (ts ++ [t]) -> paced J t0 ts /\ last ts t0 <= t <= last ts t0 + J.
Proof.
  induction ts as [|x ts IH]; intros t0 t H; cbn [app paced] in *.
  - cbn. intuition lia.
  - destruct H as (H1 & H2). destruct (IH x t H2) as (H3 & H4). split; [split; assumption|].
    replace (last (x :: ts) t0) with (last ts x); [exact H4|].
    clear. destruct ts as [|y l]; [reflexivity|]. revert y. induction l as [|z l IHl]; intros y; [reflexivity|].
    cbn [last] in *. apply IHl.
Qed.

Lemma steady_looks : forall mem half J ts t0, 0 <= J < half -> paced J t0 ts -> steady half (rev (looks mem ts)).
Proof.
  intros mem half J ts t0 HJ Hp. induction ts as [|t ts IH] using rev_ind; [exact Logic.I|].
  destruct (paced_snoc J ts t0 t Hp) as (Hp' & Ht). specialize (IH Hp').
  unfold looks in *. rewrite map_app, rev_app_distr. cbn [map rev app].
  destruct ts as [|t' ts] using rev_ind; [exact Logic.I|]. clear IHts. rewrite last_last in Ht.
  rewrite map_app, rev_app_distr in IH |- *. cbn [map rev app] in IH |- *. cbn [steady]. split; [lia|exact IH].
Qed.
