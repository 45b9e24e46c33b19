From Coq Require Import ZifyBool.
From Verif Require Import Base BaseLemmas QueueModel QueueProofs QueueConcModel QueueConcSpec QueueConcSystem QueueConcProofs QueueAskModel QueueAskProofs QueueWatchSpec.

Section QueueWatchProofs.
Context {A : Type}.
Variables (k cap : Z).
Hypothesis Hk : 0 <= k <= 15.
Hypothesis Hcap : cap = 2 ^ k.
Notation counts := (@counts A cap).

Lemma held_counts : forall s wt rt, counts s wt rt -> held s = wt - rt.
Proof. intros s wt rt C. unfold held. rewrite (c_pub _ _ _ _ C), (c_cla _ _ _ _ C). reflexivity. Qed.

(** Only the enqueuing thread runs, or only the dequeuing one. *)
Lemma p_run : forall l s wt rt x, counts s wt rt -> run_of true false s l -> In x (s :: l) -> exists wx, counts x wx rt.
Proof using Hk Hcap.
  induction l as [|s1 l IH]; intros s wt rt x C R [<-|I]; eauto; [destruct I|]. destruct R as [[[_ (a & E)]|[? _]] R]; [|discriminate].
  destruct (p_step k cap Hk Hcap s wt rt a s1 C E) as (w1 & C1 & _). exact (IH s1 w1 rt x C1 R I).
Qed.

Lemma c_run : forall l s wt rt x, counts s wt rt -> run_of false true s l -> In x (s :: l) -> exists rx, counts x wt rx.
Proof using Hk Hcap.
  induction l as [|s1 l IH]; intros s wt rt x C R [<-|I]; eauto; [destruct I|]. destruct R as [[[? _]|[_ (a & E)]] R]; [discriminate|].
  destruct (c_step k cap Hk Hcap s wt rt a s1 C E) as (r1 & C1 & _). exact (IH s1 wt r1 x C1 R I).
Qed.

(** Nothing moves while the number of items stays the same. *)
Lemma still : forall l s wt rt c, counts s wt rt -> run_of true true s l -> always (fun e => e = c) (s :: l) -> forall x, In x (s :: l) -> counts x wt rt.
Proof using Hk Hcap.
  induction l as [|s1 l IH]; intros s wt rt c C R Al x [<-|I]; auto; [destruct I|]. destruct R as [E R].
  assert (H0 : wt - rt = c) by (rewrite <- (held_counts s wt rt C); apply Al; left; reflexivity).
  assert (H1 : held s1 = c) by (apply Al; right; left; reflexivity).
  assert (C1 : counts s1 wt rt).
  { destruct E as [[_ (a & E)]|[_ (d & E)]].
    - destruct (p_step k cap Hk Hcap s wt rt a s1 C E) as (w1 & C1 & _). rewrite (held_counts s1 w1 rt C1) in H1. now replace wt with w1 by lia.
    - destruct (c_step k cap Hk Hcap s wt rt d s1 C E) as (r1 & C1 & _). rewrite (held_counts s1 wt r1 C1) in H1. now replace rt with r1 by lia. }
  apply (IH s1 wt rt c C1 R); [|exact I]. intros y Hy. apply Al. right. exact Hy.
Qed.

Lemma empty_at : forall x wt rt, counts x wt rt -> asked_empty (wt mod 65536) (rt mod 65536) = (held x =? 0).
Proof using Hk Hcap.
  intros x wt rt C. pose proof (cap_range k cap Hk Hcap) as HC. pose proof (c_le _ _ _ _ C). unfold asked_empty. rewrite (eq_mod k Hk) by lia. rewrite (held_counts x wt rt C). reflexivity.
Qed.

Lemma full_at : forall x wt rt, counts x wt rt -> asked_full cap (wt mod 65536) (rt mod 65536) = (held x =? cap).
Proof using Hk Hcap.
  intros x wt rt C. pose proof (cap_range k cap Hk Hcap) as HC. pose proof (c_le _ _ _ _ C). unfold asked_full. rewrite (held_counts x wt rt C).
  rewrite (diff_mod rt wt (wt - rt)) by lia. reflexivity.
Qed.

Lemma one_l : forall m (q : queue A) s l, zlen (items q) = cap -> qsteps m q s -> run_of true false s l \/ run_of false true s l ->
  forall x y, In x (s :: l) -> In y (s :: l) ->
  sometime (fun e => asked_empty (write_idx (shared x)) (read_idx (shared y)) = (e =? 0)) (s :: l) /\
  sometime (fun e => asked_full cap (write_idx (shared x)) (read_idx (shared y)) = (e =? cap)) (s :: l).
Proof using Hk Hcap.
  intros m q s l Hq R Hr x y Hx Hy. destruct (counts_reach k cap Hk Hcap m q s Hq R) as (wt & rt & C). destruct Hr as [Hr|Hr].
  - destruct (p_run l s wt rt x C Hr Hx) as (wx & Cx). destruct (p_run l s wt rt y C Hr Hy) as (wy & Cy).
    rewrite (c_w _ _ _ _ Cx), (c_r _ _ _ _ Cy). split; exists x; (split; [exact Hx|]); [now apply empty_at|now apply full_at].
  - destruct (c_run l s wt rt x C Hr Hx) as (wx & Cx). destruct (c_run l s wt rt y C Hr Hy) as (wy & Cy).
    rewrite (c_w _ _ _ _ Cx), (c_r _ _ _ _ Cy). split; exists y; (split; [exact Hy|]); [now apply empty_at|now apply full_at].
Qed.

Lemma find_other : forall (l : list (qstate A)) c, (exists z, In z l /\ held z <> c) \/ always (fun e => e = c) l.
Proof.
  induction l as [|z l IH]; intros c; [right; intros z []|]. destruct (Z.eq_dec (held z) c) as [E|E]; [|left; exists z; split; [left; reflexivity|exact E]].
  destruct (IH c) as [(y & I & N)|Al]; [left; exists y; split; [right; exact I|exact N]|right]. intros y [<-|I]; [exact E|exact (Al y I)].
Qed.

Lemma both_l : forall m (q : queue A) s l, zlen (items q) = cap -> qsteps m q s -> run_of true true s l ->
  forall x y, In x (s :: l) -> In y (s :: l) ->
  (asked_empty (write_idx (shared x)) (read_idx (shared y)) = false -> sometime (fun e => e <> 0) (s :: l)) /\
  (asked_full cap (write_idx (shared x)) (read_idx (shared y)) = false -> sometime (fun e => e <> cap) (s :: l)).
Proof using Hk Hcap.
  intros m q s l Hq R Hr x y Hx Hy. destruct (counts_reach k cap Hk Hcap m q s Hq R) as (wt & rt & C).
  assert (G : forall c, sometime (fun e => e <> c) (s :: l) \/ (held s = c /\ write_idx (shared x) = wt mod 65536 /\ read_idx (shared y) = rt mod 65536)).
  { intros c. destruct (find_other (s :: l) c) as [F|Al]; [left; exact F|right].
    pose proof (still l s wt rt c C Hr Al x Hx) as Cx. pose proof (still l s wt rt c C Hr Al y Hy) as Cy.
    split; [apply Al; left; reflexivity|]. split; [apply (c_w _ _ _ _ Cx)|apply (c_r _ _ _ _ Cy)]. }
  split; intros E.
  - destruct (G 0) as [F|(E0 & Ew & Er)]; [exact F|]. exfalso. rewrite Ew, Er, (empty_at s wt rt C), E0 in E. discriminate.
  - destruct (G cap) as [F|(E0 & Ew & Er)]; [exact F|]. exfalso. rewrite Ew, Er, (full_at s wt rt C), E0, Z.eqb_refl in E. discriminate.
Qed.

End QueueWatchProofs.
