(** Callbacks of a periodic timer drift by at most the polling gap per period. *)
From Coq Require Import ZifyBool.
From Verif Require Import Base BaseLemmas TimeSpec StopwatchModel TimerModel TimerSpec TimerSystem TimerDriftSpec.

Section P.
Context {User : Type}.
Variables (w p J : Z).
Hypothesis Hp : 0 < p < 2 ^ (w - 1).
Hypothesis HJ : 0 <= J < 2 ^ (w - 1).

Lemma gaps_regular : forall (polls : list (Z * User)) from prev, from <= prev < from + p -> gaps_ok J prev polls ->
  polls_regular w p from polls.
Proof.
  induction polls as [|[t u] r IH]; intros from prev Hl Hg; [exact Logic.I|].
  cbn [gaps_ok polls_regular] in *. destruct Hg as (Ht & Hg). split; [lia|]. split; [unfold close; lia|].
  destruct (Z.leb_spec (from + p) t); apply IH with (prev := t); try assumption; lia.
Qed.

Definition times (polls : list (Z * User)) (l : list (option User)) : list Z :=
  flat_map (fun '((t, _), e) => match e with Some _ => [t] | None => [] end) (combine polls l).

Lemma fired_map : forall {R} (f : User -> R) (polls : list (Z * User)) l,
  fired polls (map (fun o => match o with Some u => (1, Some (f u)) | None => (0, None) end) l) = times polls l.
Proof.
  intros R f polls. induction polls as [|[t u] r IH]; intros l; [reflexivity|].
  destruct l as [|o l]; [reflexivity|]. unfold fired, times in *. cbn [map combine flat_map]. rewrite IH.
  now destruct o.
Qed.

Lemma drift_steps : forall (polls : list (Z * User)) from prev, from <= prev < from + p -> gaps_ok J prev polls ->
  forall k t, nth_error (times polls (periodic p from polls)) k = Some t ->
  let before := nth k (from :: times polls (periodic p from polls)) from in before + p <= t <= before + p + J.
Proof.
  induction polls as [|[t u] r IH]; intros from prev Hl Hg k x E; [destruct k; discriminate|].
  cbn [gaps_ok] in Hg. destruct Hg as (Ht & Hg). cbn [periodic] in *.
  destruct (Z.leb_spec (from + p) t) as [Hd|Hd]; unfold times in *; cbn [combine flat_map app] in *.
  - destruct k as [|k].
    + cbn in E. injection E as <-. cbn. lia.
    + cbn [nth_error] in E. pose proof (IH t t ltac:(lia) Hg k x E) as HI. cbv zeta in *.
      cbn [nth]. destruct k as [|k].
      * cbn [nth] in *. exact HI.
      * cbn [nth] in HI. rewrite (nth_indep _ from t); [exact HI|].
        assert (S k < length (flat_map (fun '((t, _), e) => match e with Some _ => [t] | None => [] end) (combine r (periodic p t r))))%nat
          by (apply nth_error_Some; congruence). lia.
  - exact (IH from t ltac:(lia) Hg k x E).
Qed.

Lemma drift_count : forall (polls : list (Z * User)) from prev n, from <= prev < from + p -> gaps_ok J prev polls ->
  from + n * (p + J) <= last_poll prev polls -> n <= Z.of_nat (length (times polls (periodic p from polls))).
Proof.
  induction polls as [|[t u] r IH]; intros from prev n Hl Hg E.
  - unfold last_poll in E. cbn in *. nia.
  - cbn [gaps_ok] in Hg. destruct Hg as (Ht & Hg).
    assert (EL : last_poll prev ((t, u) :: r) = last_poll t r).
    { unfold last_poll. cbn [map fst]. destruct r as [|[y z] r]; [reflexivity|].
      cbn [map fst]. clear. revert y. induction r as [|[a b] r IH]; intros y; [reflexivity|].
      cbn [map fst last] in *. apply IH. }
    rewrite EL in E. cbn [periodic]. destruct (Z.leb_spec (from + p) t) as [Hd|Hd]; unfold times in *; cbn [combine flat_map app length].
    + rewrite Nat2Z.inj_succ. assert (n - 1 <= Z.of_nat (length (flat_map (fun '((t, _), e) => match e with Some _ => [t] | None => [] end) (combine r (periodic p t r))))).
      { apply (IH t t); [lia|exact Hg|]. nia. }
      lia.
    + apply (IH from t); [lia|exact Hg|exact E].
Qed.

Lemma drift_sum : forall (polls : list (Z * User)) from prev, from <= prev < from + p -> gaps_ok J prev polls ->
  forall k t, nth_error (times polls (periodic p from polls)) k = Some t ->
  from + (Z.of_nat k + 1) * p <= t <= from + (Z.of_nat k + 1) * (p + J).
Proof.
  induction polls as [|[t u] r IH]; intros from prev Hl Hg k x E; [destruct k; discriminate|].
  cbn [gaps_ok] in Hg. destruct Hg as (Ht & Hg). cbn [periodic] in *.
  destruct (Z.leb_spec (from + p) t) as [Hd|Hd]; unfold times in *; cbn [combine flat_map app] in *.
  - destruct k as [|k].
    + cbn in E. injection E as <-. lia.
    + cbn [nth_error] in E. pose proof (IH t t ltac:(lia) Hg k x E) as HI. nia.
  - exact (IH from t ltac:(lia) Hg k x E).
Qed.
End P.
