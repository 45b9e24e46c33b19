(** Queries during a run. *)
From Coq Require Import ZifyBool.
From Verif Require Import Base BaseLemmas CbufModel CbufSpec CbufProofs SpscModel SpscSpec SpscProofs ObserverModel ObserverSpec.

Section P.
Context {A : Type}.
Variables (region : list A) (c0 : cbuf A).
Hypothesis Hn : 1 <= zlen region < 2 ^ 64.
Hypothesis Hi : circular_buf_init region (zlen region) = Some c0.
Local Notation n := (zlen region).

Lemma elements_l : forall s, reachable c0 s -> exists q, inv n s q /\ elements s = zlen q.
Proof.
  intros s R. pose proof (reachable_only c0 s R) as HO.
  destruct (reachable_inv region c0 s Hn Hi R) as [q I]. exists q. split; [exact I|].
  destruct (legal_prefix (n - 1) (lin s) [] HO) as [P1 _]; [lia|cbn; lia|exact (i_lin _ _ _ I)|].
  rewrite (i_state _ _ _ I) in P1. cbn [app] in P1.
  rewrite accepted_filter, (i_pret _ _ _ I), delivered_filter, (i_cret _ _ _ I) in P1.
  assert (E : delivered (cret s ++ extra s) = delivered (cret s)).
  { unfold delivered. rewrite flat_map_app. unfold extra. destruct (cp s); cbn; try apply app_nil_r.
    destruct (h =? tail (sh s)); cbn; apply app_nil_r. }
  rewrite E in P1. unfold elements, stored. rewrite P1, app_length. unfold zlen. lia.
Qed.

(** Positions in terms of the number of elements. *)
Lemma where_l : forall s, reachable c0 s -> 0 <= tail (sh s) < n /\ 0 <= elements s <= n - 1 /\
  head (sh s) = (if tail (sh s) + elements s <? n then tail (sh s) + elements s else tail (sh s) + elements s - n).
Proof.
  intros s R. destruct (elements_l s R) as (q & I & ->). pose proof (zlen_nonneg A q).
  pose proof (i_tail _ _ _ I). pose proof (i_q _ _ _ I).
  split; [lia|]. split; [lia|]. rewrite (i_head _ _ _ I), mod_cases by lia. destruct (tail (sh s) + zlen q <? n); lia.
Qed.

Lemma pstep_tail : forall s s' : sys A, pstep s s' -> tail (sh s') = tail (sh s).
Proof. intros s s' H. inversion H; subst; reflexivity. Qed.

Lemma cstep_head : forall s s' : sys A, cstep s s' -> head (sh s') = head (sh s).
Proof. intros s s' H. inversion H; subst; reflexivity. Qed.

Lemma both_reach : forall s s', reachable c0 s -> both s s' -> reachable c0 s'.
Proof. intros s s' R [H|H]; [exact (r_prod _ _ _ R H)|exact (r_cons _ _ _ R H)]. Qed.

Lemma run_reach : forall (R : sys A -> sys A -> Prop) l s, (forall x y, R x y -> both x y) -> reachable c0 s -> run_of R s l ->
  forall x, In x (s :: l) -> reachable c0 x.
Proof.
  intros R l. induction l as [|s' l IH]; intros s HR Rs Hr x [<-|Hin]; try assumption; [destruct Hin|].
  destruct Hr as [H1 H2]. apply (IH s'); auto. apply (both_reach s); auto.
Qed.

Lemma run_tail : forall l s, run_of (@pstep A) s l -> forall x, In x (s :: l) -> tail (sh x) = tail (sh s).
Proof.
  induction l as [|s' l IH]; intros s Hr x [<-|Hin]; try reflexivity; [destruct Hin|].
  destruct Hr as [H1 H2]. rewrite (IH s' H2 x Hin). now apply pstep_tail.
Qed.

Lemma run_head : forall l s, run_of (@cstep A) s l -> forall x, In x (s :: l) -> head (sh x) = head (sh s).
Proof.
  induction l as [|s' l IH]; intros s Hr x [<-|Hin]; try reflexivity; [destruct Hin|].
  destruct Hr as [H1 H2]. rewrite (IH s' H2 x Hin). now apply cstep_head.
Qed.

Lemma full_at : forall s, reachable c0 s -> observed_full n (head (sh s)) (tail (sh s)) = (elements s =? n - 1).
Proof.
  intros s R. destruct (elements_l s R) as (q & I & E). pose proof (nxt_full n s q I) as F. rewrite E. unfold nxt in F.
  rewrite (i_size _ _ _ I) in F. unfold observed_full. apply eq_true_iff_eq. rewrite !Z.eqb_eq. exact F.
Qed.

Lemma empty_at : forall s, reachable c0 s -> observed_empty (head (sh s)) (tail (sh s)) = (elements s =? 0).
Proof.
  intros s R. pose proof (where_l s R) as (H1 & H2 & H3). unfold observed_empty. rewrite H3.
  destruct (Z.ltb_spec (tail (sh s) + elements s) n); lia.
Qed.

Lemma size_at : forall s, reachable c0 s -> n <= INT_MAX -> forall h' t', observed_full n h' t' = false ->
  observed_size n (tail (sh s)) (head (sh s)) h' t' = elements s.
Proof.
  intros s R HN h' t' Hf. pose proof (where_l s R) as (H1 & H2 & H3). unfold observed_size. rewrite Hf. cbn [negb].
  unfold INT_MAX in HN. assert (0 <= head (sh s) < n) by (rewrite H3; destruct (Z.ltb_spec (tail (sh s) + elements s) n); lia).
  rewrite !swrap32_small by lia. rewrite H3.
  destruct (Z.ltb_spec (tail (sh s) + elements s) n).
  - replace (tail (sh s) <=? tail (sh s) + elements s) with true by lia. rewrite wrap64_small by lia. lia.
  - replace (tail (sh s) <=? tail (sh s) + elements s - n) with false by lia. rewrite wrap64_small by lia. lia.
Qed.

(** Asked by the consumer thread (only the producer moves). *)
Lemma consumer_l : forall s l, reachable c0 s -> run_of (@pstep A) s l -> forall x y, In x (s :: l) -> In y (s :: l) ->
  observed_empty (head (sh x)) (tail (sh y)) = (elements x =? 0) /\
  observed_full n (head (sh x)) (tail (sh y)) = (elements x =? n - 1).
Proof.
  intros s l R Hr x y Hx Hy. assert (E : tail (sh y) = tail (sh x)) by (rewrite (run_tail l s Hr y Hy); symmetry; now apply (run_tail l s)).
  rewrite E. assert (Rx : reachable c0 x) by (apply (run_reach pstep l s); auto; now left). split; [now apply empty_at|now apply full_at].
Qed.

(** Asked by the producer thread. *)
Lemma producer_l : forall s l, reachable c0 s -> run_of (@cstep A) s l -> forall x y, In x (s :: l) -> In y (s :: l) ->
  observed_empty (head (sh x)) (tail (sh y)) = (elements y =? 0) /\
  observed_full n (head (sh x)) (tail (sh y)) = (elements y =? n - 1).
Proof.
  intros s l R Hr x y Hx Hy. assert (E : head (sh x) = head (sh y)) by (rewrite (run_head l s Hr x Hx); symmetry; now apply (run_head l s)).
  rewrite E. assert (Ry : reachable c0 y) by (apply (run_reach cstep l s); auto; now right). split; [now apply empty_at|now apply full_at].
Qed.

Lemma consumer_size_l : forall s l, reachable c0 s -> n <= INT_MAX -> run_of (@pstep A) s l ->
  forall a b c d, In a (s :: l) -> In b (s :: l) -> In c (s :: l) -> In d (s :: l) ->
  let r := observed_size n (tail (sh a)) (head (sh b)) (head (sh c)) (tail (sh d)) in
  r = elements b \/ (r = n /\ elements c = n - 1).
Proof.
  intros s l R HN Hr a b c d Ha Hb Hc Hd r. assert (E : tail (sh a) = tail (sh b)) by (rewrite (run_tail l s Hr a Ha); symmetry; now apply (run_tail l s)).
  pose proof (consumer_l s l R Hr c d Hc Hd) as [_ F]. destruct (Z.eqb_spec (elements c) (n - 1)) as [EC|EC].
  - right. split; [|exact EC]. unfold r, observed_size. now rewrite F.
  - left. unfold r. rewrite E. apply size_at; try assumption. apply (run_reach pstep l s); auto. now left.
Qed.

Lemma producer_size_l : forall s l, reachable c0 s -> n <= INT_MAX -> run_of (@cstep A) s l ->
  forall a b c d, In a (s :: l) -> In b (s :: l) -> In c (s :: l) -> In d (s :: l) ->
  let r := observed_size n (tail (sh a)) (head (sh b)) (head (sh c)) (tail (sh d)) in
  r = elements a \/ (r = n /\ elements d = n - 1).
Proof.
  intros s l R HN Hr a b c d Ha Hb Hc Hd r. assert (E : head (sh b) = head (sh a)) by (rewrite (run_head l s Hr b Hb); symmetry; now apply (run_head l s)).
  pose proof (producer_l s l R Hr c d Hc Hd) as [_ F]. destruct (Z.eqb_spec (elements d) (n - 1)) as [EC|EC].
  - right. split; [|exact EC]. unfold r, observed_size. now rewrite F.
  - left. unfold r. rewrite E. apply size_at; try assumption. apply (run_reach cstep l s); auto. now right.
Qed.

(** A step that keeps the number of elements keeps both positions. *)
Lemma still : forall s s', reachable c0 s -> both s s' -> elements s' = elements s ->
  head (sh s') = head (sh s) /\ tail (sh s') = tail (sh s).
Proof.
  intros s s' R H E. pose proof (both_reach s s' R H) as R'. pose proof (where_l s R) as (A1 & A2 & A3).
  pose proof (where_l s' R') as (B1 & B2 & B3). destruct H as [H|H].
  - pose proof (pstep_tail s s' H) as T. split; [|exact T]. rewrite A3, B3, T, E. reflexivity.
  - pose proof (cstep_head s s' H) as T. split; [exact T|]. rewrite A3, B3, E in T.
    destruct (Z.ltb_spec (tail (sh s) + elements s) n), (Z.ltb_spec (tail (sh s') + elements s) n); lia.
Qed.

Lemma still_run : forall l s k, reachable c0 s -> run_of both s l -> always (fun e => e = k) (s :: l) ->
  forall x, In x (s :: l) -> head (sh x) = head (sh s) /\ tail (sh x) = tail (sh s).
Proof.
  induction l as [|s' l IH]; intros s k R Hr Hk x [<-|Hin]; try (split; reflexivity); [destruct Hin|].
  destruct Hr as [H1 H2]. assert (E : elements s' = elements s) by (rewrite (Hk s), (Hk s'); cbn; tauto).
  destruct (still s s' R H1 E) as [E1 E2]. destruct (IH s' k (both_reach _ _ R H1) H2) with (x := x) as [E3 E4]; auto.
  - intros y Hy. apply Hk. now right.
  - split; congruence.
Qed.

(** Asked by any thread: answers 0 were right at some moment. *)
Lemma anyone_l : forall s l, reachable c0 s -> run_of both s l -> forall x y, In x (s :: l) -> In y (s :: l) ->
  (observed_empty (head (sh x)) (tail (sh y)) = false -> ~ always (fun e => e = 0) (s :: l)) /\
  (observed_full n (head (sh x)) (tail (sh y)) = false -> ~ always (fun e => e = n - 1) (s :: l)).
Proof.
  intros s l R Hr x y Hx Hy. split; intros Hf Ha.
  - destruct (still_run l s 0 R Hr Ha x Hx) as [E1 _]. destruct (still_run l s 0 R Hr Ha y Hy) as [_ E2]. rewrite E1, E2 in Hf.
    rewrite empty_at in Hf by assumption. specialize (Ha s (or_introl eq_refl)). cbv beta in Ha. lia.
  - destruct (still_run l s _ R Hr Ha x Hx) as [E1 _]. destruct (still_run l s _ R Hr Ha y Hy) as [_ E2]. rewrite E1, E2 in Hf.
    rewrite full_at in Hf by assumption. specialize (Ha s (or_introl eq_refl)). cbv beta in Ha. lia.
Qed.

Lemma not_always : forall (P : Z -> bool) (l : list (sys A)), ~ always (fun e => P e = true) l -> sometime (fun e => P e = false) l.
Proof.
  intros P l. induction l as [|s l IH]; intros H.
  - exfalso. apply H. intros s [].
  - destruct (P (elements s)) eqn:E; [|exists s; split; [now left|exact E]].
    destruct IH as (x & Hx & Ex).
    + intros Ha. apply H. intros x [<-|Hx]; [exact E|now apply Ha].
    + exists x. split; [now right|exact Ex].
Qed.

Lemma in_range_l : forall s l, reachable c0 s -> n <= INT_MAX -> run_of both s l ->
  forall a b c d, In a (s :: l) -> In b (s :: l) -> In c (s :: l) -> In d (s :: l) ->
  0 <= observed_size n (tail (sh a)) (head (sh b)) (head (sh c)) (tail (sh d)) <= n.
Proof.
  intros s l R HN Hr a b c d Ha Hb Hc Hd. unfold observed_size, INT_MAX in *. destruct (negb _); [|lia].
  assert (Ra : reachable c0 a) by (apply (run_reach both l s); auto). assert (Rb : reachable c0 b) by (apply (run_reach both l s); auto).
  pose proof (where_l a Ra) as (A1 & _ & _). pose proof (where_l b Rb) as (B1 & B2 & B3).
  assert (0 <= head (sh b) < n) by (rewrite B3; destruct (Z.ltb_spec (tail (sh b) + elements b) n); lia).
  rewrite !swrap32_small by lia. destruct (Z.leb_spec (tail (sh a)) (head (sh b))); rewrite wrap64_small by lia; lia.
Qed.
End P.

(** Runs of a schedule: [Some a] is a step of the producer (which puts [a] when it starts a call). *)
Section Sched.
Context {A : Type}.

Definition pgo (a0 : A) (s : sys A) : sys A :=
  match pp s with
  | PIdle => mkSys (sh s) (PFull0 a0) (cp s) (pret s) (cret s) (lin s) (bad s)
  | PFull0 a => mkSys (sh s) (PFull1 a (head (sh s))) (cp s) (pret s) (cret s) (lin s) (bad s)
  | PFull1 a h => if nxt (sh s) h =? tail (sh s)
      then mkSys (sh s) PIdle (cp s) (pret s ++ [(Putc a, (-1, []))]) (cret s) (lin s ++ [(Putc a, (-1, []))]) (bad s)
      else mkSys (sh s) (PCell0 a) (cp s) (pret s) (cret s) (lin s) (bad s)
  | PCell0 a => mkSys (sh s) (PCell1 a (head (sh s))) (cp s) (pret s) (cret s) (lin s) (bad s)
  | PCell1 a h => match zset (buffer (sh s)) h a with
      | Done b => mkSys (with_buffer (sh s) b) (PAdv0 a) (cp s) (pret s) (cret s) (lin s) (bad s)
      | _ => mkSys (sh s) (PAdv0 a) (cp s) (pret s) (cret s) (lin s) true
      end
  | PAdv0 a => mkSys (sh s) (PAdv1 a (head (sh s))) (cp s) (pret s) (cret s) (lin s) (bad s)
  | PAdv1 a h => if nxt (sh s) h =? tail (sh s)
      then mkSys (sh s) PIdle (cp s) (pret s ++ [(Putc a, (0, []))]) (cret s) (lin s) (bad s)
      else mkSys (sh s) (PHead0 a) (cp s) (pret s) (cret s) (lin s) (bad s)
  | PHead0 a => mkSys (sh s) (PHead1 a (head (sh s))) (cp s) (pret s) (cret s) (lin s) (bad s)
  | PHead1 a h => mkSys (with_head (sh s) (nxt (sh s) h)) PIdle (cp s) (pret s ++ [(Putc a, (0, []))]) (cret s)
                        (lin s ++ [(Putc a, (0, []))]) (bad s)
  end.

Definition cgo (s : sys A) : sys A :=
  match cp s with
  | CIdle => mkSys (sh s) (pp s) CEmpty0 (pret s) (cret s) (lin s) (bad s)
  | CEmpty0 => mkSys (sh s) (pp s) (CEmpty1 (head (sh s))) (pret s) (cret s)
                     (if head (sh s) =? tail (sh s) then lin s ++ [(Getc, (-1, []))] else lin s) (bad s)
  | CEmpty1 h => if h =? tail (sh s)
      then mkSys (sh s) (pp s) CIdle (pret s) (cret s ++ [(Getc, (-1, []))]) (lin s) (bad s)
      else mkSys (sh s) (pp s) CCell0 (pret s) (cret s) (lin s) (bad s)
  | CCell0 => mkSys (sh s) (pp s) (CCell1 (tail (sh s))) (pret s) (cret s) (lin s) (bad s)
  | CCell1 t => match zget (buffer (sh s)) t with
      | Done v => mkSys (sh s) (pp s) (CTail0 v) (pret s) (cret s) (lin s) (bad s)
      | _ => mkSys (sh s) (pp s) CIdle (pret s) (cret s) (lin s) true
      end
  | CTail0 v => mkSys (sh s) (pp s) (CTail1 v (tail (sh s))) (pret s) (cret s) (lin s) (bad s)
  | CTail1 v t => mkSys (with_tail (sh s) (nxt (sh s) t)) (pp s) CIdle (pret s) (cret s ++ [(Getc, (0, [v]))])
                        (lin s ++ [(Getc, (0, [v]))]) (bad s)
  end.

Lemma pgo_step : forall a s, pstep s (pgo a s).
Proof.
  intros a s. unfold pgo. destruct (pp s) eqn:E.
  - now apply ps_call.
  - now apply ps_full0.
  - destruct (Z.eqb_spec (nxt (sh s) h) (tail (sh s))); [now apply ps_full1_full with h|now apply ps_full1_room with h].
  - now apply ps_cell0.
  - destruct (zset (buffer (sh s)) h a0) eqn:Z; try (now apply ps_cell1 with h); try (now apply ps_cell1_oob with h);
      exfalso; unfold zset in Z; destruct (_ || _); discriminate.
  - now apply ps_adv0.
  - destruct (Z.eqb_spec (nxt (sh s) h) (tail (sh s))); [now apply ps_adv1_full with h|now apply ps_adv1_room with h].
  - now apply ps_head0.
  - now apply ps_head1.
Qed.

Lemma cgo_step : forall s, cstep s (cgo s).
Proof.
  intros s. unfold cgo. destruct (cp s) eqn:E.
  - now apply cs_call.
  - now apply cs_empty0.
  - destruct (Z.eqb_spec h (tail (sh s))); [now apply cs_empty1_empty with h|now apply cs_empty1_some with h].
  - now apply cs_cell0.
  - destruct (zget (buffer (sh s)) t) eqn:Z; try (now apply cs_cell1 with t); try (now apply cs_cell1_oob with t);
      exfalso; unfold zget in Z; destruct (t <? 0); try discriminate; destruct (nth_error _ _); discriminate.
  - now apply cs_tail0.
  - now apply cs_tail1.
Qed.

Fixpoint states (s : sys A) (sched : list (option A)) : list (sys A) :=
  match sched with
  | [] => []
  | o :: r => let s' := match o with Some a => pgo a s | None => cgo s end in s' :: states s' r
  end.

Lemma states_run : forall sched s, run_of both s (states s sched).
Proof.
  induction sched as [|o r IH]; intros s; [exact I|]. cbn [states run_of]. split; [|apply IH].
  destruct o; [left; apply pgo_step|right; apply cgo_step].
Qed.

Lemma states_reach : forall c0 sched s, reachable c0 s -> reachable c0 (last (states s sched) s).
Proof.
  intros c0 sched. induction sched as [|o r IH]; intros s R; [exact R|]. cbn [states].
  set (s' := match o with Some a => pgo a s | None => cgo s end).
  assert (R' : reachable c0 s') by (destruct o; [exact (r_prod _ _ _ R (pgo_step a s))|exact (r_cons _ _ _ R (cgo_step s))]).
  specialize (IH s' R'). destruct (states s' r) as [|x l] eqn:E; [exact R'|].
  replace (last (s' :: x :: l) s) with (last (x :: l) s') by (cbn; clear; revert x; induction l as [|y l IHl]; intros x; [reflexivity|apply IHl]).
  exact IH.
Qed.
End Sched.
