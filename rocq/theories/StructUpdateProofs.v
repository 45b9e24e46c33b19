(** Proofs about struct updates. *)
From Coq Require Import ZifyBool.
From Verif Require Import Base BaseLemmas StructUpdateModel StructUpdateSpec StructUpdateSystem.

(** * Reads and writes *)

Lemma nth_read : forall v a n i, 0 <= a -> 0 <= n ->
  nth_error (read v a n) i = if (Z.of_nat i <? n) then nth_error v (Z.to_nat a + i) else None.
Proof.
  intros v a n i Ha Hn. unfold read. rewrite nth_error_firstn, nth_error_skipn.
  destruct (Nat.ltb_spec i (Z.to_nat n)), (Z.ltb_spec (Z.of_nat i) n); try reflexivity; lia.
Qed.

Lemma nth_write : forall v a d i, 0 <= a -> a + zlen d <= zlen v ->
  nth_error (write v a d) i = if (a <=? Z.of_nat i) && (Z.of_nat i <? a + zlen d) then nth_error d (i - Z.to_nat a) else nth_error v i.
Proof.
  intros v a d i Ha Hl. unfold write, zlen in *.
  assert (Hf : length (firstn (Z.to_nat a) v) = Z.to_nat a) by (rewrite firstn_length; lia).
  destruct (Z.leb_spec a (Z.of_nat i)); cbn [andb].
  - rewrite nth_error_app2 by lia. rewrite Hf. destruct (Z.ltb_spec (Z.of_nat i) (a + Z.of_nat (length d))).
    + rewrite nth_error_app1 by lia. reflexivity.
    + rewrite nth_error_app2 by lia. rewrite nth_error_skipn. f_equal. lia.
  - rewrite nth_error_app1 by lia. rewrite nth_error_firstn. destruct (Nat.ltb_spec i (Z.to_nat a)); [reflexivity|lia].
Qed.

Lemma read_zlen : forall v a n, 0 <= a -> 0 <= n -> a + n <= zlen v -> zlen (read v a n) = n.
Proof. intros v a n Ha Hn Hl. unfold read, zlen in *. rewrite firstn_length, skipn_length. lia. Qed.

Lemma write_length : forall v a d, 0 <= a -> a + zlen d <= zlen v -> length (write v a d) = length v.
Proof. intros v a d Ha Hl. unfold write, zlen in *. rewrite !app_length, skipn_length, firstn_length. lia. Qed.

Lemma read_write_other : forall v c d a n, 0 <= a -> 0 <= n -> 0 <= c -> c + zlen d <= zlen v -> (a + n <= c \/ c + zlen d <= a) ->
  read (write v c d) a n = read v a n.
Proof.
  intros v c d a n Ha Hn Hc Hl Hd. apply nth_error_ext. intros i. rewrite !nth_read by lia.
  destruct (Z.ltb_spec (Z.of_nat i) n); [|reflexivity]. rewrite nth_write by lia.
  replace ((c <=? Z.of_nat (Z.to_nat a + i)) && (Z.of_nat (Z.to_nat a + i) <? c + zlen d)) with false by lia. reflexivity.
Qed.

Lemma read_write_same : forall v a d, 0 <= a -> a + zlen d <= zlen v -> read (write v a d) a (zlen d) = d.
Proof.
  intros v a d Ha Hl. pose proof (zlen_nonneg _ d). apply nth_error_ext. intros i. rewrite nth_read by lia.
  destruct (Z.ltb_spec (Z.of_nat i) (zlen d)).
  - rewrite nth_write by lia. replace ((a <=? Z.of_nat (Z.to_nat a + i)) && (Z.of_nat (Z.to_nat a + i) <? a + zlen d)) with true by lia.
    f_equal. lia.
  - symmetry. apply nth_error_None. unfold zlen in *. lia.
Qed.

Lemma firstn_write_in : forall v P c d, 0 <= c -> c + zlen d <= P -> P <= zlen v ->
  firstn (Z.to_nat P) (write v c d) = write (firstn (Z.to_nat P) v) c d.
Proof.
  intros v P c d Hc Hd HP. assert (Hlen : zlen (firstn (Z.to_nat P) v) = P) by (unfold zlen in *; rewrite firstn_length; lia).
  apply nth_error_ext. intros i. rewrite nth_error_firstn, !nth_write by lia. rewrite nth_error_firstn.
  destruct (Nat.ltb_spec i (Z.to_nat P)); [reflexivity|].
  replace ((c <=? Z.of_nat i) && (Z.of_nat i <? c + zlen d)) with false by lia. reflexivity.
Qed.

Lemma firstn_write_out : forall v P c d, 0 <= c -> P <= c -> c + zlen d <= zlen v ->
  firstn (Z.to_nat P) (write v c d) = firstn (Z.to_nat P) v.
Proof.
  intros v P c d Hc Hd HP. apply nth_error_ext. intros i. rewrite !nth_error_firstn.
  destruct (Nat.ltb_spec i (Z.to_nat P)); [|reflexivity]. rewrite nth_write by lia.
  replace ((c <=? Z.of_nat i) && (Z.of_nat i <? c + zlen d)) with false by lia. reflexivity.
Qed.

Lemma read_firstn : forall v P a n, 0 <= a -> 0 <= n -> a + n <= P -> read (firstn (Z.to_nat P) v) a n = read v a n.
Proof.
  intros v P a n Ha Hn HP. apply nth_error_ext. intros i. rewrite !nth_read by lia.
  destruct (Z.ltb_spec (Z.of_nat i) n); [|reflexivity]. rewrite nth_error_firstn.
  destruct (Nat.ltb_spec (Z.to_nat a + i) (Z.to_nat P)); [reflexivity|lia].
Qed.

Lemma memcpy_l : forall m dst src n, accessible m dst n = true -> accessible m src n = true ->
  dst + n <= zlen (bytes m) -> src + n <= zlen (bytes m) -> (dst + n <= src \/ src + n <= dst) ->
  memcpy m dst src n = Done (mkMemory (write (bytes m) dst (read (bytes m) src n)) (program m) (blocks m)).
Proof.
  intros m dst src n Hd Hs Ld Ls Hdis. unfold memcpy. rewrite Hd, Hs. cbn [negb orb].
  replace ((src <? dst + n) && (dst <? src + n)) with false by lia.
  unfold accessible in *. rewrite zread_ok by lia. cbn [obind].
  change (firstn (Z.to_nat n) (skipn (Z.to_nat src) (bytes m))) with (read (bytes m) src n).
  rewrite zwrite_ok by (rewrite ?read_zlen; lia). reflexivity.
Qed.

(** * Invariant *)

Record inv (m : memory) (us : list struct_update) (s : state) : Prop := {
  i_prog : 0 <= program m <= zlen (bytes m);
  i_vars : variables m = vars s;
  i_len : length us = length (updates s);
  i_heap : forall p n, In (p, n) (blocks m) -> program m <= p /\ 0 < n /\ p + n <= zlen (bytes m);
  i_disj : forall l1 p n l2, blocks m = l1 ++ (p, n) :: l2 -> Forall (fun '(q, k) => p + n <= q \/ q + k <= p) (l1 ++ l2);
  i_upd : forall i u off d, nth_error us i = Some u -> nth_error (updates s) i = Some (Some (off, d)) ->
    offset u = off /\ size u = zlen d /\ In (data u, size u) (blocks m) /\ read (bytes m) (data u) (size u) = d;
  i_inj : forall i j u v x y, nth_error us i = Some u -> nth_error us j = Some v -> nth_error (updates s) i = Some (Some x) ->
    nth_error (updates s) j = Some (Some y) -> data u = data v -> i = j;
  i_live : length (blocks m) = live s }.

Lemma in_accessible : forall m p n, In (p, n) (blocks m) -> 0 <= p -> 0 <= n -> accessible m p n = true.
Proof.
  intros m p n H Hp Hn. unfold accessible. replace ((0 <=? p) && (0 <=? n)) with true by lia. cbn [andb].
  apply orb_true_iff. right. apply existsb_exists. exists (p, n). split; [exact H|]. lia.
Qed.

Lemma var_accessible : forall m a n, 0 <= a -> 0 <= n -> a + n <= program m -> accessible m a n = true.
Proof. intros m a n Ha Hn H. unfold accessible. lia. Qed.

Lemma vars_zlen : forall m us s, inv m us s -> Z.of_nat (length (vars s)) = program m.
Proof. intros m us s []. rewrite <- i_vars0. unfold variables, zlen in *. rewrite firstn_length. lia. Qed.

(** Blocks that start at the same place, or meet, are the same. *)
Lemma blocks_eq : forall m us s p n q k, inv m us s -> In (p, n) (blocks m) -> In (q, k) (blocks m) ->
  ~ (p + n <= q \/ q + k <= p) -> (p, n) = (q, k).
Proof.
  intros m us s p n q k Hi Hp Hq Hx. apply in_split in Hp. destruct Hp as (l1 & l2 & E).
  rewrite E in Hq. apply in_app_or in Hq. destruct Hq as [Hq|[Hq|Hq]]; [|exact Hq|]; exfalso; apply Hx;
    pose proof (i_disj _ _ _ Hi _ _ _ _ E) as F; rewrite Forall_forall in F; apply (F (q, k)); apply in_or_app; auto.
Qed.

Lemma release_l : forall p l, (exists n, In (p, n) l) -> exists l1 n l2, l = l1 ++ (p, n) :: l2 /\ release p l = Done (l1 ++ l2) /\
  (forall k, ~ In (p, k) l1).
Proof.
  intros p l. induction l as [|[q k] l IH]; intros (n & H); [destruct H|]. cbn [release].
  destruct (Z.eqb_spec q p) as [->|Hne].
  - exists [], k, l. repeat split. intros k' [].
  - destruct IH as (l1 & n' & l2 & E1 & E2 & E3). { exists n. destruct H as [H|H]; [congruence|exact H]. }
    exists ((q, k) :: l1), n', l2. rewrite E2. subst l. repeat split. intros k' [H'|H']; [congruence|now apply E3 in H'].
Qed.

Lemma set_nth_eq : forall A (l : list A) i x, (i < length l)%nat -> nth_error (set_nth l i x) i = Some x.
Proof. intros A l. induction l as [|y l IH]; intros [|i] x H; cbn in *; try lia; [reflexivity|]. apply IH. lia. Qed.
Lemma set_nth_neq : forall A (l : list A) i j x, i <> j -> nth_error (set_nth l i x) j = nth_error l j.
Proof. intros A l. induction l as [|y l IH]; intros [|i] [|j] x H; cbn in *; try lia; try reflexivity. apply IH. lia. Qed.
Lemma set_nth_length : forall A (l : list A) i x, length (set_nth l i x) = length l.
Proof. intros A l. induction l as [|y l IH]; intros [|i] x; cbn in *; try lia. now rewrite IH. Qed.

Lemma live_free : forall l i x, nth_error l i = Some (Some x) ->
  length (filter (fun u : option (Z * list Z) => match u with Some _ => true | None => false end) l)
  = S (length (filter (fun u : option (Z * list Z) => match u with Some _ => true | None => false end) (set_nth l i None))).
Proof.
  intros l. induction l as [|[y|] l IH]; intros [|i] x H; cbn in *; try discriminate; try (rewrite (IH i x H)); reflexivity.
Qed.

Lemma write_inv : forall m us s a d, inv m us s -> within (vars s) a (zlen d) ->
  inv (mkMemory (write (bytes m) a d) (program m) (blocks m)) us (mkState (write (vars s) a d) (updates s)).
Proof.
  intros m us s a d Hi (W1 & W2 & W3). pose proof (vars_zlen _ _ _ Hi) as Hv. rewrite Hv in W3. destruct Hi.
  assert (Hl : length (write (bytes m) a d) = length (bytes m)) by (apply write_length; lia).
  split; cbn [bytes program blocks vars updates].
  - unfold zlen in *. lia.
  - unfold variables in *. cbn [bytes program]. rewrite <- i_vars0. apply firstn_write_in; lia.
  - exact i_len0.
  - intros p n H. apply i_heap0 in H. unfold zlen in *. lia.
  - exact i_disj0.
  - intros i u off d' H1 H2. destruct (i_upd0 i u off d' H1 H2) as (A & B & C & D). repeat split; try assumption.
    rewrite <- D. apply i_heap0 in C. apply read_write_other; lia.
  - exact i_inj0.
  - exact i_live0.
Qed.

Lemma step_l : forall m us s o p, inv m us s -> allowed s o -> (forall off src n, o = OMake off src n -> vacant m p n) ->
  exists m' us', urun1 m us o (Some p) = Done (m', us') /\ inv m' us' (step s o).
Proof.
  intros m us s o p Hi Ha Hv. pose proof (vars_zlen _ _ _ Hi) as HP. destruct o as [off src n|dest i|i|a d]; cbn [urun1 allowed step] in *.
  - specialize (Hv off src n eq_refl). destruct Hv as (V1 & V2 & V3 & V4). destruct Ha as (Hn & A1 & A2 & A3). rewrite HP in A3.
    destruct Hi. unfold struct_update_from_data.
    rewrite memcpy_l; cbn [malloc bytes program blocks]; try lia.
    2: { apply in_accessible; cbn; [now left|lia|lia]. }
    2: { apply var_accessible; cbn; lia. }
    cbn [obind]. eexists. eexists. split; [reflexivity|].
    set (d := read (bytes m) src n). assert (Hd : zlen d = n) by (apply read_zlen; lia).
    assert (Hl : length (write (bytes m) p d) = length (bytes m)) by (apply write_length; lia).
    split; cbn [bytes program blocks vars updates].
    + unfold zlen in *. lia.
    + unfold variables in *. cbn [bytes program]. rewrite <- i_vars0. apply firstn_write_out; lia.
    + rewrite !app_length. cbn. lia.
    + intros q k [H|H]; [injection H as <- <-; unfold zlen in *; lia|]. apply i_heap0 in H. unfold zlen in *. lia.
    + intros l1 q k l2 E. destruct l1 as [|b l1]; cbn [app] in *; pose proof (f_equal (@tl _) E) as E2; pose proof (f_equal (hd (0, 0)) E) as E1; cbn [tl hd] in E1, E2.
      * rewrite <- E2. assert (q = p) as -> by congruence. assert (k = n) as -> by congruence. exact V4.
      * subst b. constructor.
        -- rewrite Forall_forall in V4. specialize (V4 (q, k)). assert (H : In (q, k) (blocks m)) by (rewrite E2; apply in_or_app; right; now left).
           specialize (V4 H). cbv beta iota in V4. lia.
        -- exact (i_disj0 _ _ _ _ E2).
    + intros i u off' d' H1 H2. assert (Hi : (i < length us)%nat \/ i = length us).
      { assert (i < length (us ++ [mkUpdate off p n]))%nat by (apply nth_error_Some; congruence). rewrite app_length in *. cbn in *. lia. }
      destruct Hi as [Hi|Hi].
      * rewrite nth_error_app1 in H1 by lia. rewrite nth_error_app1 in H2 by lia.
        destruct (i_upd0 i u off' d' H1 H2) as (B1 & B2 & B3 & B4). repeat split; try assumption; [now right|].
        rewrite <- B4. pose proof (i_heap0 _ _ B3). rewrite Forall_forall in V4. specialize (V4 _ B3). cbv beta iota in V4.
        apply read_write_other; lia.
      * subst i. rewrite nth_error_app2, Nat.sub_diag in H1 by lia. cbn in H1. injection H1 as <-.
        rewrite i_len0, nth_error_app2, Nat.sub_diag in H2 by lia. cbn in H2. injection H2 as <- <-.
        rewrite <- i_vars0. unfold variables. rewrite read_firstn by lia. fold d. cbn [offset size data]. repeat split; [congruence|now left|].
        rewrite <- Hd at 1. apply read_write_same; lia.
    + assert (Hd' : forall i u x, (i < length us)%nat -> nth_error us i = Some u -> nth_error (updates s) i = Some (Some x) -> data u <> p).
      { intros i u [off' d'] Hi H1 H2 E. destruct (i_upd0 i u off' d' H1 H2) as (B1 & B2 & B3 & B4). pose proof (i_heap0 _ _ B3).
        rewrite Forall_forall in V4. specialize (V4 _ B3). cbv beta iota in V4. lia. }
      assert (Hlen : forall i u, nth_error (us ++ [mkUpdate off p n]) i = Some u -> (i <= length us)%nat).
      { intros i u H. assert (i < length (us ++ [mkUpdate off p n]))%nat by (apply nth_error_Some; congruence). rewrite app_length in *. cbn in *. lia. }
      intros i j u v x y H1 H2 H3 H4 E. pose proof (Hlen _ _ H1). pose proof (Hlen _ _ H2).
      destruct (Nat.eq_dec i (length us)) as [Ei|Ei], (Nat.eq_dec j (length us)) as [Ej|Ej]; [congruence| | |].
      * subst i. rewrite nth_error_app2, Nat.sub_diag in H1 by lia. cbn in H1. injection H1 as <-. exfalso.
        rewrite nth_error_app1 in H2 by lia. rewrite nth_error_app1 in H4 by lia. apply (Hd' j v y); [lia|assumption|assumption|]. now symmetry.
      * subst j. rewrite nth_error_app2, Nat.sub_diag in H2 by lia. cbn in H2. injection H2 as <-. exfalso.
        rewrite nth_error_app1 in H1 by lia. rewrite nth_error_app1 in H3 by lia. apply (Hd' i u x); [lia|assumption|assumption|]. exact E.
      * rewrite nth_error_app1 in H1, H2, H3, H4 by lia. eauto.
    + unfold live in *. cbn [updates]. rewrite filter_app, app_length. cbn. lia.
  - destruct Ha as (off & d & Hd & W). rewrite Hd.
    destruct (nth_error us i) as [u|] eqn:Hu.
    2: { exfalso. apply nth_error_None in Hu. assert (i < length (updates s))%nat by (apply nth_error_Some; congruence). pose proof (i_len _ _ _ Hi). lia. }
    destruct (i_upd _ _ _ Hi i u off d Hu Hd) as (B1 & B2 & B3 & B4). destruct W as (W1 & W2 & W3).
    destruct (i_heap _ _ _ Hi _ _ B3) as (C1 & C2 & C3). pose proof (i_prog _ _ _ Hi). rewrite HP in W3. fold (zlen d) in *.
    unfold struct_update_apply. rewrite memcpy_l; rewrite ?B1; try lia.
    2: { apply var_accessible; lia. }
    2: { apply in_accessible; [exact B3|lia|lia]. }
    cbn [obind]. eexists. eexists. split; [reflexivity|]. rewrite B4. apply write_inv; [exact Hi|]. unfold within. fold (zlen d). lia.
  - destruct Ha as (x & Hx). destruct (nth_error us i) as [u|] eqn:Hu.
    2: { exfalso. apply nth_error_None in Hu. assert (i < length (updates s))%nat by (apply nth_error_Some; congruence). pose proof (i_len _ _ _ Hi). lia. }
    destruct x as [off d]. destruct (i_upd _ _ _ Hi i u off d Hu Hx) as (B1 & B2 & B3 & B4).
    unfold struct_update_free, free. destruct (release_l (data u) (blocks m)) as (l1 & n & l2 & E1 & E2 & E3); [eauto|].
    rewrite E2. cbn [obind]. eexists. eexists. split; [reflexivity|].
    assert (En : n = size u).
    { assert (H : In (data u, n) (blocks m)) by (rewrite E1; apply in_or_app; right; now left).
      destruct (i_heap _ _ _ Hi _ _ B3). destruct (i_heap _ _ _ Hi _ _ H).
      pose proof (blocks_eq _ _ _ _ _ _ _ Hi B3 H) as Q. assert (Q' : (data u, size u) = (data u, n)) by (apply Q; lia). congruence. }
    subst n.
    destruct Hi. split; cbn [bytes program blocks vars updates]; try assumption.
    + rewrite set_nth_length. exact i_len0.
    + intros p' n' H. apply i_heap0. rewrite E1. apply in_or_app. apply in_app_or in H. destruct H; [now left|right; now right].
    + intros k1 p' n' k2 E.
      assert (HE : exists j1 j2, blocks m = j1 ++ (p', n') :: j2 /\ forall z, In z (k1 ++ k2) -> In z (j1 ++ j2)).
      { rewrite E1. apply app_eq_app in E. destruct E as (r & [[H1 H2]|[H1 H2]]).
        - destruct r as [|b r]; cbn [app] in H2.
          + rewrite app_nil_r in H1. subst k1 l2. exists (l1 ++ [(data u, size u)]), k2.
            split; [now rewrite <- app_assoc|]. intros z. rewrite !in_app_iff. tauto.
          + injection H2 as <- ->. subst l1. exists k1, (r ++ (data u, size u) :: l2).
            split; [now rewrite <- app_assoc|]. intros z. rewrite !in_app_iff. cbn [In]. tauto.
        - subst k1 l2. exists (l1 ++ (data u, size u) :: r), k2. split; [now rewrite <- app_assoc|].
          intros z. rewrite !in_app_iff. cbn [In]. tauto. }
      destruct HE as (j1 & j2 & Eb & Hsub). pose proof (i_disj0 _ _ _ _ Eb) as F. rewrite Forall_forall in *. intros z Hz. apply F. auto.
    + intros j v off' d' H1 H2. destruct (Nat.eq_dec i j) as [->|Hne].
      * rewrite set_nth_eq in H2 by (apply nth_error_Some; congruence). discriminate.
      * rewrite set_nth_neq in H2 by exact Hne. destruct (i_upd0 j v off' d' H1 H2) as (D1 & D2 & D3 & D4). repeat split; try assumption.
        rewrite E1 in D3. apply in_app_or in D3. apply in_or_app. destruct D3 as [D3|[D3|D3]]; [now left| |now right].
        exfalso. injection D3 as D3 _. apply Hne. exact (i_inj0 i j u v _ _ Hu H1 Hx H2 D3).
    + intros j k v w y z H1 H2 H3 H4 Ed.
      assert (Hj : i <> j) by (intros ->; rewrite set_nth_eq in H3 by (apply nth_error_Some; congruence); discriminate).
      assert (Hk : i <> k) by (intros ->; rewrite set_nth_eq in H4 by (apply nth_error_Some; congruence); discriminate).
      rewrite set_nth_neq in H3, H4 by assumption. eauto.
    + unfold live in *. cbn [updates]. rewrite (live_free _ _ _ Hx) in i_live0. rewrite E1, app_length in i_live0. cbn in i_live0.
      rewrite app_length. lia.
  - destruct Ha as (W1 & W2 & W3). rewrite HP in W3. fold (zlen d) in *. rewrite var_accessible by lia. cbn [negb].
    pose proof (i_prog _ _ _ Hi). rewrite zwrite_ok by lia. cbn [obind]. eexists. eexists. split; [reflexivity|].
    apply write_inv; [exact Hi|]. unfold within. fold (zlen d). lia.
Qed.

Lemma boot_inv : forall m s, boot m s -> inv m [] s.
Proof.
  intros m s (H1 & H2 & ->). split; cbn [vars updates]; try rewrite H2; try assumption; try reflexivity.
  - intros p n [].
  - intros [|b l1] p n l2 E; discriminate.
  - intros [|i] u off d H; discriminate.
  - intros [|i] j u v x y H; discriminate.
Qed.

Lemma urun_inv : forall ops m us s m' us', inv m us s -> all_allowed s ops -> urun m us ops m' us' -> inv m' us' (steps s ops).
Proof.
  induction ops as [|o ops IH]; intros m us s m' us' Hi Ha Hr; inversion Hr as [|? ? ? ? p m1 us1 ? ? Hv E Hr']; subst; [exact Hi|].
  destruct Ha as [Ha1 Ha2]. destruct (step_l m us s o p Hi Ha1 Hv) as (m2 & us2 & E2 & Hi2). rewrite E in E2. injection E2 as <- <-.
  cbn [steps]. eapply IH; eauto.
Qed.

Lemma allowed_app : forall ops1 ops2 s, all_allowed s (ops1 ++ ops2) <-> all_allowed s ops1 /\ all_allowed (steps s ops1) ops2.
Proof. induction ops1 as [|o ops1 IH]; intros ops2 s; cbn; [tauto|]. rewrite IH. tauto. Qed.

Lemma inv_agrees : forall m us s, inv m us s -> agrees m us s.
Proof. intros m us s []. repeat split; assumption. Qed.

Lemma history_l : forall m s ops m' us', boot m s -> all_allowed s ops -> urun m [] ops m' us' -> agrees m' us' (steps s ops).
Proof. intros. eapply inv_agrees, urun_inv; eauto using boot_inv. Qed.

Lemma progress_l : forall m s ops m' us' o p, boot m s -> all_allowed s (ops ++ [o]) -> urun m [] ops m' us' ->
  (forall off src n, o = OMake off src n -> vacant m' p n) -> exists m'' us'', urun1 m' us' o (Some p) = Done (m'', us'').
Proof.
  intros m s ops m' us' o p Hb Ha Hr Hv. apply allowed_app in Ha. destruct Ha as [Ha [Ho _]].
  destruct (step_l m' us' (steps s ops) o p) as (m2 & us2 & E & _); eauto. eapply urun_inv; eauto using boot_inv.
Qed.

Lemma after_free_l : forall m s ops i m' us' p, boot m s -> all_allowed s (ops ++ [OFree i]) -> urun m [] (ops ++ [OFree i]) m' us' ->
  (forall dest, urun1 m' us' (OApply dest i) p = Undef) /\ urun1 m' us' (OFree i) p = Undef.
Proof.
  intros m s ops i m' us' p Hb Ha Hr.
  assert (Hs : exists m1, urun m [] ops m1 us' /\ exists u, nth_error us' i = Some u /\ struct_update_free m1 u = Done m').
  { clear - Hr. revert Hr. generalize (@nil struct_update). revert m. induction ops as [|o ops IH]; intros m us Hr;
      inversion Hr as [|? ? ? ? q m1 us1 ? ? Hv E Hr']; subst; cbn [app] in *.
    - inversion Hr'; subst. exists m. cbn [urun1] in E. destruct (nth_error us i) as [u|] eqn:Hu; [|discriminate].
      destruct (struct_update_free m u) as [m2| | |] eqn:Ef; try discriminate. cbn in E. injection E as <- <-.
      split; [constructor|]. exists u. auto.
    - destruct (IH _ _ Hr') as (m2 & H1 & H2). exists m2. split; [|exact H2]. econstructor; eauto. }
  destruct Hs as (m1 & Hr1 & u & Hu & Hf). apply allowed_app in Ha. destruct Ha as [Ha [(x & Hx) _]].
  pose proof (urun_inv _ _ _ _ _ _ (boot_inv _ _ Hb) Ha Hr1) as Hi. destruct x as [off d].
  destruct (i_upd _ _ _ Hi i u off d Hu Hx) as (B1 & B2 & B3 & B4). destruct (i_heap _ _ _ Hi _ _ B3) as (C1 & C2 & C3).
  unfold struct_update_free, free in Hf. destruct (release_l (data u) (blocks m1)) as (l1 & n & l2 & E1 & E2 & E3); [eauto|].
  rewrite E2 in Hf. cbn [obind] in Hf. injection Hf as <-.
  assert (Hin : In (data u, n) (blocks m1)) by (rewrite E1; apply in_or_app; right; now left).
  assert (En : n = size u).
  { destruct (i_heap _ _ _ Hi _ _ Hin). pose proof (blocks_eq _ _ _ _ _ _ _ Hi B3 Hin) as Q.
    assert (Q' : (data u, size u) = (data u, n)) by (apply Q; lia). congruence. }
  subst n. pose proof (i_disj _ _ _ Hi _ _ _ _ E1) as F. rewrite Forall_forall in F.
  assert (Hout : forall q k, In (q, k) (l1 ++ l2) -> program m1 <= q /\ 0 < k /\ (data u + size u <= q \/ q + k <= data u)).
  { intros q k H. specialize (F _ H). cbv beta iota in F. destruct (i_heap _ _ _ Hi q k).
    { rewrite E1. apply in_or_app. apply in_app_or in H. destruct H; [now left|right; now right]. }
    lia. }
  pose proof (i_prog _ _ _ Hi). cbn [urun1]. rewrite Hu. split.
  - intros dest. unfold struct_update_apply, memcpy.
    assert (Hn : accessible (mkMemory (bytes m1) (program m1) (l1 ++ l2)) (data u) (size u) = false).
    { unfold accessible. cbn [program blocks]. apply andb_false_iff. right. apply orb_false_iff. split; [lia|].
      destruct (existsb _ _) eqn:Ee; [|reflexivity]. apply existsb_exists in Ee. destruct Ee as ([q k] & H1 & H2).
      apply Hout in H1. lia. }
    rewrite Hn. rewrite orb_true_r. reflexivity.
  - unfold struct_update_free, free. cbn [blocks].
    assert (Hrel : forall l, (forall q k, In (q, k) l -> q <> data u) -> release (data u) l = Undef).
    { intros l. induction l as [|[q k] l IH]; intros Hl; [reflexivity|]. cbn [release].
      destruct (Z.eqb_spec q (data u)) as [->|_]; [exfalso; apply (Hl (data u) k); [now left|reflexivity]|].
      rewrite IH; [reflexivity|]. intros q' k' H'. apply (Hl q' k'). now right. }
    rewrite Hrel; [reflexivity|]. intros q k H0 ->. apply Hout in H0. lia.
Qed.

Lemma write_comm : forall v a d b e, 0 <= a -> 0 <= b -> a + zlen d <= zlen v -> b + zlen e <= zlen v ->
  (a + zlen d <= b \/ b + zlen e <= a) -> write (write v a d) b e = write (write v b e) a d.
Proof.
  intros v a d b e Ha Hb Hd He Hx. apply nth_error_ext. intros i.
  assert (L1 : zlen (write v a d) = zlen v) by (unfold zlen; rewrite write_length; auto).
  assert (L2 : zlen (write v b e) = zlen v) by (unfold zlen; rewrite write_length; auto).
  rewrite !nth_write by lia.
  destruct ((b <=? Z.of_nat i) && (Z.of_nat i <? b + zlen e)) eqn:E1, ((a <=? Z.of_nat i) && (Z.of_nat i <? a + zlen d)) eqn:E2; try reflexivity; lia.
Qed.

Lemma apply_run : forall m us s dest i off d, inv m us s -> nth_error (updates s) i = Some (Some (off, d)) ->
  within (vars s) (dest + off) (zlen d) -> forall p,
  urun1 m us (OApply dest i) p = Done (mkMemory (write (bytes m) (dest + off) d) (program m) (blocks m), us) /\
  inv (mkMemory (write (bytes m) (dest + off) d) (program m) (blocks m)) us (mkState (write (vars s) (dest + off) d) (updates s)).
Proof.
  intros m us s dest i off d Hi Hd W p. split; [|now apply write_inv].
  pose proof (vars_zlen _ _ _ Hi) as HP. cbn [urun1]. destruct (nth_error us i) as [u|] eqn:Hu.
  2: { exfalso. apply nth_error_None in Hu. assert (i < length (updates s))%nat by (apply nth_error_Some; congruence). pose proof (i_len _ _ _ Hi). lia. }
  destruct (i_upd _ _ _ Hi i u off d Hu Hd) as (B1 & B2 & B3 & B4). destruct W as (W1 & W2 & W3).
  destruct (i_heap _ _ _ Hi _ _ B3) as (C1 & C2 & C3). pose proof (i_prog _ _ _ Hi). rewrite HP in W3.
  unfold struct_update_apply. rewrite memcpy_l; rewrite ?B1; try lia.
  2: { apply var_accessible; lia. }
  2: { apply in_accessible; [exact B3|lia|lia]. }
  cbn [obind]. now rewrite B4.
Qed.

Lemma commute_l : forall m s ops m' us' dest1 i off1 d1 dest2 j off2 d2 p q p' q', boot m s -> all_allowed s ops -> urun m [] ops m' us' ->
  nth_error (updates (steps s ops)) i = Some (Some (off1, d1)) -> nth_error (updates (steps s ops)) j = Some (Some (off2, d2)) ->
  within (vars (steps s ops)) (dest1 + off1) (zlen d1) -> within (vars (steps s ops)) (dest2 + off2) (zlen d2) ->
  (dest1 + off1 + zlen d1 <= dest2 + off2 \/ dest2 + off2 + zlen d2 <= dest1 + off1) ->
  exists m1 m2 m3, urun1 m' us' (OApply dest1 i) p = Done (m1, us') /\ urun1 m1 us' (OApply dest2 j) q = Done (m3, us') /\
    urun1 m' us' (OApply dest2 j) p' = Done (m2, us') /\ urun1 m2 us' (OApply dest1 i) q' = Done (m3, us').
Proof.
  intros m s ops m' us' dest1 i off1 d1 dest2 j off2 d2 p q p' q' Hb Ha Hr H1 H2 W1 W2 Hd.
  pose proof (urun_inv _ _ _ _ _ _ (boot_inv _ _ Hb) Ha Hr) as Hi. set (S := steps s ops) in *.
  destruct (apply_run _ _ _ dest1 i off1 d1 Hi H1 W1 p) as [E1 I1]. destruct (apply_run _ _ _ dest2 j off2 d2 Hi H2 W2 p') as [E2 I2].
  assert (Lv : forall a d, within (vars S) a (zlen d) -> length (write (vars S) a d) = length (vars S)).
  { intros a d (A & B & C). apply write_length; [exact A|exact C]. }
  destruct (apply_run _ _ _ dest2 j off2 d2 I1 H2) with (p := q) as [E3 _].
  { unfold within in *. cbn [vars]. rewrite Lv; assumption. }
  destruct (apply_run _ _ _ dest1 i off1 d1 I2 H1) with (p := q') as [E4 _].
  { unfold within in *. cbn [vars]. rewrite Lv; assumption. }
  cbn [bytes program blocks] in *. do 3 eexists. split; [exact E1|]. split; [exact E3|]. split; [exact E2|]. rewrite E4.
  do 3 f_equal. pose proof (vars_zlen _ _ _ Hi) as HP. pose proof (i_prog _ _ _ Hi). destruct W1 as (A1 & A2 & A3), W2 as (B1 & B2 & B3). symmetry. apply write_comm; lia.
Qed.

(** * The macro *)

Fixpoint go (e : list token) (sum : option Z) (sop : token) (prod : option Z) (pop : token) (operand : bool) : option Z :=
  match e with
  | [] => if operand then None else arith_opt sop sum prod
  | t :: e' =>
      if operand then
        match t with
        | TVal _ | TParen _ => go e' sum sop (arith_opt pop prod (value t)) TStar false
        | _ => None
        end
      else
        match t with
        | TStar | TSlash | TPercent => go e' sum sop prod t true
        | TPlus | TMinus => go e' (arith_opt sop sum prod) t (Some 1) TStar true
        | _ => None
        end
  end.

Lemma value_go : forall e, value (TParen e) = go e (Some 0) TPlus (Some 1) TStar true.
Proof. reflexivity. Qed.

Lemma product_l : forall e, product e -> exists V, forall prod,
  go e (Some 0) TPlus (Some prod) TStar true = match V with Some v => Some (wrap 64 (prod * v)) | None => None end.
Proof.
  intros e H. induction H as [t Ht|t e Ht H [V IH]].
  - exists (value t). intros prod. destruct t; try destruct Ht; cbn [go]; match goal with |- context [value ?t] => destruct (value t) as [v0|] end; try reflexivity;
      cbn [arith_opt arith]; f_equal; unfold wrap; rewrite Z.add_0_l, Zmod_mod; reflexivity.
  - exists (match value t, V with Some v, Some u => Some (v * u) | _, _ => None end). intros prod.
    assert (E : go (t :: TStar :: e) (Some 0) TPlus (Some prod) TStar true
              = go e (Some 0) TPlus (arith_opt TStar (Some prod) (value t)) TStar true) by (destruct t; try destruct Ht; reflexivity).
    rewrite E. destruct (value t) as [v|] eqn:Ev; cbn [arith_opt arith].
    + rewrite IH. destruct V as [u|]; [|reflexivity]. f_equal. unfold wrap.
      rewrite <- Zmult_mod_idemp_l. rewrite Zmod_mod. rewrite Zmult_mod_idemp_l. f_equal. lia.
    + clear E IH.
      induction H as [t' Ht'|t' e Ht' H IH].
      * destruct t'; try destruct Ht'; reflexivity.
      * destruct t'; try destruct Ht'; exact IH.
Qed.

Lemma array_size_l : forall elem len L, product len -> value (TParen len) = Some L ->
  value (TParen (array_size_text elem len)) = Some (wrap 64 (elem * L)).
Proof.
  intros elem len L Hp HL. rewrite value_go in *. destruct (product_l len Hp) as (V & HV). rewrite HV in HL.
  unfold array_size_text. cbn [go value arith_opt arith]. rewrite HV. destruct V as [v|]; [|discriminate].
  assert (HL' : L = wrap 64 (1 * v)) by congruence. subst L.
  f_equal. unfold wrap. rewrite !Z.mul_1_l, Zmult_mod_idemp_l, Zmult_mod_idemp_r. reflexivity.
Qed.

Lemma go_sum : forall e sop prod pop operand, (sop = TPlus \/ sop = TMinus) -> exists K, forall s,
  go e (Some s) sop prod pop operand = match K with Some k => Some (wrap 64 (s + k)) | None => None end.
Proof.
  assert (Hfin : forall sop prod, (sop = TPlus \/ sop = TMinus) -> exists K, forall s,
            arith_opt sop (Some s) prod = match K with Some k => Some (wrap 64 (s + k)) | None => None end).
  { intros sop prod [-> | ->]; destruct prod as [p|].
    - exists (Some p). reflexivity.
    - exists None. reflexivity.
    - exists (Some (- p)). reflexivity.
    - exists None. reflexivity. }
  induction e as [|t e IH]; intros sop prod pop operand Hs.
  - destruct operand; [exists None; reflexivity|]. now apply Hfin.
  - destruct operand.
    + destruct t; cbn [go]; try (exists None; reflexivity); now apply IH.
    + destruct t; cbn [go]; try (exists None; reflexivity); try (now apply IH).
      * destruct (Hfin sop prod Hs) as (K & HK). destruct K as [k|].
        -- destruct (IH TPlus (Some 1) TStar true (or_introl eq_refl)) as (K' & HK').
           exists (match K' with Some k' => Some (k + k') | None => None end). intros s. rewrite HK, HK'. destruct K' as [k'|]; [|reflexivity].
           f_equal. unfold wrap. rewrite Zplus_mod_idemp_l. f_equal. lia.
        -- exists None. intros s. rewrite HK. clear. generalize TPlus as so, (Some 1) as pr, TStar as po, true as op.
           induction e as [|t e IH]; intros so pr po op; cbn [go]; [destruct op; reflexivity|].
           destruct op; destruct t; try reflexivity; apply IH.
      * destruct (Hfin sop prod Hs) as (K & HK). destruct K as [k|].
        -- destruct (IH TMinus (Some 1) TStar true (or_intror eq_refl)) as (K' & HK').
           exists (match K' with Some k' => Some (k + k') | None => None end). intros s. rewrite HK, HK'. destruct K' as [k'|]; [|reflexivity].
           f_equal. unfold wrap. rewrite Zplus_mod_idemp_l. f_equal. lia.
        -- exists None. intros s. rewrite HK. clear. generalize TMinus as so, (Some 1) as pr, TStar as po, true as op.
           induction e as [|t e IH]; intros so pr po op; cbn [go]; [destruct op; reflexivity|].
           destruct op; destruct t; try reflexivity; apply IH.
Qed.

Lemma product_go : forall e op rest, product e -> (op = TPlus \/ op = TMinus) -> forall pr,
  go (e ++ op :: rest) (Some 0) TPlus pr TStar true = go rest (go e (Some 0) TPlus pr TStar true) op (Some 1) TStar true.
Proof.
  intros e op rest H Ho. induction H as [t Ht|t e Ht H IH]; intros pr.
  - destruct t; try destruct Ht; destruct Ho as [-> | ->]; reflexivity.
  - destruct t; try destruct Ht; cbn [app go]; apply IH.
Qed.

Lemma sum_size_l : forall elem first op rest F L, product first -> (op = TPlus \/ op = TMinus) ->
  value (TParen first) = Some F -> value (TParen (first ++ op :: rest)) = Some L ->
  value (TParen (array_size_text elem (first ++ op :: rest))) = Some (wrap 64 (L + (elem - 1) * F)).
Proof.
  intros elem first op rest F L Hp Ho HF HL. pose proof (array_size_l elem first F Hp HF) as HA.
  rewrite value_go in *. unfold array_size_text in *. cbn [go value arith_opt arith] in HA |- *.
  rewrite product_go in * by assumption. rewrite HA. rewrite HF in HL.
  destruct (go_sum rest op (Some 1) TStar true Ho) as (K & HK). rewrite HK in *. destruct K as [k|]; [|discriminate].
  injection HL as <-. f_equal. unfold wrap. rewrite !Zplus_mod_idemp_l. f_equal. lia.
Qed.

Lemma array_sum_l : forall m p off arr elem first op rest F L, product first -> (op = TPlus \/ op = TMinus) ->
  value (TParen first) = Some F -> value (TParen (first ++ op :: rest)) = Some L ->
  STRUCT_UPDATE_ARRAY m p off arr elem (first ++ op :: rest)
  = struct_update_from_data m p off arr ((L + (elem - 1) * F) mod 2 ^ 64).
Proof.
  intros m p off arr elem first op rest F L Hp Ho HF HL. unfold STRUCT_UPDATE_ARRAY.
  rewrite (sum_size_l elem first op rest F L Hp Ho HF HL). reflexivity.
Qed.

Lemma product_div : forall e d v, product e -> primary d -> value d = Some v -> v <> 0 -> forall pr P,
  go e (Some 0) TPlus (Some pr) TStar true = Some P ->
  go (e ++ [TSlash; d]) (Some 0) TPlus (Some pr) TStar true = Some (wrap 64 (P / v)).
Proof.
  intros e d v H Hd Hv Hn. induction H as [t Ht|t e Ht H IH]; intros pr P HP.
  - assert (E : go [t] (Some 0) TPlus (Some pr) TStar true = arith_opt TPlus (Some 0) (arith_opt TStar (Some pr) (value t)))
      by (destruct t; try destruct Ht; reflexivity).
    rewrite E in HP.
    assert (E2 : go ([t] ++ [TSlash; d]) (Some 0) TPlus (Some pr) TStar true
               = arith_opt TPlus (Some 0) (arith_opt TSlash (arith_opt TStar (Some pr) (value t)) (value d)))
      by (destruct t; try destruct Ht; destruct d; try destruct Hd; reflexivity).
    rewrite E2, Hv. destruct (value t) as [u|]; [|discriminate]. cbn [arith_opt arith] in *.
    injection HP as <-. destruct (Z.eqb_spec v 0) as [|]; [lia|]. do 2 f_equal. unfold wrap. rewrite !Z.add_0_l, Zmod_mod. reflexivity.
  - assert (E : forall r, go (t :: TStar :: r) (Some 0) TPlus (Some pr) TStar true
              = go r (Some 0) TPlus (arith_opt TStar (Some pr) (value t)) TStar true) by (intros r; destruct t; try destruct Ht; reflexivity).
    cbn [app]. rewrite E in HP |- *. destruct (value t) as [u|]; cbn [arith_opt arith] in *; [now apply IH|].
    exfalso. clear - H HP. induction H as [t' Ht'|t' e Ht' H IH]; destruct t'; try destruct Ht'; try discriminate; now apply IH.
Qed.

Lemma array_div_l : forall m p off arr elem first d F v, product first -> primary d -> value d = Some v -> v <> 0 ->
  value (TParen first) = Some F -> 0 <= elem * F < 2 ^ 64 -> 0 <= v ->
  STRUCT_UPDATE_ARRAY m p off arr elem (first ++ [TSlash; d]) = struct_update_from_data m p off arr (elem * F / v).
Proof.
  intros m p off arr elem first d F v Hp Hd Hv Hn HF Hr Hv0. unfold STRUCT_UPDATE_ARRAY.
  pose proof (array_size_l elem first F Hp HF) as HA. rewrite wrap_small in HA by exact Hr. rewrite value_go in *. unfold array_size_text in *.
  cbn [go value arith_opt arith] in HA |- *. rewrite (product_div first d v Hp Hd Hv Hn _ _ HA).
  assert (H : 0 <= elem * F / v < 2 ^ 64).
  { split; [apply Z.div_pos; lia|]. apply Z.le_lt_trans with (elem * F); [|apply Hr]. apply Z.div_le_upper_bound; [lia|]. nia. }
  rewrite wrap_small by exact H. reflexivity.
Qed.

Lemma array_l : forall m p off arr elem len L, product len -> value (TParen len) = Some L -> 0 <= elem * L < 2 ^ 64 ->
  STRUCT_UPDATE_ARRAY m p off arr elem len = struct_update_from_data m p off arr (elem * L).
Proof.
  intros m p off arr elem len L Hp HL Hr. unfold STRUCT_UPDATE_ARRAY. rewrite (array_size_l elem len L Hp HL).
  rewrite wrap_small by exact Hr. reflexivity.
Qed.
