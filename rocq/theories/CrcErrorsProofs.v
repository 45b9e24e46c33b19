(** Errors of few bits: which of them a CRC-32 detects, by a search through all of them. *)
From Verif Require Import Base BaseLemmas CrcModel CrcSpec CrcProofs.

(** *** Sets of integers, by their binary digits from the lowest *)

Inductive trie := Empty | Single (z : Z) | Node (even odd : trie) | Full.

Fixpoint push (fuel : nat) (y z : Z) : trie :=
  match fuel with
  | O => Full
  | S f =>
      match Z.odd y, Z.odd z with
      | false, false => Node (push f (Z.div2 y) (Z.div2 z)) Empty
      | true, true => Node Empty (push f (Z.div2 y) (Z.div2 z))
      | false, true => Node (Single (Z.div2 y)) (Single (Z.div2 z))
      | true, false => Node (Single (Z.div2 z)) (Single (Z.div2 y))
      end
  end.

Fixpoint tadd (z : Z) (t : trie) : trie :=
  match t with
  | Empty => Single z
  | Full => Full
  | Single y => if y =? z then t else push 64 y z
  | Node l r => if Z.odd z then Node l (tadd (Z.div2 z) r) else Node (tadd (Z.div2 z) l) r
  end.

Fixpoint tmem (z : Z) (t : trie) : bool :=
  match t with
  | Empty => false
  | Full => true
  | Single y => y =? z
  | Node l r => if Z.odd z then tmem (Z.div2 z) r else tmem (Z.div2 z) l
  end.

(** Whether the sum of [x] and [y] may be [m]. *)
Fixpoint xeq (fuel : nat) (m x y : Z) : bool :=
  match fuel with
  | O => true
  | S f => if eqb (xorb (Z.odd x) (Z.odd y)) (Z.odd m) then xeq f (Z.div2 m) (Z.div2 x) (Z.div2 y) else false
  end.

(** Whether the sum of [x] and an element may be [m]. *)
Fixpoint smem (m x : Z) (u : trie) : bool :=
  match u with
  | Empty => false
  | Full => true
  | Single y => xeq 64 m x y
  | Node l r => if xorb (Z.odd m) (Z.odd x) then smem (Z.div2 m) (Z.div2 x) r else smem (Z.div2 m) (Z.div2 x) l
  end.

(** Whether the sum of two elements may be [m]. *)
Fixpoint meet (m : Z) (t u : trie) : bool :=
  match t with
  | Empty => false
  | Full => true
  | Single x => smem m x u
  | Node l r =>
      match u with
      | Empty => false
      | Full => true
      | Single y => smem m y t
      | Node l' r' =>
          let m' := Z.div2 m in
          if Z.odd m then (if meet m' l r' then true else meet m' r l')
          else (if meet m' l l' then true else meet m' r r')
      end
  end.

Fixpoint meet_self (m : Z) (t : trie) : bool :=
  match t with
  | Node l r =>
      let m' := Z.div2 m in
      if Z.odd m then meet m' l r else if meet_self m' l then true else meet_self m' r
  | _ => meet m t t
  end.

Lemma odd_div2 : forall x y, Z.odd x = Z.odd y -> Z.div2 x = Z.div2 y -> x = y.
Proof. intros x y H1 H2. rewrite (Z.div2_odd x), (Z.div2_odd y), H1, H2. reflexivity. Qed.

Lemma div2_lxor : forall x y, Z.div2 (Z.lxor x y) = Z.lxor (Z.div2 x) (Z.div2 y).
Proof. intros. rewrite !Z.div2_spec. apply Z.shiftr_lxor. Qed.

Lemma odd_lxor : forall x y, Z.odd (Z.lxor x y) = xorb (Z.odd x) (Z.odd y).
Proof. intros. rewrite <- !Z.bit0_odd. apply Z.lxor_spec. Qed.

Lemma push_ok : forall f y z, tmem y (push f y z) = true /\ tmem z (push f y z) = true.
Proof.
  induction f as [|f IH]; intros y z; cbn [push tmem]; [auto|].
  destruct (IH (Z.div2 y) (Z.div2 z)) as [A B].
  destruct (Z.odd y) eqn:Ey, (Z.odd z) eqn:Ez; cbn [tmem]; rewrite Ey, Ez; auto using Z.eqb_refl.
Qed.

Lemma tmem_same : forall t z, tmem z (tadd z t) = true.
Proof.
  induction t as [|y|l IHl r IHr|]; intros z; cbn [tadd tmem]; auto using Z.eqb_refl.
  - destruct (Z.eqb_spec y z) as [->|]; [apply Z.eqb_refl|apply push_ok].
  - destruct (Z.odd z) eqn:E; cbn [tmem]; rewrite E; auto.
Qed.

Lemma tmem_mono : forall t z y, tmem z t = true -> tmem z (tadd y t) = true.
Proof.
  induction t as [|x|l IHl r IHr|]; intros z y H; cbn [tadd tmem] in *; try discriminate; auto.
  - apply Z.eqb_eq in H. subst x. destruct (Z.eqb_spec z y) as [->|]; [apply Z.eqb_refl|apply push_ok].
  - destruct (Z.odd y) eqn:Ey, (Z.odd z) eqn:Ez; cbn [tmem]; rewrite Ez; auto.
Qed.

Lemma xeq_ok : forall f m x, xeq f m x (Z.lxor m x) = true.
Proof.
  induction f as [|f IH]; intros m x; cbn [xeq]; [reflexivity|].
  rewrite odd_lxor, div2_lxor, IH. destruct (Z.odd x), (Z.odd m); reflexivity.
Qed.

Lemma smem_ok : forall u m x, tmem (Z.lxor m x) u = true -> smem m x u = true.
Proof.
  induction u as [|y|l IHl r IHr|]; intros m x H; cbn [smem tmem] in *; auto.
  - apply Z.eqb_eq in H. subst y. apply xeq_ok.
  - rewrite odd_lxor, div2_lxor in H. destruct (xorb (Z.odd m) (Z.odd x)); auto.
Qed.

Lemma xor_other : forall x m, Z.lxor m (Z.lxor m x) = x.
Proof. intros. now rewrite <- Z.lxor_assoc, Z.lxor_nilpotent, Z.lxor_0_l. Qed.

Lemma meet_ok : forall t u m x, tmem x t = true -> tmem (Z.lxor m x) u = true -> meet m t u = true.
Proof.
  induction t as [|y|l IHl r IHr|]; intros u m x H1 H2; cbn [meet]; auto.
  - cbn [tmem] in H1. apply Z.eqb_eq in H1. subst y. now apply smem_ok.
  - destruct u as [|y|l' r'|]; auto.
    + cbn [tmem] in H2. apply Z.eqb_eq in H2. subst y. apply smem_ok. now rewrite xor_other.
    + cbn [tmem] in H1, H2. rewrite odd_lxor, div2_lxor in H2.
      destruct (Z.odd m), (Z.odd x); cbn [xorb] in H2; cbv zeta.
      * rewrite (IHr _ _ _ H1 H2). now destruct (meet (Z.div2 m) l r').
      * now rewrite (IHl _ _ _ H1 H2).
      * rewrite (IHr _ _ _ H1 H2). now destruct (meet (Z.div2 m) l l').
      * now rewrite (IHl _ _ _ H1 H2).
Qed.

Lemma meet_self_ok : forall t m x, tmem x t = true -> tmem (Z.lxor m x) t = true -> meet_self m t = true.
Proof.
  induction t as [|y|l IHl r IHr|]; intros m x H1 H2; cbn [meet_self];
    try exact (meet_ok _ _ m x H1 H2).
  cbn [tmem] in H1, H2. rewrite odd_lxor, div2_lxor in H2.
  destruct (Z.odd m), (Z.odd x); cbn [xorb] in H2; cbv zeta.
  - apply (meet_ok l r (Z.div2 m) (Z.lxor (Z.div2 m) (Z.div2 x))); [assumption|]. now rewrite xor_other.
  - eapply meet_ok; eassumption.
  - rewrite (IHr _ _ H1 H2). now destruct (meet_self (Z.div2 m) l).
  - now rewrite (IHl _ _ H1 H2).
Qed.

(** *** Sums of chosen elements *)

Fixpoint xsum (mask : list bool) (l : list Z) : Z :=
  match mask, l with
  | b :: mask', x :: l' => Z.lxor (if b then x else 0) (xsum mask' l')
  | _, _ => 0
  end.

Fixpoint weight (mask : list bool) : nat :=
  match mask with [] => O | b :: m => ((if b then 1 else 0) + weight m)%nat end.

Fixpoint collect (n : nat) (acc : Z) (l : list Z) (t : trie) : trie :=
  match n with
  | O => tadd acc t
  | S n' =>
      (fix go (l : list Z) (t : trie) : trie :=
         match l with [] => t | x :: l' => go l' (collect n' (Z.lxor acc x) l' t) end) l t
  end.

Fixpoint check (n : nat) (acc : Z) (l : list Z) (t : trie) : bool :=
  match n with
  | O => negb (meet_self acc t)
  | S n' =>
      (fix go (l : list Z) : bool :=
         match l with
         | [] => true
         | x :: l' => if check n' (Z.lxor acc x) l' t then go l' else false
         end) l
  end.

Lemma weight_0 : forall mask l, weight mask = O -> xsum mask l = 0.
Proof.
  induction mask as [|b mask IH]; intros l H; cbn in *; [reflexivity|].
  destruct l as [|x l]; [reflexivity|]. destruct b; [discriminate|]. now rewrite IH.
Qed.

Lemma collect_mono : forall n z acc l t, tmem z t = true -> tmem z (collect n acc l t) = true.
Proof.
  induction n as [|n IH]; intros z acc l t H; cbn [collect].
  - now apply tmem_mono.
  - revert t H. induction l as [|x l IHl]; intros t H; [assumption|]. apply IHl. now apply IH.
Qed.

Lemma collect_all : forall n mask acc l t, weight mask = n -> (length mask <= length l)%nat ->
  tmem (Z.lxor acc (xsum mask l)) (collect n acc l t) = true.
Proof.
  induction n as [|n IH]; intros mask acc l t H Hl; cbn [collect].
  - rewrite weight_0 by assumption. rewrite Z.lxor_0_r. apply tmem_same.
  - revert mask t H Hl. induction l as [|x l IHl]; intros mask t H Hl.
    + destruct mask; cbn in *; [discriminate|lia].
    + destruct mask as [|b mask]; [discriminate|]. cbn in Hl. destruct b; cbn [xsum weight] in *.
      * rewrite <- Z.lxor_assoc.
        assert (Hin : tmem (Z.lxor (Z.lxor acc x) (xsum mask l)) (collect n (Z.lxor acc x) l t) = true)
          by (apply IH; lia).
        revert Hin. generalize (collect n (Z.lxor acc x) l t). clear IHl.
        generalize (Z.lxor (Z.lxor acc x) (xsum mask l)). clear.
        induction l as [|y l IHl]; intros z t H; [assumption|].
        apply IHl. now apply collect_mono.
      * rewrite Z.lxor_0_l. apply IHl; lia.
Qed.

Lemma check_all : forall n mask acc l t, check n acc l t = true -> weight mask = n -> (length mask <= length l)%nat ->
  meet_self (Z.lxor acc (xsum mask l)) t = false.
Proof.
  induction n as [|n IH]; intros mask acc l t H Hw Hl; cbn [check] in H.
  - rewrite weight_0 by assumption. rewrite Z.lxor_0_r. now apply negb_true_iff.
  - revert mask H Hw Hl. induction l as [|x l IHl]; intros mask H Hw Hl.
    + destruct mask; cbn in *; [discriminate|lia].
    + destruct (check n (Z.lxor acc x) l t) eqn:E; [|discriminate].
      destruct mask as [|b mask]; [discriminate|]. cbn in Hl. destruct b; cbn [xsum weight] in *.
      * rewrite <- Z.lxor_assoc. apply IH; auto; lia.
      * rewrite Z.lxor_0_l. apply IHl; auto; lia.
Qed.

(** A choice of [p + q] elements is one of [p] and one of [q]. *)
Lemma split_weight : forall p q mask, weight mask = (p + q)%nat ->
  exists m1 m2, weight m1 = p /\ weight m2 = q /\ length m1 = length mask /\ length m2 = length mask /\
    forall l, xsum mask l = Z.lxor (xsum m1 l) (xsum m2 l).
Proof.
  intros p q mask. revert p. induction mask as [|b mask IH]; intros p H; cbn in H.
  - exists [], []. cbn. repeat split; lia.
  - destruct b.
    + destruct p as [|p].
      * destruct q as [|q]; [discriminate|].
        exists (false :: repeat false (length mask)), (true :: mask).
        assert (W : forall n, weight (repeat false n) = O) by (induction n; cbn; auto).
        cbn [xsum weight length]. rewrite W, repeat_length. repeat split; try lia.
        intros [|x l]; [reflexivity|cbn [xsum]].
        rewrite (weight_0 (repeat false (length mask)) l) by apply W.
        now rewrite !Z.lxor_0_l.
      * destruct (IH p ltac:(lia)) as (m1 & m2 & W1 & W2 & L1 & L2 & E).
        exists (true :: m1), (false :: m2). cbn [xsum weight length]. repeat split; try lia.
        intros [|x l]; [reflexivity|cbn [xsum]]. rewrite E, Z.lxor_0_l. now rewrite !Z.lxor_assoc.
    + destruct (IH p ltac:(lia)) as (m1 & m2 & W1 & W2 & L1 & L2 & E).
      exists (false :: m1), (false :: m2). cbn [xsum weight length]. repeat split; try lia.
      intros [|x l]; [reflexivity|cbn [xsum]]. now rewrite E, !Z.lxor_0_l.
Qed.

(** No sum of [p + 2 q] of the elements is [s]. *)
Definition search (p q : nat) (s : Z) (l : list Z) : bool := check p s l (collect q 0 l Empty).

Lemma search_ok : forall p q s l mask, search p q s l = true -> weight mask = (p + (q + q))%nat ->
  (length mask <= length l)%nat -> xsum mask l <> s.
Proof.
  intros p q s l mask H Hw Hl E.
  destruct (split_weight p (q + q) mask Hw) as (m1 & m' & W1 & W' & L1 & L' & EX).
  destruct (split_weight q q m' W') as (m2 & m3 & W2 & W3 & L2 & L3 & EX').
  pose proof (check_all p m1 s l _ H W1 ltac:(lia)) as C1.
  pose proof (collect_all q m2 0 l Empty W2 ltac:(lia)) as C2. rewrite Z.lxor_0_l in C2.
  pose proof (collect_all q m3 0 l Empty W3 ltac:(lia)) as C3. rewrite Z.lxor_0_l in C3.
  enough (X : meet_self (Z.lxor s (xsum m1 l)) (collect q 0 l Empty) = true) by congruence.
  apply (meet_self_ok _ _ (xsum m2 l)); [assumption|].
  replace (Z.lxor (Z.lxor s (xsum m1 l)) (xsum m2 l)) with (xsum m3 l); [assumption|].
  rewrite <- E, EX, EX'. apply Z.bits_inj'. intros i _. rewrite !Z.lxor_spec.
  destruct (Z.testbit (xsum m1 l) i), (Z.testbit (xsum m2 l) i), (Z.testbit (xsum m3 l) i); reflexivity.
Qed.

Lemma weight_app : forall x y, weight (x ++ y) = (weight x + weight y)%nat.
Proof. induction x as [|[|] x IHx]; intros; cbn; rewrite ?IHx; auto. Qed.
Lemma weight_rev : forall x, weight (rev x) = weight x.
Proof. induction x as [|b x IHx]; cbn; auto. rewrite weight_app, IHx. cbn. lia. Qed.
Lemma weight_false : forall n, weight (repeat false n) = O.
Proof. induction n; cbn; auto. Qed.

Lemma last_true : forall B, weight B <> O -> exists mask c, B = rev mask ++ [true] ++ repeat false c.
Proof.
  intros B. rewrite <- (rev_involutive B). generalize (rev B). clear B. intros M.
  induction M as [|b M IH]; intros H; [now cbn in H|].
  destruct b.
  - exists M, O. reflexivity.
  - destruct IH as (mask & c & E).
    { intros E. apply H. cbn [rev]. clear H.
      assert (A : forall x y, weight (x ++ y) = (weight x + weight y)%nat)
        by (induction x as [|[|] x IHx]; intros; cbn; rewrite ?IHx; auto).
      rewrite A, E. reflexivity. }
    exists mask, (S c). cbn [rev]. rewrite E, <- !app_assoc. cbn [app]. do 2 f_equal.
    now rewrite <- repeat_cons.
Qed.

Lemma weight_diff : forall xs ys, length xs = length ys -> weight (diff xs ys) = distance xs ys.
Proof.
  induction xs as [|x xs IH]; intros [|y ys] H; cbn in *; try lia.
  unfold diff in IH. rewrite IH by lia. destruct x, y; reflexivity.
Qed.

(** *** Registers *)

Section Register.
Variables (w poly : Z).
Hypothesis Hw : 8 <= w.
Hypothesis Hpoly : 0 <= poly < 2 ^ w.
Hypothesis Hodd : Z.testbit poly 0 = true.

Local Notation step0 := (step0 w poly).
Local Notation serial := (serial_crc w poly).
Local Notation top := (top w).

Fixpoint table (n : nat) (r : Z) : list Z :=
  match n with O => [] | S n' => r :: table n' (step0 r) end.

Lemma table_length : forall n r, length (table n r) = n.
Proof using. induction n; intros; cbn; auto. Qed.

Lemma xsum_step : forall mask n r, (length mask <= n)%nat ->
  step0 (xsum mask (table n r)) = xsum mask (table n (step0 r)).
Proof using Hw Hpoly Hodd.
  induction mask as [|b mask IH]; intros n r H; cbn [length] in H.
  - cbn. apply step0_0; lia.
  - destruct n as [|n]; [lia|]. cbn [table xsum].
    rewrite step0_lin by lia. rewrite IH by lia. f_equal. destruct b; [reflexivity|]. apply step0_0; lia.
Qed.

Lemma serial_xsum : forall mask n, (length mask <= n)%nat ->
  serial 0 (rev mask) = xsum mask (table n (step0 top)).
Proof using Hw Hpoly Hodd.
  induction mask as [|b mask IH]; intros n H; cbn [length] in H; [reflexivity|].
  destruct n as [|n]; [lia|]. cbn [rev table xsum].
  rewrite serial_app, (IH n) by lia.
  change (serial (xsum mask (table n (step0 top))) [b]) with (shift_in w poly (xsum mask (table n (step0 top))) b).
  rewrite shift_in_true by lia. rewrite step0_lin by lia.
  rewrite xsum_step by lia. rewrite Z.lxor_comm. f_equal. destruct b; [reflexivity|]. apply step0_0; lia.
Qed.

Lemma few_bits : forall p q n B, search p q top (table n (step0 top)) = true ->
  weight B = S (p + (q + q)) -> (length B <= S n)%nat -> serial 0 B <> 0.
Proof using Hw Hpoly Hodd.
  intros p q n B Hs HB Hl H.
  destruct (last_true B ltac:(lia)) as (mask & c & ->).
  rewrite !weight_app, weight_rev, weight_false in HB. cbn in HB.
  rewrite !app_length, rev_length, repeat_length in Hl. cbn in Hl.
  rewrite !serial_app, serial_false in H by lia.
  rewrite (serial_xsum mask n) in H by lia.
  assert (E1 : forall r, serial r [true] = step0 (Z.lxor r top))
    by (intros r; exact (shift_in_true w poly Hw r true)).
  rewrite E1 in H. clear E1.
  assert (Hin : inr w (xsum mask (table n (step0 top)))).
  { rewrite <- serial_xsum by lia. apply serial_inr; try assumption.
    pose proof (pow_pos w Hw). unfold inr. lia. }
  apply steps_ker in H; [|assumption|assumption|assumption|apply step0_inr; assumption].
  apply step0_ker in H; [|assumption|assumption|assumption|].
  2:{ apply inr_lxor; [assumption|assumption|]. apply top_inr; assumption. }
  apply lxor_0_eq in H. revert H. apply (search_ok p q); auto; [lia|]. rewrite table_length. lia.
Qed.

Lemma window : forall xs ys s n, length xs = length ys -> differ_within s n xs ys ->
  exists a B c, diff xs ys = repeat false a ++ B ++ repeat false c /\ (length B <= n)%nat.
Proof using Hw Hpoly Hodd.
  intros xs ys s n Hl Hd.
  set (D := diff xs ys) in *.
  assert (HDl : length D = length xs) by now apply (diff_length w poly Hw Hodd).
  assert (Hout : forall i, (i < length D)%nat -> (i < s \/ s + n <= i)%nat -> nth_error D i = Some false).
  { intros i Hi Ho. apply (diff_nth w poly Hw Hodd); auto; [lia|].
    destruct (nth_error D i) as [[|]|] eqn:E.
    - exfalso. assert (nth_error xs i <> nth_error ys i).
      { intro He. apply (diff_nth w poly Hw Hodd) in He; auto; [|lia]. unfold D in E. congruence. }
      apply Hd in H. lia.
    - now apply (diff_nth w poly Hw Hodd) in E; [|auto|lia].
    - apply nth_error_None in E. lia. }
  set (A := firstn s D). set (B := firstn n (skipn s D)). set (C := skipn n (skipn s D)).
  assert (EA : A = repeat false (length A)).
  { apply (all_false w poly Hodd). intros i Hi. unfold A in *. rewrite firstn_length in Hi.
    rewrite nth_error_firstn. destruct (Nat.ltb_spec i s); [|lia]. apply Hout; lia. }
  assert (EC : C = repeat false (length C)).
  { apply (all_false w poly Hodd). intros i Hi. unfold C in *. rewrite !skipn_length in Hi.
    rewrite !nth_error_skipn. apply Hout; lia. }
  exists (length A), B, (length C). rewrite <- EA, <- EC. split.
  - unfold A, B, C. now rewrite !firstn_skipn.
  - unfold B. rewrite firstn_length. lia.
Qed.

Lemma few_detected : forall p q n xs ys r s k, search p q top (table n (step0 top)) = true ->
  length xs = length ys -> (k <= S n)%nat -> differ_within s k xs ys -> distance xs ys = S (p + (q + q)) ->
  serial r xs <> serial r ys.
Proof using Hw Hpoly Hodd.
  intros p q n xs ys r s k Hs Hl Hk Hd Hw' H.
  apply serial_diff in H; [|assumption|assumption].
  destruct (window xs ys s k Hl Hd) as (a & B & c & E & HB).
  rewrite <- weight_diff, E, !weight_app, !weight_false in Hw' by assumption.
  rewrite E, serial_zero_start, serial_app, serial_false in H by lia.
  apply steps_ker in H; [|assumption|assumption|assumption|apply serial_inr; try assumption; pose proof (pow_pos w Hw); unfold inr; lia].
  revert H. apply (few_bits p q n); auto; lia.
Qed.
End Register.
