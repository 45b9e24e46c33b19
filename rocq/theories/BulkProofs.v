From Coq Require Import ZifyBool ZifyNat.
From Verif Require Import Base BaseLemmas CbufModel CbufSpec CbufProofs BulkModel BulkSpec BulkSystem.

(** * Positions of a ring *)

Lemma ring_eq : forall n x y, 0 < n -> x mod n = y mod n -> -n < x - y < n -> x = y.
Proof.
  intros n x y Hn H Hd. pose proof (Z.div_mod x n ltac:(lia)). pose proof (Z.div_mod y n ltac:(lia)).
  assert (x / n = y / n) by nia. nia.
Qed.

Lemma ring_range : forall n x, 0 < n -> 0 <= x mod n < n.
Proof. intros. apply Z.mod_pos_bound. lia. Qed.

(** Distance of two positions. *)
Lemma ring_dist : forall n H T, 0 < n -> 0 <= H - T < n ->
  T mod n <= H mod n /\ H - T = H mod n - T mod n \/ H mod n < T mod n /\ H - T = n + H mod n - T mod n.
Proof.
  intros n H T Hn Hd. pose proof (ring_range n T Hn).
  assert (E : H mod n = (T mod n + (H - T)) mod n) by (rewrite Zplus_mod_idemp_l; f_equal; lia).
  rewrite (mod_cases (T mod n + (H - T))) in E by lia. destruct (Z.ltb_spec (T mod n + (H - T)) n); lia.
Qed.

(** Cells before the end of the region follow each other. *)
Lemma ring_flat : forall n x k, 0 < n -> 0 <= k -> x mod n + k < n -> (x + k) mod n = x mod n + k.
Proof.
  intros n x k Hn Hk H. pose proof (ring_range n x Hn). rewrite <- Zplus_mod_idemp_l. apply Z.mod_small. lia.
Qed.

Lemma ring_room : forall n H T, 0 < n -> 0 <= H - T < n -> (T mod n - H mod n - 1) mod n = n - 1 - (H - T).
Proof.
  intros n H T Hn Hd. destruct (ring_dist n H T Hn Hd) as [[L E]|[L E]]; pose proof (ring_range n T Hn); pose proof (ring_range n H Hn).
  - symmetry. apply Z.mod_unique with (q := -1); lia.
  - symmetry. apply Z.mod_unique with (q := 0); lia.
Qed.

Lemma zlen_app : forall A (a b : list A), zlen (a ++ b) = zlen a + zlen b.
Proof. intros. unfold zlen. rewrite app_length. lia. Qed.

Lemma zlen_firstn : forall A (l : list A) k, 0 <= k <= zlen l -> zlen (firstn (Z.to_nat k) l) = k.
Proof. intros A l k H. unfold zlen in *. rewrite firstn_length. lia. Qed.

Lemma firstn_plus : forall A (l : list A) a b, firstn (a + b) l = firstn a l ++ firstn b (skipn a l).
Proof. intros A l a. revert l. induction a; intros l b; [reflexivity|]. destruct l; cbn; [now rewrite firstn_nil|]. now rewrite IHa. Qed.

Lemma skipn_plus : forall A (l : list A) a b, skipn (a + b) l = skipn b (skipn a l).
Proof. intros A l a. revert l. induction a; intros l b; [reflexivity|]. destruct l; cbn; [now rewrite skipn_nil|]. now rewrite IHa. Qed.

(** * Parts of a stream *)

Lemma part_app : forall A (s x : list A) i k, 0 <= i -> 0 <= k -> i + k <= zlen s -> part (s ++ x) i k = part s i k.
Proof.
  intros A s x i k Hi Hk H. unfold part, zlen in *. rewrite skipn_app, firstn_app. rewrite skipn_length.
  replace (Z.to_nat k - (length s - Z.to_nat i))%nat with 0%nat by lia. cbn [firstn]. apply app_nil_r.
Qed.

Lemma part_snoc : forall A (s : list A) i k v, 0 <= i -> 0 <= k -> nth_error s (Z.to_nat (i + k)) = Some v -> part s i (k + 1) = part s i k ++ [v].
Proof.
  intros A s i k v Hi Hk H. unfold part. rewrite Z2Nat.inj_add by lia. rewrite firstn_plus. f_equal. rewrite <- skipn_plus.
  rewrite <- Z2Nat.inj_add by lia. change (Z.to_nat 1) with 1%nat.
  assert (E : nth_error (skipn (Z.to_nat (i + k)) s) 0 = Some v) by (rewrite nth_error_skipn, Nat.add_0_r; exact H).
  destruct (skipn _ s); [discriminate E|]. injection E as ->. reflexivity.
Qed.

Section BulkProofs.
Context {A : Type}.
Variable n : Z.
Hypothesis Hn : 1 <= n <= INT_MAX.

Lemma after_ok : forall (c : cbuf A) x k, bufsize c = n -> 0 <= x < n -> 0 <= k <= n -> after c x k = (x + k) mod n.
Proof using Hn.
  intros c x k Hb Hx Hk. unfold after. unfold INT_MAX in Hn. rewrite (wrap64_small k) by lia. rewrite wrap64_small by lia. now rewrite Hb.
Qed.

(** [pub] is everything ever published by a store of head, the first [T] elements have been removed. *)
Record core (c : cbuf A) (pub : list A) (T : Z) : Prop := mkCore {
  c_size : bufsize c = n; c_len : zlen (buffer c) = n;
  c_head : head c = zlen pub mod n; c_tail : tail c = T mod n;
  c_taken : 0 <= T <= zlen pub; c_room : zlen pub <= T + n - 1;
  c_cells : forall j, T <= j < zlen pub -> nth_error (buffer c) (Z.to_nat (j mod n)) = nth_error pub (Z.to_nat j) }.

Lemma full_l : forall c pub T, core c pub T -> (after c (zlen pub mod n) 1 =? tail c) = (zlen pub =? T + n - 1).
Proof using Hn.
  intros c pub T C. rewrite (after_ok c) by first [apply C|apply ring_range; lia|lia]. rewrite Zplus_mod_idemp_l, (c_tail _ _ _ C).
  pose proof (c_taken _ _ _ C). pose proof (c_room _ _ _ C).
  destruct (Z.eqb_spec (zlen pub) (T + n - 1)) as [E|E].
  - rewrite E. replace (T + n - 1 + 1) with (T + 1 * n) by lia. rewrite Z_mod_plus_full. apply Z.eqb_refl.
  - apply Z.eqb_neq. intros H'. apply E. apply (ring_eq n (zlen pub + 1) T) in H'; lia.
Qed.

Lemma full_at : forall (c : cbuf A) T H, bufsize c = n -> 0 <= H - T <= n - 1 -> (after c (H mod n) 1 =? T mod n) = (H =? T + n - 1).
Proof using Hn.
  intros c T H Hb Hd. rewrite (after_ok c) by first [exact Hb|apply ring_range; lia|lia]. rewrite Zplus_mod_idemp_l.
  destruct (Z.eqb_spec H (T + n - 1)) as [E|E].
  - rewrite E. replace (T + n - 1 + 1) with (T + 1 * n) by lia. rewrite Z_mod_plus_full. apply Z.eqb_refl.
  - apply Z.eqb_neq. intros H'. apply E. apply (ring_eq n (H + 1) T) in H'; lia.
Qed.

Lemma size_at : forall T H, 0 <= H - T <= n - 1 ->
  (if T mod n <=? H mod n then wrap 64 (H mod n - T mod n) else wrap 64 (n + H mod n - T mod n)) = H - T.
Proof using Hn.
  intros T H Hd. unfold INT_MAX in Hn. pose proof (ring_dist n H T ltac:(lia) ltac:(lia)) as D. pose proof (ring_range n H ltac:(lia)) as R1. pose proof (ring_range n T ltac:(lia)) as R2.
  generalize dependent (H mod n). generalize dependent (T mod n). intros t R2 h D R1. destruct (Z.leb_spec t h); rewrite wrap64_small by lia; lia.
Qed.

(** The chunk of a read of [r] elements at [P], the head having been [H]. *)
Lemma get_chunk_at : forall P H r, 0 < r -> r <= H - P <= n - 1 -> let chunk0 := if P mod n <? H mod n then wrap 64 (H mod n - P mod n) else wrap 64 (n - wrap 64 (P mod n)) in
  let chunk := if r <? chunk0 then r else chunk0 in 1 <= chunk <= r /\ P mod n + chunk <= n.
Proof using Hn.
  intros P H r Hr Hd. unfold INT_MAX in Hn. pose proof (ring_dist n H P ltac:(lia) ltac:(lia)) as D. pose proof (ring_range n H ltac:(lia)) as R1. pose proof (ring_range n P ltac:(lia)) as R2.
  generalize dependent (H mod n). generalize dependent (P mod n). intros t R2 h D R1. cbv zeta. rewrite (wrap64_small t) by lia. rewrite (wrap64_small (n - t)) by lia.
  destruct (Z.ltb_spec t h); [rewrite (wrap64_small (h - t)) by lia|]; match goal with |- context [?a <? ?b] => destruct (Z.ltb_spec a b) end; lia.
Qed.

(** Storing into a free cell. *)
Lemma core_store : forall c pub T i a, core c pub T -> 0 <= i -> zlen pub + i <= T + n - 1 ->
  core (with_buffer c (upd (buffer c) (Z.to_nat ((zlen pub + i) mod n)) a)) pub T.
Proof using Hn.
  intros c pub T i a [C1 C2 C3 C4 C5 C6 C7] Hi Hr. split; cbn [buffer bufsize head tail with_buffer]; auto.
  - now rewrite zlen_upd.
  - intros j Hj. rewrite nth_error_upd_neq; [now apply C7|]. intros E.
    apply Z2Nat.inj in E; [|apply ring_range; lia|apply ring_range; lia]. clear C7. apply (ring_eq n (zlen pub + i) j) in E; [lia|lia|lia].
Qed.

(** Publishing [x], stored in the free cells. *)
Lemma core_publish : forall c pub T x, core c pub T -> zlen pub + zlen x <= T + n - 1 -> zlen x <= n ->
  (forall i, 0 <= i < zlen x -> nth_error (buffer c) (Z.to_nat ((zlen pub + i) mod n)) = nth_error x (Z.to_nat i)) ->
  core (with_head c (after c (zlen pub mod n) (zlen x))) (pub ++ x) T.
Proof using Hn.
  intros c pub T x [C1 C2 C3 C4 C5 C6 C7] Hr Hx Hc. pose proof (zlen_nonneg _ x) as Hx0. pose proof (zlen_nonneg _ pub) as Hp0.
  split; cbn [buffer bufsize head tail with_head]; auto.
  - rewrite after_ok by first [exact C1|apply ring_range; lia|lia]. now rewrite Zplus_mod_idemp_l, zlen_app.
  - rewrite zlen_app. lia.
  - rewrite zlen_app. lia.
  - intros j Hj. rewrite zlen_app in Hj. destruct (Z.lt_ge_cases j (zlen pub)) as [L|L].
    + rewrite C7 by lia. rewrite nth_error_app1 by (unfold zlen in *; lia). reflexivity.
    + rewrite nth_error_app2 by (unfold zlen in *; lia).
      replace j with (zlen pub + (j - zlen pub)) at 1 by lia. rewrite Hc by lia. f_equal. unfold zlen in *. lia.
Qed.

(** Removing [k] elements. *)
Lemma core_remove : forall c pub T k, core c pub T -> 0 <= k -> T + k <= zlen pub -> k <= n ->
  core (with_tail c (after c (T mod n) k)) pub (T + k).
Proof using Hn.
  intros c pub T k [C1 C2 C3 C4 C5 C6 C7] Hk Hr Hkn. split; cbn [buffer bufsize head tail with_tail]; auto; try lia.
  - rewrite after_ok by first [exact C1|apply ring_range; lia|lia]. now rewrite Zplus_mod_idemp_l.
  - intros j Hj. apply C7. lia.
Qed.

(** * The producer *)

(** The state of a puts that has written [w] elements of [data]: the tail was [Ts] when it began. *)
Definition puts_inv (pub ps : list A) (T : Z) (o : op A) (l : puts_locals A) (w : Z) : Prop :=
  exists data len Ts, o = Puts data len /\ len <= zlen data /\ len <= n /\ 0 <= u_written l <= w /\ w <= len /\
    u_len l = len - u_written l /\ u_data l = skipn (Z.to_nat (u_written l)) data /\
    0 <= Ts <= T /\ u_tail l = Ts mod n /\ pub = ps ++ firstn (Z.to_nat w) data /\ zlen pub + (len - w) <= Ts + n - 1.

Definition chunk_inv (pub : list A) (l : puts_locals A) (chunk : Z) : Prop :=
  u_head l = zlen pub mod n /\ 1 <= chunk <= u_len l /\ u_head l + chunk <= n.

(** The first [i] elements of the chunk are in the free cells. *)
Definition copied (b : list A) (l : puts_locals A) (i : Z) : Prop :=
  forall j, 0 <= j < i -> nth_error b (Z.to_nat (u_head l + j)) = nth_error (u_data l) (Z.to_nat j).

Definition pinv (b : list A) (pub ps : list A) (T : Z) (o : op A) (pc : ppc A) : Prop :=
  match pc with
  | PFull0 a => o = Putc a /\ pub = ps
  | PFull1 a h => o = Putc a /\ pub = ps /\ h = zlen pub mod n
  | PCell0 a => o = Putc a /\ pub = ps /\ zlen pub + 1 <= T + n - 1
  | PCell1 a h => o = Putc a /\ pub = ps /\ zlen pub + 1 <= T + n - 1 /\ h = zlen pub mod n
  | PAdv0 a | PHead0 a => o = Putc a /\ pub = ps /\ zlen pub + 1 <= T + n - 1 /\ nth_error b (Z.to_nat (zlen pub mod n)) = Some a
  | PAdv1 a h | PHead1 a h =>
      o = Putc a /\ pub = ps /\ zlen pub + 1 <= T + n - 1 /\ nth_error b (Z.to_nat (zlen pub mod n)) = Some a /\ h = zlen pub mod n
  | UHead0 data len => o = Puts data len /\ pub = ps /\ 0 <= len <= zlen data /\ zlen pub + len <= T + n - 1
  | UTail0 data len h => o = Puts data len /\ pub = ps /\ 0 <= len <= zlen data /\ zlen pub + len <= T + n - 1 /\ h = zlen pub mod n
  | ULoop0 l => puts_inv pub ps T o l (u_written l) /\ u_head l = zlen pub mod n
  | ULoop1 l h => puts_inv pub ps T o l (u_written l) /\ u_head l = zlen pub mod n /\ h = zlen pub mod n
  | UCopy l chunk i => puts_inv pub ps T o l (u_written l) /\ chunk_inv pub l chunk /\ 0 <= i <= chunk /\ copied b l i
  | UAdv0 l chunk | USet0 l chunk => puts_inv pub ps T o l (u_written l) /\ chunk_inv pub l chunk /\ copied b l chunk
  | UAdv1 l chunk h | USet1 l chunk h =>
      puts_inv pub ps T o l (u_written l) /\ chunk_inv pub l chunk /\ copied b l chunk /\ h = zlen pub mod n
  | URet l chunk => puts_inv pub ps T o l (u_written l + chunk) /\ 1 <= chunk <= u_len l
  end.

(** Steps still to go. *)
Definition pcost (pc : ppc A) : Z :=
  match pc with
  | PFull0 _ => 8 | PFull1 _ _ => 7 | PCell0 _ => 6 | PCell1 _ _ => 5 | PAdv0 _ => 4 | PAdv1 _ _ => 3 | PHead0 _ => 2 | PHead1 _ _ => 1
  | UHead0 _ len => 4 + 9 * len | UTail0 _ len _ => 3 + 9 * len
  | ULoop0 l => 2 + 9 * u_len l | ULoop1 l _ => 1 + 9 * u_len l
  | UCopy l chunk i => 8 + (chunk - i) + 9 * (u_len l - chunk)
  | UAdv0 l chunk => 7 + 9 * (u_len l - chunk) | UAdv1 l chunk _ => 6 + 9 * (u_len l - chunk)
  | USet0 l chunk => 5 + 9 * (u_len l - chunk) | USet1 l chunk _ => 4 + 9 * (u_len l - chunk)
  | URet l chunk => 3 + 9 * (u_len l - chunk)
  end.

Lemma pinv_mono : forall b pub ps T T' o pc, T <= T' -> pinv b pub ps T o pc -> pinv b pub ps T' o pc.
Proof using Hn.
  assert (M : forall pub ps T T' o l w, T <= T' -> puts_inv pub ps T o l w -> puts_inv pub ps T' o l w).
  { intros pub ps T T' o l w L (data & len & Ts & H). exists data, len, Ts. intuition lia. }
  intros b pub ps T T' o [] L H; cbn [pinv] in *; try solve [intuition (eauto; lia)].
Qed.

(** The chunk of the code: at least one element, not past the end of the region. *)
Lemma chunk_l : forall c pub ps T o l, core c pub T -> puts_inv pub ps T o l (u_written l) -> u_head l = zlen pub mod n -> 0 < u_len l ->
  chunk_inv pub l (chunk_of c l).
Proof using Hn.
  intros c pub ps T o l C (data & len & Ts & _ & _ & L & W1 & W2 & Hl & _ & HT & Ht & _ & Hr) Hh Hpos.
  unfold chunk_inv. split; [exact Hh|]. unfold chunk_of. rewrite (c_size _ _ _ C). pose proof (c_taken _ _ _ C).
  pose proof (ring_dist n (zlen pub) Ts ltac:(lia) ltac:(lia)) as D.
  pose proof (ring_range n (zlen pub) ltac:(lia)) as Rh. pose proof (ring_range n Ts ltac:(lia)) as Rt. rewrite <- Hh, <- Ht in *.
  assert (Rl : u_len l <= n) by lia. assert (Rr : zlen pub + u_len l <= Ts + n - 1) by lia. clear - Hn D Rh Rt Rl Rr Hpos.
  generalize dependent (u_head l). generalize dependent (u_tail l). generalize dependent (u_len l). intros ul Hp Rl Rr t Rt h D Rh. unfold INT_MAX in Hn.
  rewrite !(wrap64_small (n - h)), (wrap64_small (n - h - 1)) by lia.
  assert (W : t <= h \/ wrap 64 (t - h) = t - h) by (destruct (Z.le_gt_cases t h); [now left|right; apply wrap64_small; lia]).
  rewrite swrap32_small.
  - destruct (Z.leb_spec t h); [destruct (Z.eqb_spec t 0)|]; repeat match goal with |- context [?a <? ?b] => destruct (Z.ltb_spec a b) end; lia.
  - destruct (Z.leb_spec t h); [destruct (Z.eqb_spec t 0)|]; repeat match goal with |- context [?a <? ?b] => destruct (Z.ltb_spec a b) end; lia.
Qed.

(** What a returning producer call leaves. *)
Definition presult (T : Z) (pub : list A) (o : op A) (r : Z) (d : list A) : Prop :=
  match o with
  | Putc _ => d = [] /\ (r = 0 \/ r = -1 /\ n - 1 <= zlen pub - T)
  | Puts data len => d = [] /\ r = len /\ len <= zlen data
  | _ => False
  end.

Lemma puts_len : forall pub ps T o l w, puts_inv pub ps T o l w -> 0 <= u_len l.
Proof using Hn. intros pub ps T o l w (data & len & Ts & H). lia. Qed.

Ltac stay := exists []; rewrite ?app_nil_r; split; [assumption|]; split; [cbn [pinv buffer]|cbn [pcost u_len]; lia].

Lemma pnext_ok : forall c pub ps T o pc, core c pub T -> pinv (buffer c) pub ps T o pc ->
  match pnext c pc with
  | Go c' pc' => exists x, core c' (pub ++ x) T /\ pinv (buffer c') (pub ++ x) ps T o pc' /\ 0 < pcost pc' < pcost pc
  | Ret c' r d => exists x, core c' (pub ++ x) T /\ (forall b, pub ++ x = ps ++ given (o, (r, d), b)) /\ presult T ps o r d /\ 0 < pcost pc
  | Bad => False
  end.
Proof using Hn.
  intros c pub ps T o pc C P. pose proof (c_head _ _ _ C) as Ch. pose proof (full_l _ _ _ C) as F.
  destruct pc; cbn [pnext pinv] in *; rewrite ?Ch.
  - (* PFull0 *) stay. tauto.
  - (* PFull1 *) destruct P as (Eo & Ep & ->). rewrite F. destruct (Z.eqb_spec (zlen pub) (T + n - 1)) as [E|E].
    + exists []. rewrite app_nil_r. split; [exact C|]. subst o ps. split; [intros b; cbn; now rewrite app_nil_r|]. cbn. repeat split; lia.
    + stay. pose proof (c_room _ _ _ C). repeat split; auto; lia.
  - (* PCell0 *) stay. tauto.
  - (* PCell1 *) destruct P as (Eo & Ep & Hr & ->). rewrite zset_ok by (rewrite (c_len _ _ _ C); apply ring_range; lia).
    exists []. rewrite app_nil_r. pose proof (core_store c pub T 0 a C ltac:(lia) ltac:(lia)) as S. rewrite Z.add_0_r in S.
    split; [exact S|]. split; [|cbn; lia]. cbn [pinv buffer with_buffer]. repeat split; auto.
    apply nth_error_upd_eq. pose proof (c_len _ _ _ C) as L. unfold zlen in L. pose proof (ring_range n (zlen pub) ltac:(lia)). lia.
  - (* PAdv0 *) stay. tauto.
  - (* PAdv1 *) destruct P as (Eo & Ep & Hr & Hc & ->). rewrite F. destruct (Z.eqb_spec (zlen pub) (T + n - 1)); [lia|]. stay. tauto.
  - (* PHead0 *) stay. tauto.
  - (* PHead1 *) destruct P as (Eo & Ep & Hr & Hc & ->). exists [a]. split.
    { apply (core_publish c pub T [a] C); [exact Hr|cbn; lia|]. intros i Hi. assert (i = 0) by (cbn in Hi; lia). subst i. now rewrite Z.add_0_r. }
    subst o ps. repeat split; cbn; lia.
  - (* UHead0 *) stay. tauto.
  - (* UTail0 *) destruct P as (Eo & Ep & Hl & Hr & ->). pose proof (c_taken _ _ _ C). pose proof (c_tail _ _ _ C) as Ct. stay. split; [|reflexivity].
    exists data, len, T. cbn [u_written u_len u_data u_tail]. change (Z.to_nat 0) with 0%nat. cbn [firstn skipn]. rewrite app_nil_r. repeat split; auto; lia.
  - (* ULoop0 *) pose proof (puts_len _ _ _ _ _ _ (proj1 P)). stay. tauto.
  - (* ULoop1 *) destruct P as (P & Hh & ->). pose proof (puts_len _ _ _ _ _ _ P) as Hl. rewrite F.
    assert (R : u_len l = 0 -> exists x, core c (pub ++ x) T /\ (forall b, pub ++ x = ps ++ given (o, (u_written l, []), b)) /\ presult T ps o (u_written l) [] /\ 0 < 1 + 9 * u_len l).
    { intros E. exists []. rewrite app_nil_r. split; [exact C|]. destruct P as (data & len & Ts & -> & Hd & _ & W1 & _ & Hu & _ & _ & _ & -> & _). split; [reflexivity|]. repeat split; lia. }
    destruct (Z.eqb_spec (zlen pub) (T + n - 1)) as [E|E]; [|destruct (Z.ltb_spec 0 (u_len l)) as [Hp|Hp]]; cbn [negb andb].
    + apply R. clear R. destruct P as (data & len & Ts & P). lia.
    + pose proof (chunk_l _ _ _ _ _ _ C P Hh Hp) as K. destruct K as (K1 & K2 & K3). stay. repeat split; auto; try lia. intros j Hj; lia.
    + apply R. lia.
  - (* UCopy *) destruct P as (P & (Kh & K1 & K2) & Hi & Hc). destruct (Z.ltb_spec i chunk) as [L|L].
    + assert (Hd : zlen (u_data l) >= u_len l /\ zlen pub + u_len l <= T + n - 1).
      { destruct P as (data & len & Ts & _ & Hd & _ & W1 & _ & Hu & -> & HT & _ & _ & Hr). unfold zlen in *. rewrite skipn_length. lia. }
      destruct Hd as [Hd Hr]. pose proof (ring_range n (zlen pub) ltac:(lia)) as Rh.
      destruct (nth_error (u_data l) (Z.to_nat i)) as [a|] eqn:Ea; [|apply nth_error_None in Ea; unfold zlen in Hd; lia].
      unfold zget. destruct (Z.ltb_spec i 0); [lia|]. rewrite Ea. rewrite zset_ok by (rewrite (c_len _ _ _ C); lia).
      exists []. rewrite app_nil_r. assert (Em : (zlen pub + i) mod n = u_head l + i) by (rewrite Kh; apply ring_flat; lia).
      pose proof (core_store c pub T i a C ltac:(lia) ltac:(lia)) as S. rewrite Em in S. split; [exact S|]. split; [|cbn [pcost]; lia].
      cbn [pinv buffer with_buffer]. split; [exact P|]. split; [repeat split; auto; lia|]. split; [lia|].
      intros j Hj. destruct (Z.eq_dec j i) as [->|Ne].
      * rewrite Ea. apply nth_error_upd_eq. pose proof (c_len _ _ _ C) as Lb. unfold zlen in Lb. lia.
      * rewrite nth_error_upd_neq by lia. apply Hc. lia.
    + assert (i = chunk) by lia. subst i. stay. repeat split; auto; lia.
  - (* UAdv0 *) pose proof (puts_len _ _ _ _ _ _ (proj1 P)). destruct P as (P & (K1 & K2 & K3) & K4). stay. repeat split; auto; lia.
  - (* UAdv1 *) destruct P as (P & (K1 & K2 & K3) & K4 & ->). rewrite F.
    assert (zlen pub + u_len l <= T + n - 1) by (clear - P Hn; destruct P as (data & len & Ts & P); lia).
    destruct (Z.eqb_spec (zlen pub) (T + n - 1)); [lia|]. destruct (Z.eqb_spec chunk 0); [lia|]. cbn [orb]. stay. repeat split; auto; lia.
  - (* USet0 *) destruct P as (P & (K1 & K2 & K3) & K4). stay. repeat split; auto; lia.
  - (* USet1 *) destruct P as (P & (K1 & K2 & K3) & K4 & ->).
    assert (Hd : chunk <= zlen (u_data l) /\ zlen pub + u_len l <= T + n - 1).
    { destruct P as (data & len & Ts & _ & Hd & _ & W1 & _ & Hu & -> & HT & _ & _ & Hr). unfold zlen in *. rewrite skipn_length. lia. }
    destruct Hd as [Hd Hr]. pose proof (zlen_firstn _ (u_data l) chunk ltac:(lia)) as Lx. pose proof (ring_range n (zlen pub) ltac:(lia)) as Rh.
    exists (firstn (Z.to_nat chunk) (u_data l)). split.
    { rewrite <- Lx at 1. apply core_publish; [exact C|lia|lia|]. rewrite Lx. intros i Hi. rewrite ring_flat by lia. rewrite <- K1, K4 by lia.
      rewrite nth_error_firstn. destruct (Nat.ltb_spec (Z.to_nat i) (Z.to_nat chunk)); [reflexivity|lia]. }
    split; [|cbn [pcost]; lia]. cbn [pinv]. split; [|lia].
    destruct P as (data & len & Ts & -> & Hdl & Hln & W1 & W2 & Hu & Hud & HT & Ht & -> & Hr'). exists data, len, Ts.
    repeat split; auto; try lia.
    + rewrite <- app_assoc, Hud. f_equal. rewrite Z2Nat.inj_add by lia. symmetry. apply firstn_plus.
    + rewrite zlen_app, Lx. lia.
  - (* URet *) destruct P as (P & K). destruct P as (data & len & Ts & -> & Hdl & Hln & W1 & W2 & Hu & Hud & HT & Ht & Ep & Hr).
    unfold INT_MAX in Hn. rewrite (wrap64_small chunk), (wrap64_small (u_len l - chunk)), (swrap32_small (u_written l + chunk)) by lia.
    stay. cbn [u_written u_head]. split; [|reflexivity]. exists data, len, Ts. cbn [u_written u_len u_data u_tail]. repeat split; auto; try lia.
    rewrite Hud, <- skipn_plus. f_equal. lia.
Qed.

(** * The consumer *)

(** A bulk read of [len] elements. *)
Definition bulk (o : op A) (len : Z) (present consume : bool) : Prop :=
  0 <= len <= n - 1 /\
  match present, consume with
  | true, false => o = Peek len | true, true => o = Gets len | false, true => o = Drop len | false, false => False
  end.

(** It is settled that the read yields [L] elements. *)
Definition settled (len L before base : Z) : Prop := 0 <= L <= len /\ Z.min len (before - base) <= L.

(** The state of a bulk read that has copied [y] elements, [x] of them removed if it removes. *)
Definition get_inv (pub : list A) (T base before : Z) (o : op A) (l : get_locals A) (p k : bool) (x y : Z) : Prop :=
  exists len L Hs, bulk o len p k /\ settled len L before base /\ 0 <= base /\ 0 <= g_read l /\ 0 <= g_len l /\ g_read l + g_len l = L /\
    T = base + (if k then x else 0) /\ g_head l = Hs mod n /\ base + L <= Hs <= zlen pub /\ 0 <= y <= L /\
    g_data l = if p then part pub base y else [].

Definition get_chunk_inv (T base : Z) (l : get_locals A) (chunk : Z) : Prop :=
  g_tail l = (base + g_read l) mod n /\ 1 <= chunk <= g_len l /\ g_tail l + chunk <= n.

Definition cinv (pub : list A) (T base before : Z) (o : op A) (pc : cpc A) : Prop :=
  match pc with
  | CEmpty0 => o = Getc /\ T = base
  | CEmpty1 h => o = Getc /\ T = base /\ exists Hs, h = Hs mod n /\ before <= Hs /\ T <= Hs <= zlen pub
  | CCell0 => o = Getc /\ T = base /\ T < zlen pub
  | CCell1 t => o = Getc /\ T = base /\ T < zlen pub /\ t = T mod n
  | CTail0 v => o = Getc /\ T = base /\ nth_error pub (Z.to_nat T) = Some v
  | CTail1 v t => o = Getc /\ T = base /\ nth_error pub (Z.to_nat T) = Some v /\ t = T mod n
  | GSize0 len p k => bulk o len p k /\ T = base
  | GSize1 len p k t => bulk o len p k /\ T = base /\ t = T mod n
  | GSize2 len p k t h => bulk o len p k /\ T = base /\ t = T mod n /\ exists Hs, h = Hs mod n /\ before <= Hs /\ T <= Hs <= zlen pub
  | GSize3 len p k t h fh => bulk o len p k /\ T = base /\ t = T mod n /\
      exists Hs Hf, h = Hs mod n /\ before <= Hs /\ T <= Hs <= Hf /\ Hf <= zlen pub /\ fh = Hf mod n
  | GTail0 L p k => exists len, bulk o len p k /\ T = base /\ settled len L before base /\ base + L <= zlen pub
  | GHead0 L p k t => exists len, bulk o len p k /\ T = base /\ settled len L before base /\ base + L <= zlen pub /\ t = T mod n
  | GLoop l p k => get_inv pub T base before o l p k (g_read l) (g_read l) /\ g_tail l = (base + g_read l) mod n
  | GCopy l p k chunk i => get_inv pub T base before o l p k (g_read l) (g_read l + i) /\ get_chunk_inv T base l chunk /\ p = true /\ 0 <= i <= chunk
  | GAdv0 l p k chunk => get_inv pub T base before o l p k (g_read l) (g_read l + chunk) /\ get_chunk_inv T base l chunk
  | GAdv1 l p chunk t => get_inv pub T base before o l p true (g_read l) (g_read l + chunk) /\ get_chunk_inv T base l chunk /\ t = T mod n
  | GAdv2 l p => get_inv pub T base before o l p true (g_read l) (g_read l)
  end.

Definition ccost (pc : cpc A) : Z :=
  match pc with
  | CEmpty0 => 6 | CEmpty1 _ => 5 | CCell0 => 4 | CCell1 _ => 3 | CTail0 _ => 2 | CTail1 _ _ => 1
  | GSize0 len _ _ => 7 + 6 * len | GSize1 len _ _ _ => 6 + 6 * len | GSize2 len _ _ _ _ => 5 + 6 * len | GSize3 len _ _ _ _ _ => 4 + 6 * len
  | GTail0 len _ _ => 3 + 6 * len | GHead0 len _ _ _ => 2 + 6 * len
  | GLoop l _ _ => 1 + 6 * g_len l
  | GCopy l _ _ chunk i => 5 + (chunk - i) + 6 * (g_len l - chunk)
  | GAdv0 l _ _ chunk => 4 + 6 * (g_len l - chunk) | GAdv1 l _ chunk _ => 3 + 6 * (g_len l - chunk)
  | GAdv2 l _ => 2 + 6 * g_len l
  end.

Lemma cinv_mono : forall pub x T base before o pc, 0 <= base -> cinv pub T base before o pc -> cinv (pub ++ x) T base before o pc.
Proof using Hn.
  intros pub x T base before o pc Hb. pose proof (zlen_app _ pub x) as Ez. pose proof (zlen_nonneg _ x) as Hx.
  assert (M : forall l p k a y, get_inv pub T base before o l p k a y -> get_inv (pub ++ x) T base before o l p k a y).
  { intros l p k a y (len & L & Hs & H1 & H2 & H3 & H4 & H5 & H6 & H7 & H8 & H9 & H10 & H11). exists len, L, Hs.
    repeat split; try tauto; try lia; try apply H1; try apply H2. destruct p; [|exact H11]. rewrite part_app by lia. exact H11. }
  destruct pc; cbn [cinv]; try solve [intuition lia].
  - intros (H1 & H2 & Hs & H3). repeat split; auto. exists Hs. intuition lia.
  - intros (H1 & H2 & H3). repeat split; auto. rewrite nth_error_app1; [exact H3|]. apply nth_error_Some. congruence.
  - intros (H1 & H2 & H3 & H4). repeat split; auto. rewrite nth_error_app1; [exact H3|]. apply nth_error_Some. congruence.
  - intros (H1 & H2 & H3 & Hs & H4). repeat split; auto; try apply H1. exists Hs. intuition lia.
  - intros (H1 & H2 & H3 & Hs & Hf & H4). repeat split; auto; try apply H1. exists Hs, Hf. intuition lia.
  - intros (len' & H). exists len'. intuition lia.
  - intros (len' & H). exists len'. intuition lia.
  - intros (H1 & H2). auto.
  - intros (H1 & H2). auto.
  - intros (H1 & H2). auto.
  - intros (H1 & H2). auto.
  - auto.
Qed.

Definition cresult (pub : list A) (base before : Z) (o : op A) (r : Z) (d : list A) : Prop :=
  match o with
  | Getc => r = 0 /\ base < zlen pub /\ d = part pub base 1 \/ r = -1 /\ d = [] /\ before <= base
  | Gets len | Peek len => amount pub base before len r /\ d = part pub base r
  | Drop len => amount pub base before len r /\ d = []
  | _ => False
  end.

(** lia without the hypotheses on remainders, if they are not needed. *)
Ltac zl := first [solve [repeat match goal with H : context [_ mod _] |- _ => clear H | H : context [swrap] |- _ => clear H end; lia] | lia].

Ltac cstay := exists 0; rewrite ?Z.add_0_r; split; [zl|]; split; [assumption|]; split; [reflexivity|]; split; [cbn [cinv]|cbn [ccost g_len]; zl].

Definition cstep_ok (c : cbuf A) (pub : list A) (T base before : Z) (o : op A) (pc : cpc A) : Prop :=
  core c pub T -> before <= zlen pub -> cinv pub T base before o pc ->
  match cnext c pc with
  | Go c' pc' => exists k, 0 <= k /\ core c' pub (T + k) /\ buffer c' = buffer c /\ cinv pub (T + k) base before o pc' /\ 0 < ccost pc' < ccost pc
  | Ret c' r d => exists k, 0 <= k /\ core c' pub (T + k) /\ buffer c' = buffer c /\ (forall b, T + k = base + removed (o, (r, d), b)) /\
      cresult pub base before o r d /\ 0 < ccost pc
  | Bad => False
  end.

Ltac cprep :=
  unfold cstep_ok; intros C Hb P;
  match goal with C : core ?c ?pub ?T |- _ =>
  pose proof (c_head _ _ _ C) as Ch; pose proof (c_tail _ _ _ C) as Ct; pose proof (c_taken _ _ _ C) as HT; pose proof (c_room _ _ _ C) as HR;
  pose proof (c_size _ _ _ C) as Cs; pose proof (c_len _ _ _ C) as Cl;
  pose proof (ring_range n T ltac:(lia)) as RT; pose proof (ring_range n (zlen pub) ltac:(lia)) as RH
  end;
  assert (S32 : forall x, 0 <= x < n -> swrap 32 x = x) by (unfold INT_MAX in Hn; intros x Hx; apply swrap32_small; lia);
  cbn [cnext cinv] in *; match goal with C : core _ _ _ |- _ => rewrite ?(c_head _ _ _ C), ?(c_tail _ _ _ C) end.

Lemma CEmpty0_ok : forall c pub T base before o, cstep_ok c pub T base before o CEmpty0.
Proof using Hn.
  intros c pub T base before o. cprep.
  cstay. destruct P as (P1 & P2). repeat split; auto. exists (zlen pub). repeat split; auto; lia.
Qed.

Lemma CEmpty1_ok : forall c pub T base before o h, cstep_ok c pub T base before o (CEmpty1 h).
Proof using Hn.
  intros c pub T base before o h. cprep.
  destruct P as (-> & -> & Hs & -> & H1 & H2). destruct (Z.eqb_spec (Hs mod n) (base mod n)) as [E|E].
    + apply ring_eq in E; [|lia|lia]. exists 0. rewrite Z.add_0_r. repeat split; auto; try lia; try apply C. cbn. lia. cbn. right. repeat split; lia.
    + cstay. repeat split; auto. assert (Hs <> base) by (intros ->; now apply E). lia.
Qed.

Lemma CCell0_ok : forall c pub T base before o, cstep_ok c pub T base before o CCell0.
Proof using Hn.
  intros c pub T base before o. cprep.
  cstay. tauto.
Qed.

Lemma CCell1_ok : forall c pub T base before o t, cstep_ok c pub T base before o (CCell1 t).
Proof using Hn.
  intros c pub T base before o t. cprep.
  destruct P as (P1 & P2 & P3 & ->). pose proof (c_cells _ _ _ C T ltac:(lia)) as Hc. 
    destruct (nth_error pub (Z.to_nat T)) as [v|] eqn:Ev; [|apply nth_error_None in Ev; unfold zlen in *; lia].
    unfold zget. destruct (Z.ltb_spec (T mod n) 0); [lia|]. rewrite Hc. cstay. auto.
Qed.

Lemma CTail0_ok : forall c pub T base before o v, cstep_ok c pub T base before o (CTail0 v).
Proof using Hn.
  intros c pub T base before o v. cprep.
  cstay. tauto.
Qed.

Lemma CTail1_ok : forall c pub T base before o v t, cstep_ok c pub T base before o (CTail1 v t).
Proof using Hn.
  intros c pub T base before o v t. cprep.
  destruct P as (-> & -> & Ev & ->). assert (Hv : base < zlen pub) by (unfold zlen; assert (nth_error pub (Z.to_nat base) <> None) by congruence; rewrite nth_error_Some in *; lia).
    exists 1. split; [lia|]. split; [apply core_remove; [exact C|lia|lia|lia]|]. split; [reflexivity|]. split; [reflexivity|]. split; [|cbn; lia].
    cbn. left. repeat split; auto. symmetry. exact (part_snoc _ pub base 0 v ltac:(lia) ltac:(lia) ltac:(rewrite Z.add_0_r; exact Ev)).
Qed.

Lemma GSize0_ok : forall c pub T base before o len present consume, cstep_ok c pub T base before o (GSize0 len present consume).
Proof using Hn.
  intros c pub T base before o len present consume. cprep.
  assert (0 <= len) by (destruct P as [[B _] _]; lia). rewrite S32 by lia. cstay. tauto.
Qed.

Lemma GSize1_ok : forall c pub T base before o len present consume t, cstep_ok c pub T base before o (GSize1 len present consume t).
Proof using Hn.
  intros c pub T base before o len present consume t. cprep.
  assert (0 <= len) by (destruct P as [[B _] _]; lia). rewrite S32 by lia. cstay. destruct P as (P1 & P2 & P3). split; [exact P1|]. split; [exact P2|]. split; [exact P3|]. exists (zlen pub). repeat split; auto; lia.
Qed.

Lemma GSize2_ok : forall c pub T base before o len present consume t h, cstep_ok c pub T base before o (GSize2 len present consume t h).
Proof using Hn.
  intros c pub T base before o len present consume t h. cprep.
  assert (0 <= len) by (destruct P as [[B _] _]; lia). cstay. destruct P as (P1 & P2 & P3 & Hs & P4). split; [exact P1|]. split; [exact P2|]. split; [exact P3|]. exists Hs, (zlen pub). intuition lia.
Qed.

Lemma GSize3_ok : forall c pub T base before o len present consume t h fh, cstep_ok c pub T base before o (GSize3 len present consume t h fh).
Proof using Hn.
  intros c pub T base before o len present consume t h fh. cprep.
  destruct P as (B & -> & -> & Hs & Hf & -> & H1 & H2 & H3 & ->). rewrite (full_at c base Hf Cs) by lia. rewrite Cs.
    assert (0 <= len <= n - 1) by (destruct B; lia).
    set (size := if negb _ then _ else _).
    assert (Sz : len <= size /\ base + len <= zlen pub \/ size = Hs - base).
    { unfold size. destruct (Z.eqb_spec Hf (base + n - 1)) as [E|E]; cbn [negb]; [left; lia|right].
      apply size_at. lia. }
    clearbody size. clear S32 RH RT Ch Ct. destruct (Z.ltb_spec len size) as [L|L]; cstay; exists len; unfold settled; repeat split; auto; try lia; apply B.
Qed.

Lemma GTail0_ok : forall c pub T base before o len present consume, cstep_ok c pub T base before o (GTail0 len present consume).
Proof using Hn.
  intros c pub T base before o len present consume. cprep.
  destruct P as (len' & B & E & S & H). pose proof (proj1 S). rewrite S32 by lia. cstay. exists len'. auto.
Qed.

Lemma GHead0_ok : forall c pub T base before o len present consume t, cstep_ok c pub T base before o (GHead0 len present consume t).
Proof using Hn.
  intros c pub T base before o len present consume t. cprep.
  destruct P as (len' & B & E & S & H & ->). pose proof (proj1 S). rewrite S32 by lia. cstay. split; [|cbn [g_tail g_read]; f_equal; lia].
    exists len', len, (zlen pub). cbn [g_read g_len g_head g_data]. repeat split; auto; try lia; try apply B; try apply S. destruct consume; lia. now destruct present.
Qed.

Lemma GLoop_ok : forall c pub T base before o l present consume, cstep_ok c pub T base before o (GLoop l present consume).
Proof using Hn.
  intros c pub T base before o l present consume. cprep.
  destruct P as (P & Et). pose proof P as P'. destruct P' as (len & L & Hs & B & S & H0 & H1 & H2 & H3 & H4 & H5 & H6 & H7 & H8).
    destruct (Z.ltb_spec 0 (g_len l)) as [Hp|Hp].
    + assert (K : get_chunk_inv T base l (get_chunk c l)) by
        (unfold get_chunk_inv, get_chunk; split; [exact Et|]; rewrite Et, H5, Cs; apply get_chunk_at; [exact Hp|clear - H3 H4 H6 HR HT H1 Hp; destruct consume; zl]).
      destruct K as (K1 & K2 & K3). destruct present.
      * cstay. split; [now rewrite Z.add_0_r|]. repeat split; auto; zl.
      * cstay. split; [|repeat split; auto; zl]. exists len, L, Hs. repeat split; auto; try apply B; try apply S; zl.
    + exists 0. rewrite Z.add_0_r. split; [zl|]. split; [exact C|]. split; [reflexivity|]. assert (g_read l = L) by zl. 
      destruct B as [B1 B2]. destruct S as [S1 S2]. split; [|split; [|cbn [ccost]; zl]].
      * intros b. destruct present, consume; try contradiction; subst o; cbn; zl.
      * unfold cresult, amount. fold (zlen pub). destruct present, consume; try contradiction; subst o; repeat split; auto; zl.
Qed.

Lemma GCopy_ok : forall c pub T base before o l present consume chunk i, cstep_ok c pub T base before o (GCopy l present consume chunk i).
Proof using Hn.
  intros c pub T base before o l present consume chunk i. cprep.
  destruct P as (P & (K1 & K2 & K3) & -> & Hi). destruct P as (len & L & Hs & B & S & H0 & H1 & H2 & H3 & H4 & H5 & H6 & H7 & H8).
    destruct (Z.ltb_spec i chunk) as [Li|Li].
    + pose proof (ring_range n (base + g_read l) ltac:(lia)) as Rt.
      assert (Em : (base + g_read l + i) mod n = g_tail l + i) by (rewrite K1; apply ring_flat; zl).
      assert (Hj : T <= base + g_read l + i < zlen pub) by (destruct consume; zl).
      pose proof (c_cells _ _ _ C _ Hj) as Hc. rewrite Em in Hc.
      destruct (nth_error pub (Z.to_nat (base + g_read l + i))) as [v|] eqn:Ev; [|apply nth_error_None in Ev; unfold zlen in *; zl].
      unfold zget. destruct (Z.ltb_spec (g_tail l + i) 0) as [Hz|Hz]; [exfalso; rewrite K1 in Hz; clear - Rt Hi Hz; lia|]. rewrite Hc. cstay.
      split; [|repeat split; auto; cbn [g_read g_len g_tail]; zl]. exists len, L, Hs. cbn [g_read g_len g_tail g_head g_data].
      repeat split; auto; try apply B; try apply S; try zl. rewrite H8, Z.add_assoc. symmetry. apply part_snoc; [zl|zl|]. now rewrite Z.add_assoc.
    + assert (i = chunk) by zl. subst i. cstay. split; [|repeat split; auto; zl]. exists len, L, Hs. repeat split; auto; try apply B; try apply S; zl.
Qed.

Lemma GAdv0_ok : forall c pub T base before o l present consume chunk, cstep_ok c pub T base before o (GAdv0 l present consume chunk).
Proof using Hn.
  intros c pub T base before o l present consume chunk. cprep.
  destruct P as (P & (K1 & K2 & K3)). destruct consume.
    + cstay. repeat split; auto; zl.
    + destruct P as (len & L & Hs & B & S & H0 & H1 & H2 & H3 & H4 & H5 & H6 & H7 & H8). destruct B as [B1 B2].
      pose proof (ring_range n (base + g_read l) ltac:(lia)) as Rt. pose proof (ring_range n (base + g_read l + chunk) ltac:(lia)) as Rt2. unfold INT_MAX in Hn. assert (Gt : 0 <= g_tail l < n) by (rewrite K1; exact Rt).
      rewrite (wrap64_small (g_tail l)), (wrap64_small (g_tail l + chunk)), Cs by (clear - Gt K2 K3 Hn; lia).
      rewrite K1, Zplus_mod_idemp_l, S32 by zl. clear Rt Rt2 S32 RT RH Ch Ct Cl. unfold advance. rewrite (wrap64_small (g_len l - chunk)), (swrap32_small (g_read l + chunk)) by (destruct S; zl).
      cstay. cbn [g_read g_tail]. split; [|now rewrite Z.add_assoc]. exists len, L, Hs. cbn [g_read g_len g_tail g_head g_data]. repeat split; auto; try apply S; zl.
Qed.

Lemma GAdv1_ok : forall c pub T base before o l present chunk t, cstep_ok c pub T base before o (GAdv1 l present chunk t).
Proof using Hn.
  intros c pub T base before o l present chunk t. cprep.
  destruct P as (P & (K1 & K2 & K3) & ->). destruct P as (len & L & Hs & B & S & H0 & H1 & H2 & H3 & H4 & H5 & H6 & H7 & H8). pose proof B as [B1 B2].
    clear S32 RT RH Ch Ct Cl. unfold advance. unfold INT_MAX in Hn. rewrite (swrap32_small chunk), (wrap64_small (g_len l - chunk)), (swrap32_small (g_read l + chunk)) by (destruct S; zl).
    exists chunk. split; [zl|]. split; [apply core_remove; [exact C|zl|zl|zl]|]. split; [reflexivity|]. split; [|cbn [ccost g_len]; zl].
    cbn [cinv]. exists len, L, Hs. cbn [g_read g_len g_tail g_head g_data]. repeat split; auto; try apply S; try zl.
Qed.

Lemma GAdv2_ok : forall c pub T base before o l present, cstep_ok c pub T base before o (GAdv2 l present).
Proof using Hn.
  intros c pub T base before o l present. cprep.
  rewrite S32 by zl. pose proof P as (len & L & Hs & B & S & H0 & H1 & H2 & H3 & H4 & H5 & H6 & H7 & H8). cstay. cbn [g_read g_tail]. split; [|now rewrite H4].
    exists len, L, Hs. cbn [g_read g_len g_tail g_head g_data]. repeat split; auto; try apply B; try apply S; zl.
Qed.

Lemma cnext_ok : forall c pub T base before o pc, cstep_ok c pub T base before o pc.
Proof using Hn.
  intros. destruct pc;
    first [apply CEmpty0_ok | apply CEmpty1_ok | apply CCell0_ok | apply CCell1_ok | apply CTail0_ok | apply CTail1_ok | apply GSize0_ok | apply GSize1_ok | apply GSize2_ok | apply GSize3_ok | apply GTail0_ok | apply GHead0_ok | apply GLoop_ok | apply GCopy_ok | apply GAdv0_ok | apply GAdv1_ok | apply GAdv2_ok].
Qed.

(** * The system *)

Notation event := (op A * out A * Z)%type.

Lemma sent_app : forall a b : list event, sent (a ++ b) = sent a ++ sent b.
Proof using Hn. intros. apply flat_map_app. Qed.

Lemma taken_app : forall a b : list event, taken (a ++ b) = taken a + taken b.
Proof using Hn. intros a b. induction a as [|e a IH]; [reflexivity|]. cbn [app taken fold_right]. fold (taken (a ++ b)). fold (taken a). lia. Qed.

Lemma produced_snoc : forall cap (h : list event) k o r d b, produced cap k h ->
  match o with
  | Putc _ => d = [] /\ (r = 0 \/ r = -1 /\ cap <= k + zlen (sent h) - b)
  | Puts data len => d = [] /\ r = len /\ len <= zlen data
  | _ => False
  end -> produced cap k (h ++ [(o, (r, d), b)]).
Proof using Hn.
  intros cap h. induction h as [|e h IH]; intros k o r d b H1 H2.
  - cbn [app produced sent flat_map] in *. split; [|exact I]. destruct o; try contradiction; [|exact H2]. replace (k + zlen []) with k in H2 by (cbn; lia). exact H2.
  - cbn [app produced] in *. destruct H1 as [H1 H3]. split; [exact H1|]. apply IH; [exact H3|]. destruct o; auto.
    cbn [sent flat_map] in H2. rewrite zlen_app in H2. fold (sent h) in H2. unfold zlen in *. intuition lia.
Qed.

Lemma consumed_app : forall (h : list event) stream x k, 0 <= k -> consumed stream k h -> consumed (stream ++ x) k h.
Proof using Hn.
  induction h as [|e h IH]; intros stream x k Hk H; [exact I|]. cbn [consumed] in *. destruct H as [H1 H2].
  assert (L : Z.of_nat (length stream) <= Z.of_nat (length (stream ++ x))) by (rewrite app_length; lia).
  destruct e as [[[] [r d]] b]; try contradiction; unfold amount in *.
  - split; [|apply IH; [|exact H2]].
    + destruct H1 as [(H3 & H4 & H5)|H1]; [left|right; exact H1]. repeat split; auto; [lia|]. rewrite part_app by (unfold zlen; lia). exact H5.
    + destruct H1 as [(-> & _)|(-> & _)]; cbn; lia.
  - destruct H1 as [H1 ->]. split; [|apply IH; [cbn; lia|exact H2]]. split; [lia|]. now rewrite part_app by (unfold zlen; lia).
  - destruct H1 as [H1 ->]. split; [|apply IH; [cbn; lia|exact H2]]. split; [lia|]. now rewrite part_app by (unfold zlen; lia).
  - destruct H1 as [H1 ->]. split; [|apply IH; [cbn; lia|exact H2]]. split; [lia|]. reflexivity.
Qed.

Lemma consumed_snoc : forall (h : list event) stream k o r d b, consumed stream k h -> cresult stream (k + taken h) b o r d -> consumed stream k (h ++ [(o, (r, d), b)]).
Proof using Hn.
  induction h as [|e h IH]; intros stream k o r d b H1 H2.
  - cbn [app consumed]. split; [|exact I]. unfold cresult in H2. cbn [taken fold_right] in H2. rewrite Z.add_0_r in H2. destruct o; exact H2.
  - cbn [app consumed] in *. destruct H1 as [H1 H3]. split; [exact H1|]. apply IH; [exact H3|]. cbn [taken fold_right] in H2. fold (taken h) in H2. now rewrite <- Z.add_assoc.
Qed.

(** What the producer has published: finished calls and part of the running one. *)
Lemma pinv_pub : forall b pub ps T o pc, pinv b pub ps T o pc -> exists w, pub = ps ++ firstn w (offered o).
Proof using Hn.
  intros b pub ps T o pc H.
  assert (N : pub = ps -> exists w, pub = ps ++ firstn w (offered o)) by (intros ->; exists 0%nat; symmetry; apply app_nil_r).
  assert (U : forall l w, puts_inv pub ps T o l w -> exists w, pub = ps ++ firstn w (offered o)).
  { intros l w (data & len & Ts & -> & _ & _ & _ & _ & _ & _ & _ & _ & -> & _). now exists (Z.to_nat w). }
  destruct pc; cbn [pinv] in H; try (apply N; tauto); eapply U; apply H.
Qed.

Lemma cinv_taken : forall pub T base before o pc, cinv pub T base before o pc -> base <= T <= base + asked o.
Proof using Hn.
  intros pub T base before o pc H.
  assert (G : forall l p k x y, x <= g_read l -> 0 <= x -> get_inv pub T base before o l p k x y -> base <= T <= base + asked o).
  { intros l p k x y Hx Hx0 (len & L & Hs & [B1 B2] & [S1 S2] & H0 & H1 & H2 & H3 & H4 & _). destruct p, k; try contradiction; subst o; cbn; lia. }
  assert (K : forall len p k, bulk o len p k -> T = base -> base <= T <= base + asked o).
  { intros len p k [B1 B2] ->. destruct p, k; try contradiction; subst o; cbn; lia. }
  assert (G0 : forall l p k x y, get_inv pub T base before o l p k x y -> 0 <= g_read l) by (intros l p k x y (len & L & Hs & _ & _ & _ & H1 & _); exact H1).
  destruct pc; cbn [cinv] in H; try (destruct H as (-> & -> & _); cbn; lia); try (destruct H as (-> & ->); cbn; lia);
    try (destruct H as (B & E & _); exact (K _ _ _ B E)); try (destruct H as (B & E); exact (K _ _ _ B E));
    try (destruct H as (len' & B & E & _); exact (K _ _ _ B E)); first [refine (G _ _ _ _ _ _ (G0 _ _ _ _ _ H) H); lia|destruct H as (H & _); refine (G _ _ _ _ _ _ (G0 _ _ _ _ _ H) H); lia].
Qed.

Definition inv (s : sys A) : Prop :=
  exists pub T, core (sh s) pub T /\ bad s = false /\
    (produced (n - 1) 0 (returned (producer s)) /\
     match running (producer s) with
     | None => pub = sent (returned (producer s))
     | Some (o, pc) => pinv (buffer (sh s)) pub (sent (returned (producer s))) T o pc /\ began (producer s) <= T /\
         steps (producer s) + pcost pc <= 9 * asked o + 4 /\ 0 < pcost pc
     end) /\
    (consumed pub 0 (returned (consumer s)) /\ 0 <= taken (returned (consumer s)) /\
     match running (consumer s) with
     | None => T = taken (returned (consumer s))
     | Some (o, pc) => cinv pub T (taken (returned (consumer s))) (began (consumer s)) o pc /\ began (consumer s) <= zlen pub /\
         steps (consumer s) + ccost pc <= 6 * asked o + 7 /\ 0 < ccost pc
     end).

Lemma start_inv : forall (region : list A) c, zlen region = n -> circular_buf_init region n = Some c -> inv (start c).
Proof using Hn.
  intros region c Hl H. unfold circular_buf_init in H. destruct (Z.leb_spec n 0); [lia|]. injection H as <-. exists [], 0.
  split; [|cbn; repeat split; auto; lia]. split; cbn [buffer bufsize head tail sh start circular_buf_reset]; try (change (zlen (@nil A)) with 0); auto; try lia; try (symmetry; apply Z.mod_0_l; lia).
Qed.

(** The other thread's part is not disturbed. *)
Lemma consumer_mono : forall pub x T (t : thread A (cpc A)),
  consumed pub 0 (returned t) /\ 0 <= taken (returned t) /\
  match running t with
  | None => T = taken (returned t)
  | Some (o, pc) => cinv pub T (taken (returned t)) (began t) o pc /\ began t <= zlen pub /\ steps t + ccost pc <= 6 * asked o + 7 /\ 0 < ccost pc
  end ->
  consumed (pub ++ x) 0 (returned t) /\ 0 <= taken (returned t) /\
  match running t with
  | None => T = taken (returned t)
  | Some (o, pc) => cinv (pub ++ x) T (taken (returned t)) (began t) o pc /\ began t <= zlen (pub ++ x) /\ steps t + ccost pc <= 6 * asked o + 7 /\ 0 < ccost pc
  end.
Proof using Hn.
  intros pub x T t (H1 & H2 & H3). split; [now apply consumed_app|]. split; [exact H2|]. destruct (running t) as [[o pc]|]; [|exact H3].
  destruct H3 as (H3 & H4 & H5). split; [now apply cinv_mono|]. split; [|exact H5]. rewrite zlen_app. pose proof (zlen_nonneg _ x). lia.
Qed.

Lemma producer_mono : forall b pub T k (t : thread A (ppc A)), 0 <= k ->
  produced (n - 1) 0 (returned t) /\
  match running t with
  | None => pub = sent (returned t)
  | Some (o, pc) => pinv b pub (sent (returned t)) T o pc /\ began t <= T /\ steps t + pcost pc <= 9 * asked o + 4 /\ 0 < pcost pc
  end ->
  produced (n - 1) 0 (returned t) /\
  match running t with
  | None => pub = sent (returned t)
  | Some (o, pc) => pinv b pub (sent (returned t)) (T + k) o pc /\ began t <= T + k /\ steps t + pcost pc <= 9 * asked o + 4 /\ 0 < pcost pc
  end.
Proof using Hn.
  intros b pub T k t Hk (H1 & H3). split; [exact H1|]. destruct (running t) as [[o pc]|]; [|exact H3].
  destruct H3 as (H3 & H4 & H5). split; [apply (pinv_mono _ _ _ T); [lia|exact H3]|]. split; [lia|exact H5].
Qed.

Lemma step_inv : forall s s', inv s -> step s s' -> inv s'.
Proof using Hn.
  intros s s' (pub & T & C & Bd & P & K) St. destruct St as [o pc Hr Hc|o pc Hr m|o pc Hr Hc|o pc Hr m].
  - (* call of the producer *)
    exists pub, T. split; [exact C|]. split; [exact Bd|]. split; [|exact K]. cbn [producer returned running began steps sh buffer].
    destruct P as [P1 P2]. rewrite Hr in P2. split; [exact P1|].
    assert (TT : taken (returned (consumer s)) <= T).
    { destruct K as (_ & _ & K). destruct (running (consumer s)) as [[o' pc']|]; [|lia]. destruct K as (K & _). apply cinv_taken in K. lia. }
    destruct o; try contradiction; cbn [pcall] in Hc.
    + subst pc. cbn [pinv pcost asked]. repeat split; auto; lia.
    + destruct Hc as (-> & H1 & H2). cbn [pinv pcost asked]. unfold room in H1.
      rewrite (c_head _ _ _ C), (c_tail _ _ _ C), (c_size _ _ _ C), ring_room in H1 by (pose proof (c_taken _ _ _ C); pose proof (c_room _ _ _ C); lia). repeat split; auto; lia.
  - (* step of the producer *)
    destruct P as [P1 P2]. rewrite Hr in P2. destruct P2 as (P2 & P3 & P4 & P5). pose proof (pnext_ok _ _ _ _ _ _ C P2) as N. fold m in N.
    destruct m as [c' pc'|c' r d|]; [| |contradiction].
    + destruct N as (x & C' & N & Hcost). exists (pub ++ x), T. cbn [sh bad producer consumer shared moved is_bad]. split; [exact C'|]. split; [now rewrite Bd|].
      split; [|now apply consumer_mono]. cbn [returned running began steps]. repeat split; auto; lia.
    + destruct N as (x & C' & N & R & Hcost). exists (pub ++ x), T. cbn [sh bad producer consumer shared moved is_bad]. split; [exact C'|]. split; [now rewrite Bd|].
      split; [|now apply consumer_mono]. cbn [returned running began steps]. split.
      * apply produced_snoc; [exact P1|]. unfold presult in R. destruct o; try contradiction; auto. rewrite Z.add_0_l. intuition lia.
      * rewrite sent_app. cbn [sent flat_map]. rewrite app_nil_r. apply N.
  - (* call of the consumer *)
    exists pub, T. split; [exact C|]. split; [exact Bd|]. split; [exact P|]. cbn [consumer returned running began steps sh buffer].
    destruct K as (K1 & K2 & K3). rewrite Hr in K3. split; [exact K1|]. split; [exact K2|].
    assert (TT : zlen (sent (returned (producer s))) <= zlen pub).
    { destruct P as (_ & P). destruct (running (producer s)) as [[o' pc']|]; [|subst pub; lia]. destruct P as (P & _). apply pinv_pub in P. destruct P as [w ->]. rewrite zlen_app. pose proof (zlen_nonneg _ (firstn w (offered o'))). lia. }
    unfold INT_MAX in Hn.
    destruct o; try contradiction; cbn [ccall] in Hc; try (subst pc; cbn [cinv ccost asked]; repeat split; auto; lia);
      destruct Hc as (-> & H1); rewrite (c_size _ _ _ C) in H1; rewrite wrap64_small by lia; cbn [cinv ccost asked]; repeat split; auto; lia.
  - (* step of the consumer *)
    destruct K as (K1 & K2 & K3). rewrite Hr in K3. destruct K3 as (K3 & K4 & K5 & K6). pose proof (cnext_ok (sh s) pub T (taken (returned (consumer s))) (began (consumer s)) o pc C K4 K3) as N. fold m in N.
    destruct m as [c' pc'|c' r d|]; [| |contradiction].
    + destruct N as (k & Hk & C' & Eb & N & Hcost). exists pub, (T + k). cbn [sh bad producer consumer shared moved is_bad]. split; [exact C'|]. split; [now rewrite Bd|].
      split; [rewrite Eb; now apply producer_mono|]. cbn [returned running began steps]. repeat split; auto; lia.
    + destruct N as (k & Hk & C' & Eb & N & R & Hcost). exists pub, (T + k). cbn [sh bad producer consumer shared moved is_bad]. split; [exact C'|]. split; [now rewrite Bd|].
      split; [rewrite Eb; now apply producer_mono|]. cbn [returned running began steps]. rewrite taken_app. cbn [taken fold_right]. rewrite Z.add_0_r.
      specialize (N (began (consumer s))). apply cinv_taken in K3. split; [apply consumed_snoc; [exact K1|now rewrite Z.add_0_l]|]. split; lia.
Qed.

Lemma reachable_inv : forall (region : list A) c s, zlen region = n -> circular_buf_init region n = Some c -> reachable c s -> inv s.
Proof using Hn. intros region c s Hl Hi R. induction R; [now apply (start_inv region)|]. now apply (step_inv s). Qed.

(** * Conclusions *)

Lemma fifo_l : forall s, inv s ->
  bad s = false /\
  exists w, let stream := sent (returned (producer s)) ++ firstn w (pending (producer s)) in
    produced (n - 1) 0 (returned (producer s)) /\ consumed stream 0 (returned (consumer s)) /\
    taken (returned (consumer s)) <= zlen stream <= taken (returned (consumer s)) + leaving (consumer s) + (n - 1).
Proof using Hn.
  intros s (pub & T & C & Bd & (P1 & P2) & (K1 & K2 & K3)). split; [exact Bd|].
  assert (E : exists w, pub = sent (returned (producer s)) ++ firstn w (pending (producer s))).
  { unfold pending. destruct (running (producer s)) as [[o pc]|]; [apply (pinv_pub _ _ _ _ _ _ (proj1 P2))|]. exists 0%nat. now rewrite app_nil_r. }
  destruct E as [w E]. exists w. rewrite <- E. cbv zeta. split; [exact P1|]. split; [exact K1|].
  pose proof (c_taken _ _ _ C). pose proof (c_room _ _ _ C). unfold leaving. destruct (running (consumer s)) as [[o pc]|]; [|lia].
  destruct K3 as (K3 & _). apply cinv_taken in K3. lia.
Qed.

Lemma writes_l : forall b pub ps T o pc i, pinv b pub ps T o pc -> writes pc = Some i -> exists P, i = P mod n /\ zlen pub <= P <= T + n - 2.
Proof using Hn.
  intros b pub ps T o pc i H W. destruct pc; cbn [writes] in W; try discriminate W; cbn [pinv] in H.
  - injection W as <-. destruct H as (_ & _ & H & ->). exists (zlen pub). split; [reflexivity|lia].
  - destruct (Z.ltb_spec i0 chunk); [|discriminate W]. injection W as <-. destruct H as (P & (K1 & K2 & K3) & H & _).
    exists (zlen pub + i0). pose proof (ring_range n (zlen pub) ltac:(lia)). split; [rewrite K1; symmetry; apply ring_flat; lia|].
    destruct P as (data & len & Ts & _ & _ & _ & _ & _ & Hu & _ & HT & _ & _ & Hr). lia.
Qed.

Lemma reads_l : forall pub T base before o pc j, cinv pub T base before o pc -> reads pc = Some j -> exists Q, j = Q mod n /\ T <= Q < zlen pub.
Proof using Hn.
  intros pub T base before o pc j H R. destruct pc; cbn [reads] in R; try discriminate R; cbn [cinv] in H.
  - injection R as <-. destruct H as (_ & _ & H & ->). exists T. split; [reflexivity|lia].
  - destruct (Z.ltb_spec i chunk); [|discriminate R]. injection R as <-. destruct H as (P & (K1 & K2 & K3) & _ & H).
    exists (base + g_read l + i). pose proof (ring_range n (base + g_read l) ltac:(lia)). split; [rewrite K1; symmetry; apply ring_flat; lia|].
    destruct P as (len & L & Hs & _ & _ & Q0 & Q1 & Q2 & Q3 & Q4 & _ & Q5 & _). clear K1 K3. destruct consume; lia.
Qed.

Lemma race_l : forall s op_ pc oc cc i j, inv s -> running (producer s) = Some (op_, pc) -> running (consumer s) = Some (oc, cc) ->
  writes pc = Some i -> reads cc = Some j -> i <> j.
Proof using Hn.
  intros s op_ pc oc cc i j (pub & T & C & _ & (_ & P) & (_ & _ & K)) Rp Rc W R E. rewrite Rp in P. rewrite Rc in K.
  destruct (writes_l _ _ _ _ _ _ _ (proj1 P) W) as (x & -> & Hx). destruct (reads_l _ _ _ _ _ _ _ (proj1 K) R) as (y & -> & Hy).
  clear - Hn E Hx Hy. apply ring_eq in E; lia.
Qed.

Lemma steps_l : forall s, inv s ->
  (forall o pc, running (producer s) = Some (o, pc) -> steps (producer s) < 9 * asked o + 4) /\
  (forall o pc, running (consumer s) = Some (o, pc) -> steps (consumer s) < 6 * asked o + 7).
Proof using Hn.
  intros s (pub & T & C & _ & (_ & P) & (_ & _ & K)). split; intros o pc R.
  - rewrite R in P. lia.
  - rewrite R in K. lia.
Qed.

End BulkProofs.

(** * Executing a schedule, for examples *)
Section Exec.
Context {A : Type}.
Inductive action := PCall (o : op A) | PStep | CCall (o : op A) | CStep.

Definition exec1 (s : sys A) (a : action) : option (sys A) :=
  match a, running (producer s), running (consumer s) with
  | PCall (Putc a), None, _ => Some (mkSys (sh s) (mkThread (returned (producer s)) (Some (Putc a, PFull0 a)) (taken (returned (consumer s))) 0) (consumer s) (bad s))
  | PCall (Puts d len), None, _ =>
      if (0 <=? len) && (len <=? room (sh s)) && (len <=? zlen d)
      then Some (mkSys (sh s) (mkThread (returned (producer s)) (Some (Puts d len, UHead0 d len)) (taken (returned (consumer s))) 0) (consumer s) (bad s)) else None
  | PStep, Some (o, pc), _ => let m := pnext (sh s) pc in Some (mkSys (shared (sh s) m) (moved (producer s) o m) (consumer s) (bad s || is_bad m))
  | CCall Getc, _, None => Some (mkSys (sh s) (producer s) (mkThread (returned (consumer s)) (Some (Getc, CEmpty0)) (zlen (sent (returned (producer s)))) 0) (bad s))
  | CCall (Gets len), _, None =>
      if (0 <=? len) && (len <=? bufsize (sh s) - 1)
      then Some (mkSys (sh s) (producer s) (mkThread (returned (consumer s)) (Some (Gets len, GSize0 (wrap 64 len) true true)) (zlen (sent (returned (producer s)))) 0) (bad s)) else None
  | CStep, _, Some (o, pc) => let m := cnext (sh s) pc in Some (mkSys (shared (sh s) m) (producer s) (moved (consumer s) o m) (bad s || is_bad m))
  | _, _, _ => None
  end.

Fixpoint exec (s : sys A) (l : list action) : option (sys A) :=
  match l with [] => Some s | a :: l => match exec1 s a with Some s => exec s l | None => None end end.

Lemma exec1_step : forall s a s', exec1 s a = Some s' -> step s s'.
Proof.
  intros s a s' H. unfold exec1 in H. destruct a as [o| |o|].
  - destruct o; try discriminate H; destruct (running (producer s)) eqn:R; try discriminate H.
    + injection H as <-. apply p_call; [exact R|reflexivity].
    + destruct ((0 <=? len) && (len <=? room (sh s)) && (len <=? zlen data)) eqn:E; [|discriminate H]. injection H as <-. apply p_call; [exact R|]. cbn. split; [reflexivity|]. lia.
  - destruct (running (producer s)) as [[o pc]|] eqn:R; [|discriminate H]. injection H as <-. now apply p_step.
  - destruct o; try discriminate H; destruct (running (producer s)) as [[? ?]|]; destruct (running (consumer s)) eqn:R; try discriminate H;
      try (injection H as <-; apply c_call; [exact R|reflexivity]);
      destruct ((0 <=? len) && (len <=? bufsize (sh s) - 1)) eqn:E; try discriminate H; injection H as <-; apply c_call; [exact R|cbn; split; [reflexivity|lia]|exact R|cbn; split; [reflexivity|lia]].
  - destruct (running (consumer s)) as [[o pc]|] eqn:R; [|destruct (running (producer s)) as [[? ?]|]; discriminate H].
    destruct (running (producer s)) as [[? ?]|]; injection H as <-; now apply c_step.
Qed.

Lemma exec_reachable : forall c l s s', reachable c s -> exec s l = Some s' -> reachable c s'.
Proof.
  intros c l. induction l as [|a l IH]; intros s s' R H; cbn [exec] in H; [now injection H as <-|].
  destruct (exec1 s a) as [s1|] eqn:E; [|discriminate H]. apply (IH s1); [|exact H]. apply (r_step c s); [exact R|]. now apply (exec1_step s a).
Qed.
End Exec.
