(** Lemmas about [Base]. *)
From Coq Require Import ZifyBool ZifyNat.
From Verif Require Import Base.

Lemma wrap_small : forall w x, 0 <= x < 2 ^ w -> wrap w x = x.
Proof. intros; unfold wrap; now apply Z.mod_small. Qed.

Lemma wrap_range : forall w x, 0 <= w -> 0 <= wrap w x < 2 ^ w.
Proof. intros; unfold wrap; apply Z.mod_pos_bound; lia. Qed.

Lemma wrap64_small : forall x, 0 <= x < 18446744073709551616 -> wrap 64 x = x.
Proof. intros; now apply wrap_small. Qed.

Lemma wrap32_small : forall x, 0 <= x < 4294967296 -> wrap 32 x = x.
Proof. intros; now apply wrap_small. Qed.

Lemma wrap16_small : forall x, 0 <= x < 65536 -> wrap 16 x = x.
Proof. intros; now apply wrap_small. Qed.

Lemma swrap_small : forall w x, 0 < w -> - 2 ^ (w - 1) <= x < 2 ^ (w - 1) -> swrap w x = x.
Proof.
  intros w x Hw Hx. unfold swrap.
  assert (E : 2 ^ w = 2 * 2 ^ (w - 1)).
  { replace w with (Z.succ (w - 1)) at 1 by lia. rewrite Z.pow_succ_r; lia. }
  assert (0 < 2 ^ (w - 1)) by (apply Z.pow_pos_nonneg; lia).
  cbv zeta. destruct (Z.ltb_spec x 0).
  - replace (x mod 2 ^ w) with (x + 2 ^ w).
    + destruct (Z.ltb_spec (x + 2 ^ w) (2 ^ (w - 1))); lia.
    + apply Z.mod_unique with (q := -1); lia.
  - rewrite Z.mod_small by lia. destruct (Z.ltb_spec x (2 ^ (w - 1))); lia.
Qed.

Lemma swrap32_small : forall x, -2147483648 <= x <= 2147483647 -> swrap 32 x = x.
Proof. intros; apply swrap_small; cbn; lia. Qed.

Lemma swrap_range : forall w x, 0 < w -> - 2 ^ (w - 1) <= swrap w x < 2 ^ (w - 1).
Proof.
  intros w x Hw. unfold swrap.
  assert (E : 2 ^ w = 2 * 2 ^ (w - 1)).
  { replace w with (Z.succ (w - 1)) at 1 by lia. rewrite Z.pow_succ_r; lia. }
  assert (0 < 2 ^ (w - 1)) by (apply Z.pow_pos_nonneg; lia).
  pose proof (Z.mod_pos_bound x (2 ^ w)). cbv zeta.
  destruct (Z.ltb_spec (x mod 2 ^ w) (2 ^ (w - 1))); lia.
Qed.

Lemma zlen_nonneg : forall A (l : list A), 0 <= zlen l.
Proof. intros; unfold zlen; lia. Qed.

Lemma upd_length : forall A (l : list A) i a, length (upd l i a) = length l.
Proof. induction l; destruct i; cbn; auto. Qed.

Lemma zlen_upd : forall A (l : list A) i a, zlen (upd l i a) = zlen l.
Proof. intros; unfold zlen; now rewrite upd_length. Qed.

Lemma nth_error_upd_eq : forall A (l : list A) i a,
  (i < length l)%nat -> nth_error (upd l i a) i = Some a.
Proof. induction l; destruct i; cbn; intros; try lia; auto. apply IHl; lia. Qed.

Lemma nth_error_upd_neq : forall A (l : list A) i j a,
  i <> j -> nth_error (upd l i a) j = nth_error l j.
Proof. induction l; destruct i, j; cbn; intros; auto; congruence. Qed.

Lemma nth_upd_eq : forall A (l : list A) i a d,
  (i < length l)%nat -> nth i (upd l i a) d = a.
Proof. induction l; destruct i; cbn; intros; try lia; auto. apply IHl; lia. Qed.

Lemma nth_upd_neq : forall A (l : list A) i j a d,
  i <> j -> nth j (upd l i a) d = nth j l d.
Proof. induction l; destruct i, j; cbn; intros; auto; congruence. Qed.

Lemma zget_ok : forall A (l : list A) i d,
  0 <= i < zlen l -> zget l i = Done (nth (Z.to_nat i) l d).
Proof.
  intros A l i d H. unfold zget, zlen in *.
  destruct (Z.ltb_spec i 0); [lia|].
  rewrite (nth_error_nth' l d) by lia. reflexivity.
Qed.

Lemma zset_ok : forall A (l : list A) i a,
  0 <= i < zlen l -> zset l i a = Done (upd l (Z.to_nat i) a).
Proof.
  intros. unfold zset.
  destruct (Z.ltb_spec i 0); [lia|]. destruct (Z.leb_spec (zlen l) i); [lia|]. reflexivity.
Qed.

Lemma zread_ok : forall A (l : list A) off n,
  0 <= off -> 0 <= n -> off + n <= zlen l ->
  zread l off n = Done (firstn (Z.to_nat n) (skipn (Z.to_nat off) l)).
Proof.
  intros. unfold zread.
  destruct (Z.ltb_spec off 0); [lia|]. destruct (Z.ltb_spec n 0); [lia|].
  destruct (Z.ltb_spec (zlen l) (off + n)); [lia|]. reflexivity.
Qed.

Lemma zwrite_ok : forall A (l : list A) off d,
  0 <= off -> off + zlen d <= zlen l ->
  zwrite l off d = Done (firstn (Z.to_nat off) l ++ d ++ skipn (Z.to_nat off + length d) l).
Proof.
  intros. unfold zwrite.
  destruct (Z.ltb_spec off 0); [lia|].
  destruct (Z.ltb_spec (zlen l) (off + zlen d)); [lia|]. reflexivity.
Qed.

Lemma nth_error_ext : forall A (l1 l2 : list A),
  (forall i, nth_error l1 i = nth_error l2 i) -> l1 = l2.
Proof.
  induction l1; destruct l2; intros H; auto.
  - specialize (H O); discriminate.
  - specialize (H O); discriminate.
  - pose proof (H O) as H0; cbn in H0; inversion H0; subst.
    f_equal. apply IHl1. intros i; exact (H (S i)).
Qed.

Lemma nth_error_firstn : forall A (l : list A) n i,
  nth_error (firstn n l) i = if (i <? n)%nat then nth_error l i else None.
Proof.
  induction l; intros n i.
  - rewrite firstn_nil. destruct i; destruct (_ <? _)%nat; reflexivity.
  - destruct n; cbn [firstn].
    + destruct i; reflexivity.
    + destruct i; cbn [nth_error]; [reflexivity|].
      rewrite IHl. reflexivity.
Qed.

Lemma nth_error_skipn : forall A (l : list A) n i,
  nth_error (skipn n l) i = nth_error l (n + i).
Proof.
  induction l; intros n i; destruct n; cbn; auto. destruct i; auto.
Qed.

Lemma nth_error_app : forall A (l l' : list A) i,
  nth_error (l ++ l') i = if (i <? length l)%nat then nth_error l i else nth_error l' (i - length l).
Proof.
  intros. destruct (Nat.ltb_spec i (length l)).
  - now apply nth_error_app1. 
  - now apply nth_error_app2.
Qed.
