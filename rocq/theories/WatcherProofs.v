From Coq Require Import ZifyBool.
From Verif Require Import Base BaseLemmas TimeModel TimeSpec TimeProofs WatcherModel WatcherSpec WatcherSystem.

Lemma bytes_eqb_spec : forall a b, bytes_eqb a b = true <-> a = b.
Proof.
  induction a as [|x a IH]; intros [|y b]; cbn; split; intros H; try discriminate; auto.
  - apply andb_true_iff in H. destruct H as [H1 H2]. apply IH in H2. f_equal; [lia|exact H2].
  - injection H as -> ->. apply andb_true_iff. split; [lia|now apply IH].
Qed.

Lemma same_bytes_spec : forall m m' a n, same_bytes m m' a n = true <-> bytes m a n = bytes m' a n.
Proof. intros. unfold same_bytes. destruct (list_eq_dec _ _ _); split; intros; congruence. Qed.

Lemma bytes_eqb_bool : forall m m' a n, bytes_eqb (bytes m a n) (bytes m' a n) = same_bytes m m' a n.
Proof.
  intros. apply eq_true_iff_eq. rewrite bytes_eqb_spec, same_bytes_spec. reflexivity.
Qed.

Lemma bytes_length : forall m a n, 0 <= a -> 0 <= n -> a + n <= zlen m -> zlen (bytes m a n) = n.
Proof. intros m a n Ha Hn H. unfold bytes, zlen in *. rewrite firstn_length, skipn_length. lia. Qed.

Lemma read_old : forall x, 0 <= size x -> roomy x -> zread (old x) 0 (size x) = Done (firstn (Z.to_nat (size x)) (old x)).
Proof. intros x H1 H2. unfold roomy in H2. rewrite zread_ok by lia. reflexivity. Qed.

Lemma read_cur : forall N x m, fits N x -> zlen m = N -> zread m (current x) (size x) = Done (bytes m (current x) (size x)).
Proof. intros N x m (H1 & H2 & H3) H. rewrite zread_ok by lia. reflexivity. Qed.

Lemma differs_ok : forall N x m, fits N x -> roomy x -> zlen m = N ->
  differs x m = Done (negb (bytes_eqb (recorded x) (bytes m (current x) (size x)))).
Proof.
  intros N x m Hf Hr Hm. unfold differs. rewrite read_old; [|destruct Hf as (?&?&?); lia|exact Hr].
  cbn [obind]. rewrite (read_cur N) by assumption. reflexivity.
Qed.

Lemma save_ok : forall N x m, fits N x -> roomy x -> zlen m = N ->
  exists x', save x m = Done x' /\ same_static x x' /\ roomy x' /\ recorded x' = bytes m (current x) (size x) /\
    timestamp x' = timestamp x /\ moved x' = moved x.
Proof.
  intros N x m Hf Hr Hm. unfold save. rewrite (read_cur N) by assumption. cbn [obind].
  pose proof Hf as (H1 & H2 & H3).
  assert (Hl : zlen (bytes m (current x) (size x)) = size x) by (apply bytes_length; lia).
  unfold roomy in Hr. rewrite zwrite_ok by lia. cbn [obind]. eexists. split; [reflexivity|].
  unfold same_static, roomy, recorded, set_old. cbn [current size cb data delay old timestamp moved].
  set (v := bytes m (current x) (size x)) in *. clearbody v. cbn [Z.to_nat firstn app].
  assert (Hn : length v = Z.to_nat (size x)) by (unfold zlen in Hl; lia).
  split; [repeat split|]. split; [|split].
  - unfold zlen in *. rewrite app_length, skipn_length, Hn. lia.
  - rewrite <- Hn, firstn_app, Nat.sub_diag, firstn_O, app_nil_r, firstn_all. reflexivity.
  - split; reflexivity.
Qed.

Section Run.
Variables I w : Z.
Hypothesis Hw : 0 < w.
Hypothesis HI : I <= w.
Variable eff : Z -> Z -> Z -> list Z -> list Z.
Variable init : list Z.
Variable N : Z.

Definition half := 2 ^ (w - 1).

(** The watcher after the history [h]. *)
Definition winv (h : history) (x0 x : watcher) : Prop :=
  same_static x0 x /\ roomy x /\ recorded x = bytes (before init h) (current x0) (size x0) /\
  (moved x = 0 \/ moved x = 1) /\
  (delay x0 = 0 -> moved x = 0) /\
  (delay x0 <> 0 ->
    match last_change init (current x0) (size x0) h with
    | None => moved x = 0
    | Some c => exists t m h', h = (t, m) :: h' /\
        ((moved x = 0 /\ c + delay x0 <= t) \/ (moved x = 1 /\ timestamp x = counter w c /\ c <= t < c + delay x0))
    end).

Lemma process_one_l : forall h t m x0 x m1,
  fits N x0 -> cb x0 <> 0 -> winv h x0 x -> zlen m = N -> zlen m1 = N ->
  bytes m1 (current x0) (size x0) = bytes m (current x0) (size x0) ->
  timely half ((t, m) :: h) x0 ->
  (forall c a d m, zlen (eff c a d m) = zlen m /\ bytes (eff c a d m) (current x0) (size x0) = bytes m (current x0) (size x0)) ->
  exists x' m', process_one I w eff x m1 (counter w t) =
      Done (x', m', (if fires init (current x0) (size x0) (delay x0) ((t, m) :: h) then [call_of m x0] else []),
            changed init (current x0) (size x0) ((t, m) :: h)) /\
    winv ((t, m) :: h) x0 x' /\ (m' = m1 \/ m' = eff (cb x0) (current x0) (data x0) m1).
Proof.
  intros h t m x0 x m1 Hf Hcb (Hs & Hr & Ho & Hm01 & Hd0 & Hd1) Hm Hm1 Hb Ht He.
  pose proof Hs as (S1 & S2 & S3 & S4 & S5).
  assert (Hfx : fits N x) by (unfold fits; rewrite S1, S2; exact Hf).
  assert (Hcall : call eff (set_moved x 0) m1 = Done (eff (cb x0) (current x0) (data x0) m1, call_of m x0)).
  { unfold call, call_of. cbn [set_moved cb current data size]. rewrite S1, S2, S3, S4. destruct (Z.eqb_spec (cb x0) 0); [contradiction|].
    rewrite (read_cur N) by assumption. cbn [obind]. rewrite Hb. reflexivity. }
  unfold process_one. rewrite (differs_ok N) by assumption. cbn [obind]. rewrite Ho, S1, S2, Hb, bytes_eqb_bool.
  assert (Hch : negb (same_bytes (before init h) m (current x0) (size x0)) = changed init (current x0) (size x0) ((t, m) :: h)) by reflexivity.
  rewrite Hch. destruct (changed init (current x0) (size x0) ((t, m) :: h)) eqn:Ec.
  - (* changed *)
    rewrite S5. destruct (Z.ltb_spec 0 (delay x0)) as [Hd|Hd].
    + cbn [obind].
      destruct (save_ok N (set_moved (set_timestamp x (counter w t)) 1) m1) as (x' & E & Es & Er & Eo & Et & Em); [exact Hfx|exact Hr|exact Hm1|].
      rewrite E. cbn [obind]. exists x', m1. split; [|split].
      * unfold fires. destruct (Z.eqb_spec (delay x0) 0); [lia|]. unfold settles. rewrite Ec. cbn [negb andb].
        destruct h as [|[t' m'] h']; reflexivity.
      * unfold winv. cbn [set_moved set_timestamp current size timestamp moved] in *. split; [|split; [exact Er|split; [|split; [|split]]]].
        -- unfold same_static in *. cbn [set_moved set_timestamp current size cb data delay] in Es. intuition congruence.
        -- cbn [before]. rewrite Eo, S1, S2. exact Hb.
        -- lia.
        -- lia.
        -- intros _. cbn [last_change]. rewrite Ec. exists t, m, h. split; [reflexivity|]. right. split; [lia|]. split; [exact Et|lia].
      * left. reflexivity.
    + assert (Hz : delay x0 = 0) by (destruct Ht; lia).
      rewrite Hcall. cbn [obind]. set (m2 := eff (cb x0) (current x0) (data x0) m1).
      destruct (He (cb x0) (current x0) (data x0) m1) as [He1 He2]. fold m2 in He1, He2.
      destruct (save_ok N (set_moved x 0) m2) as (x' & E & Es & Er & Eo & Et & Em); [exact Hfx|exact Hr|lia|].
      rewrite E. cbn [obind]. cbn [set_moved] in *. exists x', m2. split; [|split].
      * unfold fires. rewrite Hz. cbn [Z.eqb]. rewrite Ec. reflexivity.
      * unfold winv. cbn [set_moved current size timestamp moved] in *. split; [|split; [exact Er|split; [|split; [|split]]]].
        -- unfold same_static in *. cbn [set_moved current size cb data delay] in Es. intuition congruence.
        -- cbn [before]. rewrite Eo, S1, S2. congruence.
        -- lia.
        -- lia.
        -- lia.
      * right. reflexivity.
  - (* not changed *)
    assert (Hsame : bytes (before init h) (current x0) (size x0) = bytes m (current x0) (size x0)).
    { apply same_bytes_spec. destruct (same_bytes _ _ _ _); [reflexivity|discriminate]. }
    destruct (Z.eqb_spec (moved x) 0) as [Hz|Hnz].
    + exists x, m1. split; [|split; [|left; reflexivity]].
      * unfold fires. destruct (Z.eqb_spec (delay x0) 0) as [Hdz|Hdz]; [rewrite Ec; reflexivity|].
        specialize (Hd1 Hdz). unfold settles. rewrite Ec. cbn [negb andb].
        destruct h as [|[t' m'] h']; [reflexivity|].
        destruct (last_change init (current x0) (size x0) ((t', m') :: h')) as [c|]; [|reflexivity].
        destruct Hd1 as (t1 & m1' & h1 & Eh & [[_ Hle]|[Hm1' _]]); [|lia]. injection Eh as -> -> ->.
        destruct (Z.ltb_spec t1 (c + delay x0)); [lia|]. rewrite andb_false_r. reflexivity.
      * unfold winv. split; [exact Hs|]. split; [exact Hr|]. split; [cbn [before]; congruence|]. split; [exact Hm01|]. split; [exact Hd0|].
        intros Hdz. specialize (Hd1 Hdz). cbn [last_change]. rewrite Ec.
        destruct (last_change init (current x0) (size x0) h) as [c|]; [|exact Hz].
        destruct Hd1 as (t1 & m1' & h1 & Eh & [[_ Hle]|[Hm1' _]]); [|lia]. subst h.
        exists t, m, ((t1, m1') :: h1). split; [reflexivity|]. left. split; [exact Hz|].
        destruct Ht as [|[_ Hst]]; [lia|]. cbn [steady] in Hst. lia.
    + assert (Hdz : delay x0 <> 0) by (intros E; apply Hd0 in E; lia).
      specialize (Hd1 Hdz). destruct (last_change init (current x0) (size x0) h) as [c|] eqn:El; [|lia].
      destruct Hd1 as (t1 & m1' & h1 & Eh & [[Hc _]|(Hmv & Hts & Hct)]); [lia|]. subst h.
      destruct Ht as [|[Hdh Hst]]; [lia|]. cbn [steady] in Hst. destruct Hst as [Hst _].
      assert (Hex : is_expired I w w (timestamp x) (counter w t) (delay x) = (c + delay x0 <=? t)).
      { rewrite Hts, S5. apply is_expired_l; [exact Hw|exact HI|]. unfold close. fold half. lia. }
      rewrite Hex. destruct (Z.leb_spec (c + delay x0) t) as [Hle|Hlt].
      * rewrite Hcall. cbn [obind]. exists (set_moved x 0), (eff (cb x0) (current x0) (data x0) m1). split; [|split; [|right; reflexivity]].
        -- unfold fires. destruct (Z.eqb_spec (delay x0) 0); [lia|]. unfold settles. rewrite El, Ec. cbn [negb andb].
           destruct (Z.leb_spec (c + delay x0) t); [|lia]. destruct (Z.ltb_spec t1 (c + delay x0)); [|lia]. cbn [andb].
           reflexivity.
        -- unfold winv, set_moved, same_static, roomy, recorded in *. cbn [current size cb data delay old timestamp moved] in *.
           split; [exact Hs|]. split; [exact Hr|]. split; [cbn [before]; congruence|]. split; [lia|]. split; [lia|].
           intros _. change (last_change init (current x0) (size x0) ((t, m) :: (t1, m1') :: h1)) with
             (if changed init (current x0) (size x0) ((t, m) :: (t1, m1') :: h1) then Some t else last_change init (current x0) (size x0) ((t1, m1') :: h1)).
           rewrite Ec, El. exists t, m, ((t1, m1') :: h1). split; [reflexivity|]. left. lia.
      * exists x, m1. split; [|split; [|left; reflexivity]].
        -- unfold fires. destruct (Z.eqb_spec (delay x0) 0); [lia|]. unfold settles. rewrite El, Ec. cbn [negb andb].
           destruct (Z.leb_spec (c + delay x0) t); [lia|]. reflexivity.
        -- unfold winv. split; [exact Hs|]. split; [exact Hr|]. split; [cbn [before]; congruence|]. split; [exact Hm01|]. split; [exact Hd0|].
           intros _. change (last_change init (current x0) (size x0) ((t, m) :: (t1, m1') :: h1)) with
             (if changed init (current x0) (size x0) ((t, m) :: (t1, m1') :: h1) then Some t else last_change init (current x0) (size x0) ((t1, m1') :: h1)).
           rewrite Ec, El. exists t, m, ((t1, m1') :: h1). split; [reflexivity|]. right. split; [exact Hmv|]. split; [exact Hts|lia].
Qed.

(** What is required of the static part of the list. *)
Definition good (x0 : watcher) : Prop := fits N x0 /\ cb x0 <> 0.

Lemma process_l : forall z rest h t m ws l m1,
  current z = 0 -> zlen m = N -> zlen m1 = N ->
  Forall2 (winv h) ws l -> Forall good ws -> Forall (timely half ((t, m) :: h)) ws ->
  (forall c a d m, zlen (eff c a d m) = zlen m /\ forall x, In x ws -> bytes (eff c a d m) (current x) (size x) = bytes m (current x) (size x)) ->
  (forall x, In x ws -> bytes m1 (current x) (size x) = bytes m (current x) (size x)) ->
  exists l' m', watcher_process_changes I w eff (l ++ z :: rest) m1 (counter w t) =
    Done (l' ++ z :: rest, m', fst (expected ws init ((t, m) :: h)), snd (expected ws init ((t, m) :: h))) /\
    Forall2 (winv ((t, m) :: h)) ws l'.
Proof.
  intros z rest h t m. induction ws as [|x0 ws IH]; intros l m1 Hz Hm Hm1 Hl Hg Ht He Hb; inversion Hl as [|? x ? l0 Hx Hl0]; subst.
  - exists [], m1. cbn [app watcher_process_changes]. rewrite Hz. cbn. split; [reflexivity|constructor].
  - inversion Hg as [|? ? [Hf Hcb] Hg0]; subst. inversion Ht as [|? ? Ht0 Ht1]; subst.
    cbn [app watcher_process_changes].
    assert (Hcur : current x = current x0) by (destruct Hx as ((E & _) & _); exact E).
    rewrite Hcur. destruct (Z.eqb_spec (current x0) 0) as [E|_]; [destruct Hf as (Hp & _); lia|].
    destruct (process_one_l h t m x0 x m1) as (x' & m' & E & Hx' & Hm'); try assumption.
    { apply Hb. now left. }
    { intros c a d mm. destruct (He c a d mm) as [E1 E2]. split; [exact E1|]. apply E2. now left. }
    rewrite E. cbn [obind].
    assert (Hlen : zlen m' = zlen m) by (destruct Hm' as [->| ->]; [congruence|destruct (He (cb x0) (current x0) (data x0) m1) as [E1 _]; lia]).
    assert (Hbm : forall y, In y ws -> bytes m' (current y) (size y) = bytes m (current y) (size y)).
    { intros y Hy. rewrite <- Hb by (now right). destruct Hm' as [->| ->]; [reflexivity|].
      destruct (He (cb x0) (current x0) (data x0) m1) as [_ E2]. apply E2. now right. }
    destruct (IH l0 m') as (l' & m'' & E' & Hl'); try assumption; try congruence.
    { intros c a d mm. destruct (He c a d mm) as [E1 E2]. split; [exact E1|]. intros y Hy. apply E2. now right. }
    rewrite E'. cbn [obind]. exists (x' :: l'), m''. split.
    + cbn [app]. unfold expected. cbn [fst snd filter existsb before].
      destruct (fires init (current x0) (size x0) (delay x0) ((t, m) :: h)) eqn:Ef; cbn [map app];
        destruct (changed init (current x0) (size x0) ((t, m) :: h)); cbn [orb b2z]; reflexivity.
    + constructor; assumption.
Qed.

Lemma init_l : forall z rest malloc ok block ws m,
  current z = 0 -> zlen m = N ->
  Forall (fun x => fresh x /\ fits N x) ws ->
  (malloc = true -> ok = true) -> (malloc = false -> Forall (fun x => size x <= block /\ zlen (old x) = block) ws) ->
  exists l, watcher_list_init malloc ok block (ws ++ z :: rest) m = Done (l ++ z :: rest) /\
    (m = init -> Forall2 (winv []) ws l).
Proof.
  intros z rest malloc ok block ws m Hz Hm. induction ws as [|x ws IH]; intros Hf Hok Hbl.
  - exists []. cbn [app watcher_list_init]. rewrite Hz. split; [reflexivity|]. constructor.
  - inversion Hf as [|? ? [(F1 & F2 & F3) Hfit] Hf0]; subst. cbn [app watcher_list_init].
    destruct (Z.eqb_spec (current x) 0); [contradiction|].
    assert (Hx : exists y, (if malloc then if ok then Done (set_old x (repeat 0 (Z.to_nat (size x)))) else Undef
              else if size x <=? block then Done x else Abort) = Done y /\ same_static x y /\ roomy y /\ moved y = 0).
    { destruct malloc.
      - rewrite Hok by reflexivity. eexists. split; [reflexivity|]. unfold same_static, roomy, set_old, zlen.
        cbn [current size cb data delay old moved]. rewrite repeat_length. repeat split; [lia|exact F1].
      - specialize (Hbl eq_refl). inversion Hbl as [|? ? [B1 B2] _]; subst. destruct (Z.leb_spec (size x) (zlen (old x))); [|lia].
        exists x. unfold same_static, roomy. repeat split; [lia|exact F1]. }
    destruct Hx as (y & -> & Hsy & Hry & Hmy). cbn [obind].
    pose proof Hsy as (S1 & S2 & S3 & S4 & S5).
    assert (Hfy : fits (zlen m) y) by (unfold fits; rewrite S1, S2; exact Hfit).
    destruct (save_ok (zlen m) y m Hfy Hry eq_refl) as (y' & E & Es & Er & Eo & Et & Em). rewrite E. cbn [obind].
    destruct IH as (l & El & Hl); auto.
    { intros Hmf. specialize (Hbl Hmf). now inversion Hbl. }
    rewrite El. cbn [obind]. exists (y' :: l). split; [reflexivity|]. intros Hi. constructor; [|auto].
    unfold winv. split; [unfold same_static in *; intuition congruence|]. split; [exact Er|].
    split; [cbn [before]; rewrite Eo, S1, S2, Hi; reflexivity|]. split; [lia|]. split; [lia|]. intros _. cbn [last_change]. lia.
Qed.

Lemma steady_tail : forall hf hs h, steady hf (hs ++ h) -> steady hf h.
Proof.
  intros hf. induction hs as [|[t m] hs IH]; intros h H; [exact H|]. apply IH. cbn [app steady] in H.
  destruct (hs ++ h) as [|[? ?] ?]; cbn in *; tauto.
Qed.

Lemma run_l : forall z rest ws, current z = 0 -> Forall good ws -> harmless eff ws ->
  forall hs h l, Forall2 (winv h) ws l ->
  Forall (fun s => zlen (snd s) = N) hs -> Forall (timely half (rev hs ++ h)) ws ->
  exists l' outs, wrun I w eff (l ++ z :: rest) hs = Done (l' ++ z :: rest, outs) /\
    Forall2 (winv (rev hs ++ h)) ws l' /\
    length outs = length hs /\
    forall k, (k < length hs)%nat -> nth_error outs k = Some (expected ws init (rev (firstn (S k) hs) ++ h)).
Proof.
  intros z rest ws Hz Hg He. induction hs as [|[t m] hs IH]; intros h l Hl Hm Ht.
  - exists l, []. cbn. split; [reflexivity|]. split; [exact Hl|]. split; [reflexivity|]. intros; lia.
  - inversion Hm as [|? ? Hm0 Hm1]; subst. cbn [snd] in Hm0. cbn [rev] in Ht. rewrite <- app_assoc in Ht. cbn [app] in Ht.
    destruct (process_l z rest h t m ws l m Hz Hm0 Hm0 Hl Hg) as (l1 & m1 & E & Hl1).
    { eapply Forall_impl; [|exact Ht]. intros x [H|[H1 H2]]; [now left|right]. split; [exact H1|]. now apply steady_tail in H2. }
    { exact He. }
    { reflexivity. }
    cbn [wrun]. rewrite E. cbn [obind].
    destruct (IH ((t, m) :: h) l1 Hl1 Hm1 Ht) as (l2 & outs & E2 & Hl2 & Hlen & Hout). rewrite E2. cbn [obind].
    eexists l2, (_ :: outs). split; [reflexivity|]. cbn [rev]. rewrite <- app_assoc. cbn [app].
    split; [exact Hl2|]. split; [cbn [length]; lia|]. intros [|k] Hk.
    + cbn [nth_error firstn rev app]. destruct (expected ws init ((t, m) :: h)); reflexivity.
    + cbn [nth_error]. rewrite Hout by (cbn [length] in Hk; lia).
      replace (rev (firstn (S (S k)) ((t, m) :: hs)) ++ h) with (rev (firstn (S k) hs) ++ (t, m) :: h); [reflexivity|].
      change (firstn (S (S k)) ((t, m) :: hs)) with ((t, m) :: firstn (S k) hs).
      cbn [rev]. rewrite <- app_assoc. reflexivity.
Qed.

Lemma check_l : forall z rest h ws l m, current z = 0 -> Forall2 (winv h) ws l -> Forall good ws -> zlen m = N ->
  watcher_check_for_changes (l ++ z :: rest) m =
    Done (b2z (existsb (fun x => negb (same_bytes (before init h) m (current x) (size x))) ws)).
Proof.
  intros z rest h ws l m Hz Hl Hg Hm. induction Hl as [|x0 x ws l Hx Hl IH].
  - cbn [app watcher_check_for_changes]. rewrite Hz. reflexivity.
  - inversion Hg as [|? ? [Hf Hcb] Hg0]; subst x1 l0; cbn [app watcher_check_for_changes].
    destruct Hx as ((S1 & S2 & _) & Hr & Ho & _). rewrite S1.
    destruct (Z.eqb_spec (current x0) 0) as [E|_]; [destruct Hf as (Hp & _); lia|].
    rewrite (differs_ok N); [|unfold fits; rewrite S1, S2; exact Hf|exact Hr|reflexivity || exact Hm]. cbn [obind].
    rewrite Ho, S1, S2, bytes_eqb_bool. cbn [existsb]. rewrite IH by exact Hg0.
    destruct (same_bytes _ _ _ _); reflexivity.
Qed.

End Run.

(** * Arbitrary states *)

Lemma Forall2_weaken : forall {A B} (P Q : A -> B -> Prop) l l', (forall x y, P x y -> Q x y) -> Forall2 P l l' -> Forall2 Q l l'.
Proof. intros A B P Q l l' H Hl. induction Hl; constructor; auto. Qed.

Lemma check_state_l : forall N z rest ws m, current z = 0 -> zlen m = N -> Forall (ready N) ws ->
  exists r, watcher_check_for_changes (ws ++ z :: rest) m = Done r /\ (r = 0 \/ r = 1) /\ (r = 1 <-> Exists (stale m) ws).
Proof.
  intros N z rest ws m Hz Hm. induction ws as [|x ws IH]; intros Hg.
  - exists 0. cbn [app watcher_check_for_changes]. rewrite Hz. split; [reflexivity|]. split; [now left|].
    split; [discriminate|]. intros H. inversion H.
  - inversion Hg as [|? ? (Hf & Hr & Hcb) Hg0]; subst. cbn [app watcher_check_for_changes].
    destruct (Z.eqb_spec (current x) 0) as [E|_]; [destruct Hf as (Hp & _); lia|].
    rewrite (differs_ok (zlen m)) by auto. cbn [obind].
    destruct (bytes_eqb (recorded x) (bytes m (current x) (size x))) eqn:E; cbn [negb].
    + apply bytes_eqb_spec in E. destruct (IH Hg0) as (r & E1 & H1 & H2). exists r. split; [exact E1|]. split; [exact H1|].
      rewrite H2. split; intros H; [now right|]. inversion H; subst; [contradiction|assumption].
    + exists 1. split; [reflexivity|]. split; [now right|]. split; intros _; [|reflexivity]. left. intros E1.
      apply bytes_eqb_spec in E1. congruence.
Qed.

Lemma process_state_l : forall I w eff N z rest now,
  (forall c a d m, zlen (eff c a d m) = zlen m) -> current z = 0 ->
  forall ws m, zlen m = N -> Forall (ready N) ws ->
  exists ws' m' cs res, watcher_process_changes I w eff (ws ++ z :: rest) m now = Done (ws' ++ z :: rest, m', cs, res) /\
    zlen m' = N /\ Forall (ready N) ws' /\
    Forall2 (fun x x' => same_static x x' /\
      ((0 < delay x \/ quiet eff x) -> recorded x' <> recorded x ->
         if 0 <? delay x then moved x' = 1 /\ timestamp x' = now
         else In (cb x, current x, data x, recorded x') cs)) ws ws'.
Proof.
  intros I w eff N z rest now He Hz. induction ws as [|x ws IH]; intros m Hm Hg.
  - exists [], m, [], 0. cbn [app watcher_process_changes]. rewrite Hz. repeat split; [exact Hm|constructor|constructor].
  - inversion Hg as [|? ? (Hf & Hr & Hcb) Hg0]; subst. cbn [app watcher_process_changes].
    destruct (Z.eqb_spec (current x) 0) as [E|_]; [destruct Hf as (Hp & _); lia|].
    assert (H1 : exists x' m' cs ch, process_one I w eff x m now = Done (x', m', cs, ch) /\ zlen m' = zlen m /\
              ready (zlen m) x' /\ same_static x x' /\
              ((0 < delay x \/ quiet eff x) -> recorded x' <> recorded x ->
         if 0 <? delay x then moved x' = 1 /\ timestamp x' = now
         else In (cb x, current x, data x, recorded x') cs)).
    { unfold process_one. rewrite (differs_ok (zlen m)) by auto. cbn [obind].
      assert (Hcall : call eff (set_moved x 0) m = Done (eff (cb x) (current x) (data x) m, call_of m x)).
      { unfold call, call_of. cbn [set_moved cb current data size]. destruct (Z.eqb_spec (cb x) 0); [contradiction|].
        rewrite (read_cur (zlen m)) by auto. reflexivity. }
      destruct (bytes_eqb (recorded x) (bytes m (current x) (size x))) eqn:E; cbn [negb].
      - assert (Hx0 : ready (zlen m) (set_moved x 0)) by (split; [exact Hf|split; [exact Hr|exact Hcb]]).
        destruct (moved x =? 0); [|destruct (is_expired _ _ _ _ _ _); [rewrite Hcall; cbn [obind]|]].
        + exists x, m, [], false. split; [reflexivity|]. split; [reflexivity|]. split; [now split|]. split; [repeat split|]. intros _ []. reflexivity.
        + eexists _, _, _, _. split; [reflexivity|]. split; [apply He|]. split; [exact Hx0|]. split; [repeat split|]. intros _ []. reflexivity.
        + exists x, m, [], false. split; [reflexivity|]. split; [reflexivity|]. split; [now split|]. split; [repeat split|]. intros _ []. reflexivity.
      - destruct (0 <? delay x) eqn:Ed.
        + cbn [obind]. destruct (save_ok (zlen m) (set_moved (set_timestamp x now) 1) m) as (x' & E' & Es & Er & Eo & Et & Em); [exact Hf|exact Hr|reflexivity|].
          rewrite E'. cbn [obind]. exists x', m, [], true. split; [reflexivity|]. split; [reflexivity|].
          split; [unfold ready, fits, same_static in *; cbn [set_moved set_timestamp current size cb] in Es; intuition congruence|].
          split; [exact Es|]. intros _ _. split; [exact Em|exact Et].
        + rewrite Hcall. cbn [obind]. set (m2 := eff (cb x) (current x) (data x) m).
          assert (Hm2 : zlen m2 = zlen m) by apply He.
          destruct (save_ok (zlen m) (set_moved x 0) m2) as (x' & E' & Es & Er & Eo & Et & Em); [exact Hf|exact Hr|exact Hm2|].
          rewrite E'. cbn [obind]. exists x', m2, [call_of m x], true. split; [reflexivity|]. split; [exact Hm2|].
          split; [unfold ready, fits, same_static in *; cbn [set_moved current size cb] in Es; intuition congruence|].
          split; [exact Es|]. intros [Hq|Hq] _; [lia|]. left. unfold call_of. rewrite Eo. cbn [set_moved current size]. unfold m2.
          rewrite Hq. reflexivity. }
    destruct H1 as (x' & m' & cs & ch & E & Hm' & Hrd & Hst & Hn). rewrite E. cbn [obind].
    destruct (IH m' Hm' Hg0) as (ws' & m'' & cs' & res & E' & Hm'' & Hg' & Hall). rewrite E'. cbn [obind].
    eexists (x' :: ws'), m'', (cs ++ cs'), _. split; [reflexivity|]. split; [exact Hm''|]. split; [now constructor|].
    constructor.
    + split; [exact Hst|]. intros H1 H2. specialize (Hn H1 H2). destruct (0 <? delay x); [exact Hn|]. apply in_or_app. now left.
    + eapply Forall2_weaken; [|exact Hall]. intros y y' [Hs Hy]. split; [exact Hs|]. intros H1 H2. specialize (Hy H1 H2).
      destruct (0 <? delay y); [exact Hy|]. apply in_or_app. now right.
Qed.

(** After clearing: nothing pending and the memory as recorded. *)
Definition calm (m : list Z) (x : watcher) : Prop := moved x = 0 /\ recorded x = bytes m (current x) (size x).

Lemma clear_l : forall N z rest now ws m, current z = 0 -> zlen m = N -> Forall (ready N) ws ->
  exists ws', watcher_clear_changes (ws ++ z :: rest) m now = Done (ws' ++ z :: rest) /\
    Forall (ready N) ws' /\ Forall (fun x => recorded x = bytes m (current x) (size x)) ws' /\ Forall2 same_static ws ws' /\
    (Forall (fun x => moved x = 0 \/ (stale m x /\ 0 < delay x)) ws -> Forall (calm m) ws').
Proof.
  intros N z rest now ws m Hz Hm. induction ws as [|x ws IH]; intros Hg.
  - exists []. cbn [app watcher_clear_changes]. rewrite Hz. repeat split; constructor.
  - inversion Hg as [|? ? (Hf & Hr & Hcb) Hg0]; subst. cbn [app watcher_clear_changes].
    destruct (Z.eqb_spec (current x) 0) as [E|_]; [destruct Hf as (Hp & _); lia|].
    rewrite (differs_ok (zlen m)) by auto. cbn [obind]. destruct (IH Hg0) as (ws' & E' & H1 & H2 & H4 & H3).
    destruct (bytes_eqb (recorded x) (bytes m (current x) (size x))) eqn:E; cbn [negb].
    + apply bytes_eqb_spec in E. cbn [obind]. rewrite E'. cbn [obind]. exists (x :: ws'). split; [reflexivity|].
      split; [constructor; [now split|exact H1]|]. split; [now constructor|]. split; [constructor; [repeat split|exact H4]|].
      intros H. inversion H as [|? ? Hx Hx0]; subst. constructor; [|now apply H3]. split; [|exact E].
      destruct Hx as [Hx|[Hx _]]; [exact Hx|contradiction].
    + assert (Hfy : forall y, same_static x y -> cb y = cb x /\ fits (zlen m) y).
      { intros y (S1 & S2 & S3 & _). split; [exact S3|]. unfold fits. rewrite S1, S2. exact Hf. }
      set (y := if 0 <? delay x then set_moved (set_timestamp x now) 0 else x).
      assert (Hsy : same_static x y) by (unfold y; destruct (0 <? delay x); repeat split).
      assert (Hry : roomy y) by (unfold y; destruct (0 <? delay x); exact Hr).
      destruct (Hfy y Hsy) as [Hcy Hf'].
      destruct (save_ok (zlen m) y m Hf' Hry eq_refl) as (x' & E1 & Es & Er & Eo & Et & Em). rewrite E1. cbn [obind].
      rewrite E'. cbn [obind]. exists (x' :: ws'). split; [reflexivity|].
      assert (Hs' : same_static x x') by (unfold same_static in *; intuition congruence).
      destruct (Hfy x' Hs') as [Hcx Hfx].
      assert (Hrec : recorded x' = bytes m (current x') (size x')) by (rewrite Eo; destruct Es as (S1 & S2 & _); rewrite S1, S2; reflexivity).
      split; [constructor; [split; [exact Hfx|split; [exact Er|congruence]]|exact H1]|]. split; [now constructor|]. split; [now constructor|].
      intros H. inversion H as [|? ? Hx Hx0]; subst. constructor; [|now apply H3]. split; [|exact Hrec].
      rewrite Em. unfold y. destruct Hx as [Hx|[_ Hx]]; [destruct (0 <? delay x); [reflexivity|exact Hx]|].
      destruct (Z.ltb_spec 0 (delay x)); [reflexivity|lia].
Qed.

Lemma calm_process_l : forall I w eff N z rest now m m' ws, current z = 0 -> zlen m' = N -> Forall (ready N) ws -> Forall (calm m) ws ->
  Forall (fun x => bytes m' (current x) (size x) = bytes m (current x) (size x)) ws ->
  watcher_process_changes I w eff (ws ++ z :: rest) m' now = Done (ws ++ z :: rest, m', [], 0).
Proof.
  intros I w eff N z rest now m m' ws Hz Hm. induction ws as [|x ws IH]; intros Hg Hc Hb.
  - cbn [app watcher_process_changes]. rewrite Hz. reflexivity.
  - inversion Hg as [|? ? (Hf & Hr & Hcb) Hg0]; subst. inversion Hc as [|? ? [C1 C2] Hc0]; subst. inversion Hb as [|? ? B1 Hb0]; subst.
    cbn [app watcher_process_changes].
    destruct (Z.eqb_spec (current x) 0) as [E|_]; [destruct Hf as (Hp & _); lia|].
    unfold process_one. rewrite (differs_ok (zlen m')) by auto. cbn [obind].
    assert (E : bytes_eqb (recorded x) (bytes m' (current x) (size x)) = true) by (apply bytes_eqb_spec; congruence).
    rewrite E. cbn [negb]. rewrite C1. cbn [Z.eqb obind]. rewrite IH by assumption. reflexivity.
Qed.

Lemma calm_run_l : forall I w eff N z rest m ws, current z = 0 -> Forall (ready N) ws -> Forall (calm m) ws ->
  forall hs, Forall (fun s => zlen (snd s) = N /\ forall x, In x ws -> bytes (snd s) (current x) (size x) = bytes m (current x) (size x)) hs ->
  wrun I w eff (ws ++ z :: rest) hs = Done (ws ++ z :: rest, repeat ([], 0) (length hs)).
Proof.
  intros I w eff N z rest m ws Hz Hg Hc. induction hs as [|[t m'] hs IH]; intros H; [reflexivity|].
  inversion H as [|? ? [H1 H2] H3]; subst. cbn [snd] in *. cbn [wrun].
  rewrite (calm_process_l I w eff (zlen m') z rest (counter w t) m m' ws); auto.
  - cbn [obind]. rewrite IH by assumption. reflexivity.
  - apply Forall_forall. exact H2.
Qed.

Lemma trigger_l : forall eff N z rest, (forall c a d m, zlen (eff c a d m) = zlen m) -> current z = 0 ->
  forall ws m, zlen m = N -> Forall (ready N) ws ->
  exists m' cs, watcher_trigger_all eff (ws ++ z :: rest) m = Done (m', cs) /\
    map fst cs = map (fun x => (cb x, current x, data x)) ws /\
    m' = fold_left (fun m x => eff (cb x) (current x) (data x) m) ws m.
Proof.
  intros eff N z rest He Hz. induction ws as [|x ws IH]; intros m Hm Hg.
  - exists m, []. cbn [app watcher_trigger_all]. rewrite Hz. repeat split.
  - inversion Hg as [|? ? (Hf & Hr & Hcb) Hg0]; subst. cbn [app watcher_trigger_all].
    destruct (Z.eqb_spec (current x) 0) as [E|_]; [destruct Hf as (Hp & _); lia|].
    unfold call. destruct (Z.eqb_spec (cb x) 0); [contradiction|]. rewrite (read_cur (zlen m)) by auto. cbn [obind].
    destruct (IH (eff (cb x) (current x) (data x) m) (He _ _ _ _) Hg0) as (m' & cs & E & Hc & Hm'). rewrite E. cbn [obind].
    eexists _, _. split; [reflexivity|]. cbn [map fst fold_left]. rewrite Hc. split; [reflexivity|exact Hm'].
Qed.

(** * Reading [settles] *)

Section Settles.
Variable init : list Z.
Variables a n delay hf : Z.

Lemma last_change_le : forall h t m c, steady hf ((t, m) :: h) -> last_change init a n ((t, m) :: h) = Some c -> c <= t.
Proof.
  induction h as [|[t' m'] h IH]; intros t m c Hs H; cbn [last_change] in H.
  - destruct (changed _ _ _ _); [injection H as <-; lia|discriminate].
  - destruct (changed _ _ _ _); [injection H as <-; lia|]. cbn [steady] in Hs. destruct Hs as [Ht Hs].
    specialize (IH t' m' c Hs H). lia.
Qed.

Lemma steady_mono : forall h2 h1 t m t' m', steady hf ((t, m) :: h2 ++ (t', m') :: h1) -> t' <= t.
Proof.
  induction h2 as [|[u v] h2 IH]; intros h1 t m t' m' H; cbn [app steady] in H.
  - lia.
  - destruct H as [H1 H2]. specialize (IH h1 u v t' m' H2). lia.
Qed.

Lemma once_l : forall h1 h2, 0 < delay -> steady hf (h2 ++ h1) -> h2 <> [] ->
  settles init a n delay h1 = true -> settles init a n delay (h2 ++ h1) = true ->
  last_change init a n (h2 ++ h1) <> last_change init a n h1.
Proof.
  intros h1 h2 Hd Hs Hne H1 H2 E.
  destruct h1 as [|[t1 m1] h1]; [discriminate|]. destruct h2 as [|[t2 m2] h2]; [contradiction|].
  cbn [settles] in H1. destruct h1 as [|[t1' m1'] h1']; [discriminate|].
  apply andb_true_iff in H1. destruct H1 as [C1 H1].
  destruct (last_change init a n ((t1', m1') :: h1')) as [c|] eqn:L1; [|discriminate].
  assert (L1' : last_change init a n ((t1, m1) :: (t1', m1') :: h1') = Some c).
  { change (last_change init a n ((t1, m1) :: (t1', m1') :: h1')) with
      (if changed init a n ((t1, m1) :: (t1', m1') :: h1') then Some t1 else last_change init a n ((t1', m1') :: h1')).
    apply negb_true_iff in C1. rewrite C1. exact L1. }
  rewrite L1' in E. cbn [app] in E, H2, Hs. set (k := h2 ++ (t1, m1) :: (t1', m1') :: h1') in *.
  assert (Hk : exists t' m' k', k = (t', m') :: k' /\ t1 <= t').
  { unfold k. destruct h2 as [|[u v] h2]; cbn [app]; eexists _, _, _; (split; [reflexivity|]); [lia|].
    unfold k in Hs. cbn [app steady] in Hs. destruct Hs as [_ Hs]. now apply steady_mono in Hs. }
  destruct Hk as (t' & m' & k' & Ek & Ht'). rewrite Ek in *.
  cbn [settles] in H2. apply andb_true_iff in H2. destruct H2 as [C2 H2].
  change (last_change init a n ((t2, m2) :: (t', m') :: k')) with
      (if changed init a n ((t2, m2) :: (t', m') :: k') then Some t2 else last_change init a n ((t', m') :: k')) in E.
  apply negb_true_iff in C2. rewrite C2 in E. rewrite E in H2. lia.
Qed.

Lemma eventually_l : forall h t m c, 0 < delay -> steady hf ((t, m) :: h) ->
  last_change init a n ((t, m) :: h) = Some c -> c + delay <= t ->
  exists h2 h1, (t, m) :: h = h2 ++ h1 /\ settles init a n delay h1 = true /\ last_change init a n h1 = Some c.
Proof.
  induction h as [|[t' m'] h IH]; intros t m c Hd Hs Hl Hc.
  - cbn [last_change] in Hl. destruct (changed _ _ _ _); [injection Hl as <-; lia|discriminate].
  - pose proof Hl as Hl0.
    change (last_change init a n ((t, m) :: (t', m') :: h)) with
      (if changed init a n ((t, m) :: (t', m') :: h) then Some t else last_change init a n ((t', m') :: h)) in Hl.
    destruct (changed init a n ((t, m) :: (t', m') :: h)) eqn:C; [injection Hl as <-; lia|].
    cbn [steady] in Hs. destruct Hs as [Ht Hs].
    destruct (Z_lt_ge_dec t' (c + delay)) as [Hlt|Hge].
    + exists [], ((t, m) :: (t', m') :: h). split; [reflexivity|]. split; [|exact Hl0].
      cbn [settles]. rewrite C, Hl. lia.
    + destruct (IH t' m' c Hd Hs Hl) as (h2 & h1 & E & S1 & S2); [lia|]. exists ((t, m) :: h2), h1. rewrite E. auto.
Qed.

End Settles.

Lemma watcher_history_l : forall I w eff malloc ok block z rest ws init hs,
  0 < w -> I <= w -> current z = 0 ->
  Forall (fun x => fresh x /\ fits (zlen init) x) ws ->
  (malloc = true -> ok = true) -> (malloc = false -> Forall (fun x => size x <= block /\ zlen (old x) = block) ws) ->
  harmless eff ws -> Forall (fun s => zlen (snd s) = zlen init) hs ->
  Forall (timely (2 ^ (w - 1)) (rev hs)) ws ->
  exists l l' outs, watcher_list_init malloc ok block (ws ++ z :: rest) init = Done l /\
    wrun I w eff l hs = Done (l', outs) /\ length outs = length hs /\
    forall k, (k < length hs)%nat -> nth_error outs k = Some (expected ws init (rev (firstn (S k) hs))).
Proof.
  intros I w eff malloc ok block z rest ws init hs Hw HI Hz Hf Hok Hbl He Hm Ht.
  destruct (init_l I w eff init (zlen init) z rest malloc ok block ws init Hz eq_refl Hf Hok Hbl) as (l & El & Hl). specialize (Hl eq_refl).
  assert (Hg : Forall (good (zlen init)) ws).
  { eapply Forall_impl; [|exact Hf]. intros x [(_ & F2 & _) F]. now split. }
  destruct (run_l I w Hw HI eff init (zlen init) z rest ws Hz Hg He hs [] l Hl Hm) as (l' & outs & E & _ & Hlen & Hout).
  { rewrite app_nil_r. exact Ht. }
  exists (l ++ z :: rest), (l' ++ z :: rest), outs. split; [exact El|]. split; [exact E|]. split; [exact Hlen|].
  intros k Hk. rewrite (Hout k Hk), app_nil_r. reflexivity.
Qed.

(** * The macros *)

Lemma written_fields : forall msize half h w malloc block reduce r, 0 < w -> half = 2 ^ (w - 1) -> sensible msize half h r -> storable reduce r ->
  wanted r = (current (written w malloc block reduce r), size (written w malloc block reduce r), cb (written w malloc block reduce r),
              data (written w malloc block reduce r), delay (written w malloc block reduce r)) /\
  moved (written w malloc block reduce r) = 0 /\
  old (written w malloc block reduce r) = if malloc then [] else repeat 0 (Z.to_nat block).
Proof.
  intros msize half h w malloc block reduce r Hw Hh Hs Ht.
  assert (Hsz : forall n, 0 <= n < 2 ^ 64 -> (reduce = true -> n < 256) -> wrap (if reduce then 8 else 64) (wrap 64 n) = n).
  { intros n H1 H2. rewrite (wrap_small 64) by exact H1. apply wrap_small. destruct reduce; [change (2 ^ 8) with 256; lia|exact H1]. }
  assert (Hdl : forall n, 0 <= n < 2 ^ (w - 1) -> (reduce = true -> n < 65536) -> wrap (if reduce then 16 else w) n = n).
  { intros n H1 H2. apply wrap_small. destruct reduce; [change (2 ^ 16) with 65536; lia|].
    replace w with (Z.succ (w - 1)) by lia. rewrite Z.pow_succ_r by lia. lia. }
  subst half. pose proof (Z.pow_pos_nonneg 2 (w - 1)). unfold sensible, storable in *.
  destruct r as [p e c d|p e n c d|p e c d y|p e n c d y]; cbn [wanted written WATCHER WATCHER_ARRAY WATCHER_DELAYED WATCHER_DELAYED_ARRAY current size cb data delay moved old] in *;
    rewrite ?Z.mul_1_r, Hsz by (try (intros E; specialize (Ht E)); lia); rewrite ?Hdl by (try (intros E; specialize (Ht E)); lia); auto.
Qed.

Lemma macros_l : forall I w eff malloc ok block reduce rs init hs, 0 < w -> I <= w ->
  Forall (sensible (zlen init) (2 ^ (w - 1)) (rev hs)) rs -> Forall (storable reduce) rs ->
  (malloc = true -> ok = true) -> (malloc = false -> 0 <= block /\ Forall (block_fits block) rs) ->
  leaves_alone eff rs -> Forall (fun s => zlen (snd s) = zlen init) hs ->
  exists l l' outs, watcher_list_init malloc ok block (written_list w malloc block reduce rs) init = Done l /\
    wrun I w eff l hs = Done (l', outs) /\ length outs = length hs /\
    forall k, (k < length hs)%nat -> nth_error outs k = Some (requested rs init (rev (firstn (S k) hs))).
Proof.
  intros I w eff malloc ok block reduce rs init hs Hw HI Hs Ht Hok Hbl He Hm.
  set (wr := written w malloc block reduce).
  assert (HW : forall r, In r rs -> wanted r = (current (wr r), size (wr r), cb (wr r), data (wr r), delay (wr r)) /\ moved (wr r) = 0 /\
             old (wr r) = if malloc then [] else repeat 0 (Z.to_nat block)).
  { intros r Hr. rewrite Forall_forall in Hs, Ht. exact (written_fields _ _ _ w malloc block reduce r Hw eq_refl (Hs r Hr) (Ht r Hr)). }
  destruct (watcher_history_l I w eff malloc ok block (WATCHER_NULL malloc block reduce) [] (map wr rs) init hs) as (l & l' & outs & E1 & E2 & E3 & E4); auto.
  - apply Forall_map, Forall_forall. intros r Hr. destruct (HW r Hr) as (W1 & W2 & _). rewrite Forall_forall in Hs. specialize (Hs r Hr).
    unfold sensible in Hs. rewrite W1 in Hs. unfold fresh, fits. lia.
  - intros Em. destruct (Hbl Em) as [Hb0 Hb]. apply Forall_map, Forall_forall. intros r Hr. destruct (HW r Hr) as (W1 & _ & W3). rewrite Em in W3.
    rewrite Forall_forall in Hb. specialize (Hb r Hr). unfold block_fits in Hb. rewrite W1 in Hb. split; [exact Hb|]. rewrite W3. unfold zlen. rewrite repeat_length. lia.
  - intros c a d m. destruct (He c a d m) as [H1 H2]. split; [exact H1|]. intros x Hx. apply in_map_iff in Hx. destruct Hx as (r & <- & Hr).
    specialize (H2 r Hr). destruct (HW r Hr) as (W1 & _). rewrite W1 in H2. exact H2.
  - apply Forall_map, Forall_forall. intros r Hr. destruct (HW r Hr) as (W1 & _). rewrite Forall_forall in Hs. specialize (Hs r Hr).
    unfold sensible in Hs. rewrite W1 in Hs. unfold timely. tauto.
  - exists l, l', outs. split; [exact E1|]. split; [exact E2|]. split; [exact E3|]. intros k Hk. rewrite (E4 k Hk). f_equal.
    set (h := rev (firstn (S k) hs)). unfold expected, requested. clearbody wr. clear - HW.
    induction rs as [|r rs IH]; [reflexivity|].
    assert (IH' := IH (fun r Hr => HW r (or_intror Hr))). destruct (HW r (or_introl eq_refl)) as (W1 & _).
    cbn [map filter existsb]. rewrite W1. injection IH' as I1 I2.
    assert (I2' : existsb (fun x => changed init (current x) (size x) h) (map wr rs)
                = existsb (fun r => let '(ptr, n, _, _, _) := wanted r in changed init ptr n h) rs).
    { destruct (existsb _ (map wr rs)), (existsb _ rs); cbn in I2; congruence. }
    rewrite I2'. f_equal. destruct (fires _ _ _ _ _); cbn [map]; [|exact I1]. rewrite W1. unfold call_of at 1. f_equal. exact I1.
Qed.

Lemma macros_256_l : exists r, wanted r = (1, 256, 7, 0, 0) /\
  forall L eff malloc block init hs I w, 0 <= block -> 257 <= zlen init -> Forall (fun s => 257 <= zlen (snd s)) hs ->
  exists l, watcher_list_init malloc true block (written_list L malloc block true [r]) init = Done l /\
    wrun I w eff l hs = Done (l, repeat ([], 0) (length hs)).
Proof.
  exists (RArray 1 2 128 7 0). split; [reflexivity|]. intros L eff malloc block init hs I w Hb Hi Hh.
  unfold written_list. cbn [map written app]. set (x := WATCHER_ARRAY malloc block true 1 2 128 7 0).
  assert (Hx : forall m, 257 <= zlen m -> save x m = Done x /\ differs x m = Done false).
  { intros m Hm. unfold save, differs. change (current x) with 1. change (size x) with 0.
    assert (0 <= zlen (old x)) by apply zlen_nonneg.
    rewrite !zread_ok by lia. cbn [obind Z.to_nat firstn]. rewrite zwrite_ok by (change (zlen (@nil Z)) with 0; lia). cbn [obind].
    split; [|reflexivity]. reflexivity. }
  exists [x; WATCHER_NULL malloc block true]. split.
  - cbn [watcher_list_init]. change (current x =? 0) with false. cbn iota.
    assert (E : (if malloc then Done (set_old x (repeat 0 (Z.to_nat (size x)))) else if size x <=? block then Done x else Abort) = Done x).
    { destruct malloc; [reflexivity|]. change (size x) with 0. replace (0 <=? block) with true by lia. reflexivity. }
    cbn iota in E. rewrite E. cbn [obind]. destruct (Hx init Hi) as [-> _]. cbn [obind].
    change (current (WATCHER_NULL malloc block true) =? 0) with true. reflexivity.
  - induction hs as [|[t m] hs IH]; [reflexivity|]. inversion Hh as [|? ? H1 H2]; subst. cbn [snd] in H1.
    cbn [wrun watcher_process_changes]. change (current x =? 0) with false. cbn iota. unfold process_one.
    destruct (Hx m H1) as [_ ->]. cbn [obind]. change (moved x =? 0) with true. cbn iota. cbn [obind].
    change (current (WATCHER_NULL malloc block true) =? 0) with true. cbn iota. cbn [obind app].
    rewrite (IH H2). reflexivity.
Qed.
