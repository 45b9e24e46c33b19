(** The steps of a call taken without interruption compute the sequential function; the cells a step touches. *)
From Verif Require Import Base BaseLemmas CbufModel CbufSpec CbufSystem BulkModel BulkSpec BulkSystem.

Section Solo.
Context {A : Type}.
Implicit Types c : cbuf A.

Lemma prun_plus n m c pc c1 pc1 : prun n c pc = Go c1 pc1 -> prun (n + m) c pc = prun m c1 pc1.
Proof.
  revert c pc. induction n as [|n IH]; cbn; intros c pc E; [now injection E as -> ->|].
  destruct (pnext c pc); try discriminate. now apply IH.
Qed.
Lemma crun_plus n m c pc c1 pc1 : crun n c pc = Go c1 pc1 -> crun (n + m) c pc = crun m c1 pc1.
Proof.
  revert c pc. induction n as [|n IH]; cbn; intros c pc E; [now injection E as -> ->|].
  destruct (cnext c pc); try discriminate. now apply IH.
Qed.

Lemma with_buffer_twice c b1 b2 : with_buffer (with_buffer c b1) b2 = with_buffer c b2.
Proof. reflexivity. Qed.
Lemma with_buffer_same c : with_buffer c (buffer c) = c.
Proof. now destruct c. Qed.

(** ** Copies *)
Lemma zset_in (l : list A) i a : 0 <= i < zlen l -> zset l i a = Done (upd l (Z.to_nat i) a).
Proof. intros H. unfold zset. destruct (Z.ltb_spec i 0); [lia|]. destruct (Z.leb_spec (zlen l) i); [lia|reflexivity]. Qed.

Lemma upd_app (l1 : list A) x l2 a : upd (l1 ++ x :: l2) (length l1) a = l1 ++ a :: l2.
Proof. induction l1 as [|y l1 IH]; cbn; [reflexivity|now rewrite IH]. Qed.

Lemma copy_in l k : forall c i pre mid post data1 data2, u_data l = data1 ++ data2 -> zlen data1 = i ->
  k = length mid -> (k <= length data2)%nat -> buffer c = pre ++ mid ++ post -> zlen pre = u_head l + i -> 0 <= i -> 0 <= u_head l ->
  prun k c (UCopy l (i + Z.of_nat k) i) = Go (with_buffer c (pre ++ firstn k data2 ++ post)) (UCopy l (i + Z.of_nat k) (i + Z.of_nat k)).
Proof.
  induction k as [|k IH]; intros c i pre mid post data1 data2 Ed Ei Ek Kd Eb Ep Hi Hh.
  - destruct mid; [|discriminate]. cbn. cbn in Eb. rewrite <- Eb, with_buffer_same, Z.add_0_r. reflexivity.
  - destruct mid as [|x mid]; [discriminate|]. injection Ek as Ek. destruct data2 as [|a data2]; [cbn in Kd; lia|].
    cbn [prun pnext]. replace (i <? i + Z.of_nat (S k)) with true by (symmetry; apply Z.ltb_lt; lia).
    unfold zget. replace (i <? 0) with false by (symmetry; apply Z.ltb_ge; lia).
    rewrite Ed, nth_error_app2 by (unfold zlen in Ei; lia).
    replace (Z.to_nat i - length data1)%nat with 0%nat by (unfold zlen in Ei; lia). cbn [nth_error].
    rewrite zset_in by (rewrite Eb; unfold zlen in *; rewrite !app_length; cbn; lia).
    replace (Z.to_nat (u_head l + i)) with (length pre) by (unfold zlen in *; lia). rewrite Eb. cbn [app]. rewrite upd_app.
    replace (i + Z.of_nat (S k)) with ((i + 1) + Z.of_nat k) by lia.
    rewrite (IH (with_buffer c (pre ++ a :: mid ++ post)) (i + 1) (pre ++ [a]) mid post (data1 ++ [a]) data2); try assumption.
    + rewrite with_buffer_twice. cbn [firstn app]. rewrite <- app_assoc. cbn. now replace (i + 1 + Z.of_nat k) with (i + Z.of_nat (S k)) by lia.
    + rewrite Ed, <- app_assoc. reflexivity.
    + unfold zlen in *. rewrite app_length. cbn. lia.
    + cbn in Kd. lia.
    + cbn. rewrite <- app_assoc. reflexivity.
    + unfold zlen in *. rewrite app_length. cbn. lia.
    + lia.
Qed.

Lemma copy_run l c chunk src b : zread (u_data l) 0 chunk = Done src -> zwrite (buffer c) (u_head l) src = Done b ->
  prun (Z.to_nat chunk) c (UCopy l chunk 0) = Go (with_buffer c b) (UCopy l chunk chunk) /\ 0 <= chunk.
Proof.
  unfold zread, zwrite. destruct ((0 <? 0) || (chunk <? 0) || (zlen (u_data l) <? 0 + chunk)) eqn:E1; [discriminate|].
  intros E. injection E as <-. cbn [Z.to_nat skipn]. destruct ((u_head l <? 0) || (zlen (buffer c) <? u_head l + zlen (firstn (Z.to_nat chunk) (u_data l)))) eqn:E2; [intros E; discriminate E|].
  intros E. injection E as <-.
  rewrite !orb_false_iff, !Z.ltb_ge in E1. rewrite orb_false_iff, !Z.ltb_ge in E2. cbn [Z.to_nat skipn] in *.
  assert (L : length (firstn (Z.to_nat chunk) (u_data l)) = Z.to_nat chunk) by (rewrite firstn_length; unfold zlen in *; lia).
  split; [|lia]. unfold zlen in E2. rewrite L in E2. rewrite L.
  set (h := Z.to_nat (u_head l)) in *. set (n := Z.to_nat chunk) in *.
  replace chunk with (0 + Z.of_nat n) by (unfold n; lia).
  apply (copy_in l n c 0 (firstn h (buffer c)) (firstn n (skipn h (buffer c))) (skipn (h + n) (buffer c)) [] (u_data l)); try reflexivity; try lia.
  - rewrite firstn_length, skipn_length. unfold h, n. lia.
  - unfold n, zlen in *. lia.
  - assert (S : skipn (h + n) (buffer c) = skipn n (skipn h (buffer c))).
    { generalize (buffer c). clear. induction h as [|h IH]; intros [|x y]; cbn; try reflexivity; [now rewrite skipn_nil|apply IH]. }
    rewrite S, !firstn_skipn. reflexivity.
  - unfold zlen. rewrite firstn_length. unfold h. lia.
Qed.

(** ** The producer *)
Lemma full_after c : is_circular_buf_full c = (after c (head c) 1 =? tail c).
Proof. unfold is_circular_buf_full, after. now replace (wrap 64 1) with 1 by reflexivity. Qed.

Lemma putc_solo_l c a c' r : circular_buf_putc c a = Done (c', r) -> exists n, prun n c (PFull0 a) = Ret c' r [].
Proof.
  unfold circular_buf_putc. rewrite full_after. destruct (after c (head c) 1 =? tail c) eqn:F; cbn [negb].
  - intros E. injection E as <- <-. exists 2%nat. cbn. now rewrite F.
  - destruct (zset (buffer c) (head c) a) as [b| | |] eqn:S; cbn [obind]; try discriminate. intros E. injection E as <- <-.
    exists 8%nat. cbn [prun pnext]. rewrite F. cbn [prun pnext]. rewrite S. cbn [prun pnext].
    assert (F' : after (with_buffer c b) (head (with_buffer c b)) 1 =? tail (with_buffer c b) = false) by exact F. rewrite F'.
    unfold advance_pointer. rewrite full_after, F'. reflexivity.
Qed.

Lemma puts_loop_l fuel : forall c l c' r, puts_loop fuel c (u_head l) (u_tail l) (u_data l) (u_len l) (u_written l) = Done (c', r) ->
  exists n, prun n c (ULoop0 l) = Ret c' r [].
Proof.
  induction fuel as [|fuel IH]; intros c l c' r; cbn [puts_loop]; rewrite full_after;
    destruct (negb (after c (head c) 1 =? tail c) && (0 <? u_len l)) eqn:W; try discriminate.
  1, 3: intros E; injection E as <- <-; exists 2%nat; cbn [prun pnext]; now rewrite W.
  fold (chunk_of c l). set (chunk := chunk_of c l).
  destruct (zread (u_data l) 0 chunk) as [src| | |] eqn:R; cbn [obind]; try discriminate.
  destruct (zwrite (buffer c) (u_head l) src) as [b| | |] eqn:B; cbn [obind]; try discriminate.
  destruct (copy_run l c chunk src b R B) as (C & C0). intros E.
  set (c1 := advance_pointer (with_buffer c b) chunk) in *.
  set (l1 := mkPuts (head c1) (u_tail l) (skipn (Z.to_nat chunk) (u_data l)) (wrap 64 (u_len l - wrap 64 chunk)) (swrap 32 (u_written l + chunk))).
  assert (Hadv : exists k, prun k (with_buffer c b) (UAdv0 l chunk) = Go c1 (ULoop0 l1)).
  { unfold c1, advance_pointer. rewrite full_after.
    destruct ((after (with_buffer c b) (head (with_buffer c b)) 1 =? tail (with_buffer c b)) || (chunk =? 0)) eqn:F.
    - exists 3%nat. cbn [prun pnext]. rewrite F. cbn [prun pnext]. unfold l1, c1, advance_pointer. rewrite full_after, F. reflexivity.
    - exists 5%nat. cbn [prun pnext]. rewrite F. cbn [prun pnext]. unfold l1, c1, advance_pointer. rewrite full_after, F. reflexivity. }
  destruct Hadv as (k & Hk). destruct (IH c1 l1 c' r E) as (n & Hn).
  exists (2 + (Z.to_nat chunk + (1 + (k + n))))%nat.
  rewrite (prun_plus 2 _ c _ c (UCopy l chunk 0)) by (cbn [prun pnext]; rewrite W; reflexivity).
  rewrite (prun_plus _ _ _ _ _ _ C).
  rewrite (prun_plus 1 _ _ _ (with_buffer c b) (UAdv0 l chunk)) by (cbn [prun pnext]; now rewrite Z.ltb_irrefl).
  rewrite (prun_plus _ _ _ _ _ _ Hk). exact Hn.
Qed.

Lemma puts_solo_l c data len c' r : circular_buf_puts c data len = Done (c', r) -> exists n, prun n c (UHead0 data len) = Ret c' r [].
Proof.
  intros E. destruct (puts_loop_l _ c (mkPuts (head c) (tail c) data len 0) c' r E) as (n & Hn).
  exists (2 + n)%nat. rewrite (prun_plus 2 n c _ c (ULoop0 (mkPuts (head c) (tail c) data len 0))) by reflexivity. exact Hn.
Qed.

(** ** The consumer *)
Lemma getc_solo_l c c' r v : circular_buf_getc c = Done (c', (r, v)) ->
  exists n, crun n c CEmpty0 = Ret c' r match v with Some a => [a] | None => [] end.
Proof.
  unfold circular_buf_getc, is_circular_buf_empty. destruct (head c =? tail c) eqn:F.
  - intros E. injection E as <- <- <-. exists 2%nat. cbn. now rewrite F.
  - destruct (zget (buffer c) (tail c)) as [a| | |] eqn:G; cbn [obind]; try discriminate. intros E. injection E as <- <- <-.
    exists 6%nat. cbn [crun cnext]. rewrite F. cbn [crun cnext]. rewrite G. reflexivity.
Qed.

Definition holding (l : get_locals A) (d : list A) : get_locals A := mkGet (g_head l) (g_tail l) (g_len l) (g_read l) d.

Lemma copy_out l p k n : forall c i d, zread (buffer c) (g_tail l + i) (Z.of_nat n) = Done d ->
  forall acc, crun n c (GCopy (holding l acc) p k (i + Z.of_nat n) i) = Go c (GCopy (holding l (acc ++ d)) p k (i + Z.of_nat n) (i + Z.of_nat n)).
Proof.
  induction n as [|n IH]; intros c i d E acc.
  - unfold zread in E. destruct (_ || _) in E; [discriminate|]. injection E as <-. cbn. now rewrite Z.add_0_r, app_nil_r.
  - cbn [crun cnext]. replace (i <? i + Z.of_nat (S n)) with true by (symmetry; apply Z.ltb_lt; lia).
    cbn [holding g_tail g_head g_len g_read g_data].
    unfold zread in E. destruct ((g_tail l + i <? 0) || (Z.of_nat (S n) <? 0) || (zlen (buffer c) <? g_tail l + i + Z.of_nat (S n))) eqn:B; [discriminate|].
    rewrite !orb_false_iff, !Z.ltb_ge in B. injection E as <-. unfold zget.
    replace (g_tail l + i <? 0) with false by (symmetry; apply Z.ltb_ge; lia).
    destruct (skipn (Z.to_nat (g_tail l + i)) (buffer c)) as [|a rest] eqn:S.
    { exfalso. apply (f_equal (@length A)) in S. rewrite skipn_length in S. unfold zlen in B. cbn in S. lia. }
    assert (N : nth_error (buffer c) (Z.to_nat (g_tail l + i)) = Some a).
    { rewrite <- (firstn_skipn (Z.to_nat (g_tail l + i)) (buffer c)), S, nth_error_app2; rewrite firstn_length; [|lia].
      unfold zlen in B. replace (_ - _)%nat with 0%nat by lia. reflexivity. }
    rewrite N. replace (i + Z.of_nat (Datatypes.S n)) with (i + 1 + Z.of_nat n) by lia.
    change (mkGet (g_head l) (g_tail l) (g_len l) (g_read l) (acc ++ [a])) with (holding l (acc ++ [a])).
    rewrite (IH c (i + 1) (firstn n rest)).
    + rewrite SuccNat2Pos.id_succ. cbn [firstn]. now rewrite <- app_assoc.
    + unfold zread. replace ((g_tail l + (i + 1) <? 0) || (Z.of_nat n <? 0) || (zlen (buffer c) <? g_tail l + (i + 1) + Z.of_nat n)) with false.
      * rewrite Nat2Z.id. replace (skipn (Z.to_nat (g_tail l + (i + 1))) (buffer c)) with rest; [reflexivity|].
        replace (Z.to_nat (g_tail l + (i + 1))) with (Datatypes.S (Z.to_nat (g_tail l + i))) by lia.
        revert S. generalize (Z.to_nat (g_tail l + i)) (buffer c). clear. intros m. induction m as [|m IH]; intros [|x y] S; try discriminate.
        { now injection S. } { exact (IH y S). }
      * symmetry. rewrite !orb_false_iff, !Z.ltb_ge. lia.
Qed.

Lemma get_loop_l fuel : forall c l p k c' r d, get_loop fuel c (g_head l) (g_tail l) (g_len l) p k (g_data l) (g_read l) = Done (c', (r, d)) ->
  exists n, crun n c (GLoop l p k) = Ret c' r d.
Proof.
  induction fuel as [|fuel IH]; intros c l p k c' r d; cbn [get_loop]; destruct (0 <? g_len l) eqn:W; try discriminate.
  1, 3: intros E; injection E as <- <- <-; exists 1%nat; cbn [crun cnext]; now rewrite W.
  fold (get_chunk c l). set (chunk := get_chunk c l).
  assert (Hcopy : forall dst, (if p then zread (buffer c) (g_tail l) chunk else Done []) = Done dst ->
    exists j, crun j c (GLoop l p k) = Go c (GAdv0 (holding l (g_data l ++ dst)) p k chunk)).
  { intros dst E. destruct p.
    - assert (C0 : 0 <= chunk) by (unfold zread in E; destruct (chunk <? 0) eqn:X; [rewrite orb_true_r in E; discriminate|apply Z.ltb_ge in X; exact X]).
      exists (1 + (Z.to_nat chunk + 1))%nat.
      rewrite (crun_plus 1 _ c _ c (GCopy l true k chunk 0)) by (cbn [crun cnext]; rewrite W; reflexivity).
      pose proof (copy_out l true k (Z.to_nat chunk) c 0 dst) as H. rewrite Z2Nat.id, !Z.add_0_l, Z.add_0_r in H by exact C0. specialize (H E (g_data l)).
      replace (holding l (g_data l)) with l in H by now destruct l.
      rewrite (crun_plus _ _ _ _ _ _ H). cbn [crun cnext]. now rewrite Z.ltb_irrefl.
    - injection E as <-. exists 1%nat. cbn [crun cnext]. rewrite W, app_nil_r. now replace (holding l (g_data l)) with l by now destruct l. }
  destruct (if p then zread (buffer c) (g_tail l) chunk else Done []) as [dst| | |] eqn:R; cbn [obind]; try discriminate.
  destruct (Hcopy dst eq_refl) as (j & Hj). clear Hcopy.
  destruct k; intros E.
  - set (c1 := retreat_pointer c (swrap 32 chunk)) in *.
    destruct (IH c1 (mkGet (g_head l) (swrap 32 (tail c1)) (wrap 64 (g_len l - chunk)) (swrap 32 (g_read l + chunk)) (g_data l ++ dst)) p true c' r d E) as (n & Hn).
    exists (j + (3 + n))%nat. rewrite (crun_plus _ _ _ _ _ _ Hj).
    rewrite (crun_plus 3 n _ _ c1 (GLoop (mkGet (g_head l) (swrap 32 (tail c1)) (wrap 64 (g_len l - chunk)) (swrap 32 (g_read l + chunk)) (g_data l ++ dst)) p true)) by reflexivity.
    exact Hn.
  - match type of E with get_loop _ _ ?h ?t ?len _ _ ?acc ?rd = _ => destruct (IH c (mkGet h t len rd acc) p false c' r d E) as (n & Hn);
      exists (j + (1 + n))%nat; rewrite (crun_plus _ _ _ _ _ _ Hj); rewrite (crun_plus 1 n _ _ c (GLoop (mkGet h t len rd acc) p false)) by reflexivity end.
    exact Hn.
Qed.

Lemma get_solo_l c len p k c' r d : circular_buf_get c len p k = Done (c', (r, d)) -> exists n, crun n c (GSize0 len p k) = Ret c' r d.
Proof.
  unfold circular_buf_get. intros E.
  destruct (get_loop_l _ c (mkGet (swrap 32 (head c)) (swrap 32 (tail c)) (if len <? circular_buf_size c then len else circular_buf_size c) 0 []) p k c' r d E) as (n & Hn).
  exists (6 + n)%nat. rewrite (crun_plus 6 n _ _ c (GLoop (mkGet (swrap 32 (head c)) (swrap 32 (tail c)) (if len <? circular_buf_size c then len else circular_buf_size c) 0 []) p k)).
  - exact Hn.
  - cbn [crun cnext]. unfold circular_buf_size. rewrite full_after. reflexivity.
Qed.

Lemma solo_l c o c' r d : shared_call o -> cbuf_step c o = Done (c', (r, d)) -> solo c o (c', (r, d)).
Proof.
  intros S. destruct o as [a| | | | | | |data len|len|len|len]; try destruct S; cbn.
  - destruct (circular_buf_putc c a) as [[c1 r1]| | |] eqn:E; cbn; try discriminate. intros H. injection H as <- <- <-. now apply putc_solo_l.
  - destruct (circular_buf_getc c) as [[c1 [r1 v]]| | |] eqn:E; cbn; try discriminate. intros H. injection H as <- <- <-. now apply getc_solo_l.
  - destruct (circular_buf_puts c data len) as [[c1 r1]| | |] eqn:E; cbn; try discriminate. intros H. injection H as <- <- <-. now apply puts_solo_l.
  - apply get_solo_l.
  - apply get_solo_l.
  - apply get_solo_l.
Qed.

(** ** The cells *)
Lemma zget_other (l : list A) i a b j : zset l i a = Done b -> i <> j -> zget b j = zget l j.
Proof.
  unfold zset, zget. destruct ((i <? 0) || (zlen l <=? i)) eqn:B; [discriminate|]. rewrite orb_false_iff, Z.ltb_ge, Z.leb_gt in B.
  intros E N. injection E as <-. destruct (Z.ltb_spec j 0); [reflexivity|].
  assert (M : Z.to_nat i <> Z.to_nat j) by lia. revert M. generalize (Z.to_nat i) (Z.to_nat j). clear.
  induction l as [|x l IH]; intros i j M; [reflexivity|]. destruct i as [|i], j as [|j]; cbn; try reflexivity; [now destruct M|apply IH; lia].
Qed.

Lemma stores_l c pc j : writes pc <> Some j ->
  match pnext c pc with Go c' _ | Ret c' _ _ => zget (buffer c') j = zget (buffer c) j | Bad => True end.
Proof.
  destruct pc; cbn; intros W; try reflexivity;
    repeat match goal with
    | |- context [zset ?l ?i ?x] => destruct (zset l i x) eqn:?; try exact I
    | |- context [zget (u_data ?l) ?i] => destruct (zget (u_data l) i) eqn:?; try exact I
    | |- context [if ?b then _ else _] => destruct b eqn:?; try reflexivity
    end; cbn; try (eapply zget_other; [eassumption|congruence]).
Qed.

Lemma loads_l c b cc : (forall j, reads cc = Some j -> zget b j = zget (buffer c) j) ->
  cnext (with_buffer c b) cc = match cnext c cc with Go c' cc' => Go (with_buffer c' b) cc' | Ret c' r d => Ret (with_buffer c' b) r d | Bad => Bad end.
Proof.
  destruct cc; cbn; intros H; try reflexivity;
    repeat match goal with
    | |- context [if ?x then _ else _] => destruct x eqn:?; try reflexivity
    end.
  - rewrite (H _ eq_refl). now destruct (zget (buffer c) t).
  - rewrite (H _ eq_refl). now destruct (zget (buffer c) _).
Qed.

End Solo.
