(** Properties C41-C46, C104, C132, C133: wear leveled memory on a device of [N] blocks of [B] bytes.  [wread h]
    initialises, executes the history [h] and reads [B] bytes. *)
From Coq Require Import ZifyBool.
From Verif Require Import Base BaseLemmas WearModel WearSpec WearSystem WearProofs WearExactProofs.

(** C41: every device content, writes only. *)
Theorem wear_read : forall N B, 0 < N < 256 -> 0 < B < 2 ^ 64 ->
  forall d h, dev_ok N B d -> Forall (wop_ok B) h -> Forall is_write h ->
  exists d0, wread B N d [] = Done (0, d0) /\ wread B N d h = Done (0, fst (wstate d0 h)).
Proof. exact wear_read_l. Qed.
Print Assumptions wear_read.

(** C41: writes succeed; one of the data already stored does not touch the device. *)
Theorem wear_write : forall N B, 0 < N < 256 -> 0 < B < 2 ^ 64 ->
  forall d h x, dev_ok N B d -> Forall (wop_ok B) h -> Forall is_write h -> zlen x = B ->
  exists d1 w1 d2 w2, (do s <- wstart N d; wrun N s h) = Done (d1, w1) /\
    wl_write good d1 w1 x = Done (d2, w2, 0) /\
    (wread B N d h = Done (0, x) -> d2 = d1 /\ w2 = w1) /\
    (wread B N d h <> Done (0, x) -> exists b, written d2 = b :: written d1).
Proof.
  intros N B HN HB d h x Hd Hok Hwr Hx. unfold wread, wstart.
  destruct (init_defined N B HN HB d Hd) as (w & E & Hw). rewrite E. cbn [obind].
  destruct (writes_spec N B HN HB h d w 0 Hd Hw Hok Hwr) as (d' & w' & E' & Hd' & Hw' & C & _).
  exists d', w'. rewrite E'. cbn [obind]. unfold wl_read. cbn [rd good].
  pose proof Hw' as (_ & W2 & _). rewrite (rd_spec N B HN HB) by assumption. fold (cur d' w').
  pose proof (write_good N B HN HB d' w' x Hd' Hw' Hx) as HW. cbv zeta in HW. rewrite HW. unfold same.
  destruct (list_eq_dec Z.eq_dec x (cur d' w')) as [<-|Hne].
  - eexists. eexists. split; [reflexivity|]. split; [reflexivity|]. split; [auto|congruence].
  - eexists. eexists. split; [reflexivity|]. split; [reflexivity|]. split; [congruence|]. intros _. eexists. reflexivity.
Qed.
Print Assumptions wear_write.

Definition dev3 : device := mkDev [255; 255; 255] [[0; 0]; [0; 0]; [0; 0]] [].

Lemma dev3_ok : dev_ok 3 2 dev3 /\ erased 255 dev3.
Proof. split; [|repeat constructor]. split; [reflexivity|]. split; [repeat constructor; lia|]. split; [reflexivity|repeat constructor]. Qed.

Example wear_read_example :
  let h := [WWrite [1;1]; WWrite [2;2]; WWrite [2;2]; WWrite [3;3]; WWrite [4;4]] in
  Forall (wop_ok 2) h /\ Forall is_write h /\ wstate [0;0] h = ([4;4], 4) /\ wread 2 3 dev3 h = Done (0, [4;4]).
Proof. cbv zeta. split; [repeat constructor|]. split; [repeat constructor|]. split; vm_compute; reflexivity. Qed.

(** C42 refuted: restarted while the last block is active, the memory falls back to the oldest
    block; here to the content from before all writes. *)
Theorem wear_restart_refuted : exists N B d h c, 0 < N < 256 /\ dev_ok N B d /\ erased c d /\
  Forall (wop_ok B) h /\ exists d0, wread B N d [] = Done (0, d0) /\
  wread B N d (h ++ [WRestart]) = Done (0, d0) /\ fst (wstate d0 h) <> d0.
Proof.
  exists 3, 2, dev3, [WWrite [1;1]; WWrite [2;2]], 255. split; [lia|]. split; [apply dev3_ok|].
  split; [apply dev3_ok|]. split; [repeat constructor|]. exists [0;0]. split; [vm_compute; reflexivity|].
  split; [vm_compute; reflexivity|]. vm_compute. discriminate.
Qed.
Print Assumptions wear_restart_refuted.

(** C42, C43: from an erased device, over all histories of writes, restarts and interrupted
    writes in which no restart happens while the last of several blocks is active. *)
Theorem wear_restart_partial : forall N B, 0 < N < 256 -> 0 < B < 2 ^ 64 ->
  forall c d h, 0 <= c < 256 -> dev_ok N B d -> erased c d -> Forall (wop_ok B) h ->
  let d0 := nth 0 (blocks d) [] in
  restarts_ok N (d0, 0) h ->
  wread B N d h = Done (0, fst (wstate d0 h)).
Proof. exact wear_restart_l. Qed.
Print Assumptions wear_restart_partial.

(** C42 otherwise, for every number of blocks above 1: a restart while the last block is active
    falls back by N - 1 changes. *)
Theorem wear_restart_falls_back : forall N B, 0 < N < 256 -> 0 < B < 2 ^ 64 ->
  forall c d h, 0 <= c < 256 -> dev_ok N B d -> erased c d -> Forall (wop_ok B) h ->
  let d0 := nth 0 (blocks d) [] in let n := snd (wstate d0 h) in
  restarts_ok N (d0, 0) h -> 1 < N -> n mod N = N - 1 ->
  exists h1 h2, h = h1 ++ h2 /\ snd (wstate d0 h1) = n - (N - 1) /\
    wread B N d (h ++ [WRestart]) = Done (0, fst (wstate d0 h1)).
Proof. exact wear_falls_back_l. Qed.
Print Assumptions wear_restart_falls_back.

Example wear_falls_back_example :
  let h := [WWrite [1;1]; WWrite [2;2]; WWrite [3;3]; WWrite [4;4]; WWrite [5;5]] in
  restarts_ok 3 ([0;0], 0) h /\ snd (wstate [0;0] h) mod 3 = 3 - 1 /\
  wread 2 3 dev3 (h ++ [WRestart]) = Done (0, [3;3]).
Proof. cbv zeta. split; [repeat constructor|]. split; vm_compute; reflexivity. Qed.

Example wear_restart_example :
  let h := [WWrite [1;1]; WRestart; WWrite [2;2]; WWrite [3;3]; WRestart; WTorn [4;4] [4;9]; WWrite [5;5]; WRestart] in
  Forall (wop_ok 2) h /\ restarts_ok 3 ([0;0], 0) h /\ wread 2 3 dev3 h = Done (0, [5;5]).
Proof.
  cbv zeta. split; [repeat constructor|]. split; [|vm_compute; reflexivity].
  cbn. unfold not_last. cbn. repeat split; try (right; lia); lia.
Qed.

(** C43 refuted: power lost in the write that follows the last block leaves neither the old nor
    the new data. *)
Theorem wear_crash_refuted : exists N B d h x g c, 0 < N < 256 /\ dev_ok N B d /\ erased c d /\
  Forall (wop_ok B) (h ++ [WTorn x g]) /\ exists old r,
  wread B N d h = Done (0, old) /\ wread B N d (h ++ [WTorn x g]) = Done (0, r) /\ r <> old /\ r <> x.
Proof.
  exists 3, 2, dev3, [WWrite [1;1]; WWrite [2;2]], [3;3], [3;2], 255. split; [lia|]. split; [apply dev3_ok|].
  split; [apply dev3_ok|]. split; [repeat constructor|]. exists [2;2], [3;2]. split; [vm_compute; reflexivity|].
  split; [vm_compute; reflexivity|]. split; discriminate.
Qed.
Print Assumptions wear_crash_refuted.

(** C43 unless the last block is active after the restart: the old data if the marker was not
    stored, the new data otherwise. *)
Theorem wear_crash_partial : forall N B, 0 < N < 256 -> 0 < B < 2 ^ 64 ->
  forall c d h x g, 0 <= c < 256 -> dev_ok N B d -> erased c d -> Forall (wop_ok B) h -> zlen x = B -> zlen g = B ->
  let d0 := nth 0 (blocks d) [] in let s := wstate d0 h in
  restarts_ok N (d0, 0) h ->
  (not_last N (snd s) ->
   wread B N d (h ++ [WTorn x g]) = Done (0, fst s)) /\
  (not_last N (snd (wstep s (WWrite x))) -> wread B N d (h ++ [WWrite x; WRestart]) = Done (0, x)).
Proof.
  intros N B HN HB c d h x g Hc Hd He Hok Hx Hg d0 s Hr.
  assert (HA : forall a b st, restarts_ok N st a -> restarts_ok N (fold_left wstep a st) b -> restarts_ok N st (a ++ b)).
  { induction a as [|o a IH]; intros b st H1 H2; [exact H2|]. destruct H1 as [H1 H3]. cbn [app restarts_ok].
    split; [exact H1|]. apply IH; assumption. }
  split; intros Hn.
  - assert (Hok' : Forall (wop_ok B) (h ++ [WTorn x g])).
    { apply Forall_app. split; [exact Hok|]. repeat constructor; assumption. }
    rewrite (wear_restart_l N B HN HB c d _ Hc Hd He Hok').
    + f_equal. f_equal. unfold wstate. rewrite fold_left_app. reflexivity.
    + apply HA; [exact Hr|]. cbn [restarts_ok]. split; [exact Hn|exact I].
  - assert (Hok' : Forall (wop_ok B) (h ++ [WWrite x; WRestart])).
    { apply Forall_app. split; [exact Hok|]. repeat constructor; assumption. }
    rewrite (wear_restart_l N B HN HB c d _ Hc Hd He Hok').
    + f_equal. f_equal. unfold wstate. rewrite fold_left_app. cbn [fold_left wstep].
      unfold same. fold (wstate (nth 0 (blocks d) []) h). fold d0. fold s. destruct (list_eq_dec Z.eq_dec x (fst s)); auto.
    + apply HA; [exact Hr|]. cbn [restarts_ok]. split; [exact I|]. split; [right; exact Hn|exact I].
Qed.
Print Assumptions wear_crash_partial.

(** C44: as many device writes as changes, round robin (newest first), evenly spread. *)
Theorem wear_even : forall N B, 0 < N < 256 -> 0 < B < 2 ^ 64 ->
  forall d h, dev_ok N B d -> written d = [] -> Forall (wop_ok B) h -> Forall is_write h ->
  exists d0 d' w', wread B N d [] = Done (0, d0) /\
    (do s <- wstart N d; wrun N s h) = Done (d', w') /\
    zlen (written d') = snd (wstate d0 h) /\
    (exists a, written d' = rev (map (fun i => (a + Z.of_nat i) mod N) (seq 0 (length (written d'))))) /\
    forall b b', 0 <= b < N -> 0 <= b' < N -> Z.abs (times b (written d') - times b' (written d')) <= 1.
Proof. exact wear_even_l. Qed.
Print Assumptions wear_even.

Example wear_even_example :
  (do s <- wstart 3 dev3; do (d, w) <- wrun 3 s [WWrite [1;1]; WWrite [2;2]; WWrite [2;2]; WWrite [3;3]; WWrite [4;4]];
   Done (written d)) = Done [1; 0; 2; 1].
Proof. reflexivity. Qed.

(** C45 refuted: after a refused write another block is active. *)
Theorem wear_failed_write_refuted : exists N B d h x c e, 0 < N < 256 /\ dev_ok N B d /\ erased c d /\
  Forall (wop_ok B) h /\ e <> 0 /\
  exists d1 w1 w2 old new, (do s <- wstart N d; wrun N s h) = Done (d1, w1) /\
  wl_read good d1 w1 B = Done (0, old) /\
  wl_write (refusing e) d1 w1 x = Done (d1, w2, e) /\ wl_read good d1 w2 B = Done (0, new) /\ new <> old.
Proof.
  exists 3, 2, dev3, [WWrite [1;1]], [2;2], 255, (-1). split; [lia|]. split; [apply dev3_ok|].
  split; [apply dev3_ok|]. split; [repeat constructor|]. split; [lia|]. do 5 eexists.
  split; [vm_compute; reflexivity|]. split; [vm_compute; reflexivity|]. split; [vm_compute; reflexivity|].
  split; [vm_compute; reflexivity|]. discriminate.
Qed.
Print Assumptions wear_failed_write_refuted.

(** C45: the code is returned, the device is as before, and initialising again recovers the
    stored data unless the last of several blocks was active. *)
Theorem wear_failed_write_partial : forall N B, 0 < N < 256 -> 0 < B < 2 ^ 64 ->
  forall c e d h x, 0 <= c < 256 -> e <> 0 -> dev_ok N B d -> erased c d -> Forall (wop_ok B) h -> zlen x = B ->
  let d0 := nth 0 (blocks d) [] in let s := wstate d0 h in
  restarts_ok N (d0, 0) h -> x <> fst s ->
  exists d1 w1 w2, (do s <- wstart N d; wrun N s h) = Done (d1, w1) /\
    wl_write (refusing e) d1 w1 x = Done (d1, w2, e) /\
    (N = 1 \/ not_last N (snd s) -> wread B N d1 [] = Done (0, fst s)).
Proof.
  intros N B HN HB c e d h x Hc He Hd Her Hok Hx d0 s Hr Hne. unfold wstart.
  destruct (erased_start N B HN HB c d Hc Hd Her) as [HI HE]. rewrite HE. cbn [obind].
  destruct (restart_run N B HN HB c h 0 d (mkWl N 0 c) Hc HI Hok) as (d1 & w1 & E & HI' & C); [exact Hr|].
  change (cur d (mkWl N 0 c)) with d0 in *. fold (wstate d0 h) in *. fold s in HI', C.
  pose proof HI' as (Hd1 & W1 & Hn & W2 & W3 & Hmk).
  assert (Hw1 : wl_ok N w1).
  { split; [exact W1|]. split; [rewrite W2; apply Z.mod_pos_bound; lia|]. rewrite W3. apply Z.mod_pos_bound. lia. }
  destruct (wear_failed_write_l N B HN HB e d1 w1 x He Hd1 Hw1 Hx) as (w2 & E2).
  { unfold same. destruct (list_eq_dec Z.eq_dec x (cur d1 w1)); [|reflexivity]. congruence. }
  exists d1, w1, w2. split; [exact E|]. split; [exact E2|]. intros Hpos.
  unfold wread, wstart. rewrite (rinv_init N B HN HB c (snd s) d1 w1 Hc HI' Hpos). cbn [obind wrun].
  unfold wl_read. cbn [rd good]. rewrite (rd_spec N B HN HB); [|assumption|apply Hw1]. f_equal. f_equal. exact C.
Qed.
Print Assumptions wear_failed_write_partial.

Example wear_failed_write_example :
  let h := [WWrite [1;1]] in
  Forall (wop_ok 2) h /\ restarts_ok 3 ([0;0], 0) h /\ not_last 3 (snd (wstate [0;0] h)) /\ [2;2] <> fst (wstate [0;0] h).
Proof. cbv zeta. split; [repeat constructor|]. split; [repeat constructor|]. split; [vm_compute; lia|vm_compute; discriminate]. Qed.

(** C46 refuted: the positive code 1 of read_marker makes block 1 the active one. *)
Theorem wear_unreadable_refuted : exists N B d k e w, 0 < N < 256 /\ dev_ok N B d /\ e <> 0 /\
  wl_init (unreadable k e) d N = Done w /\ 0 <= last_active_block w < N /\ wl_init good d N <> Done w.
Proof.
  exists 3, 2, dev3, 0, 1. eexists. split; [lia|]. split; [apply dev3_ok|]. split; [lia|].
  split; [vm_compute; reflexivity|]. split; [cbn; lia|]. vm_compute. discriminate.
Qed.
Print Assumptions wear_unreadable_refuted.

(** C46: the error code becomes the active block unless the search stopped before the
    unreadable marker; a negative code never names a block of the device. *)
Theorem wear_unreadable_partial : forall N B, 0 < N < 256 -> 0 < B < 2 ^ 64 ->
  forall k e d, e <> 0 -> INT_MIN <= e <= INT_MAX -> dev_ok N B d -> 0 <= k ->
  exists w, wl_init (unreadable k e) d N = Done w /\
    (last_active_block w = wrap 64 e \/ wl_init good d N = Done w) /\
    (e < 0 -> wl_init good d N = Done w \/ N <= last_active_block w).
Proof.
  intros N B HN HB k e d He Hr Hd Hk.
  destruct (wear_unreadable_l N B HN HB k e d He Hd Hk) as (w & E & [H|H]); exists w; (split; [exact E|]).
  - split; [now left|]. intros Hneg. right. rewrite H.
    assert (Ew : wrap 64 e = e + 18446744073709551616).
    { unfold wrap. symmetry. apply Z.mod_unique with (q := -1); unfold INT_MIN in *; change (2 ^ 64) with 18446744073709551616; lia. }
    rewrite Ew. unfold INT_MIN in *. lia.
  - split; [now right|]. intros _. now left.
Qed.
Print Assumptions wear_unreadable_partial.

(** C104: a device that fails to read is reported, nothing is written and the structure stays;
    256 or more blocks do not pass the assertion. *)
Theorem wear_read_errors : forall Dev (cb : callbacks Dev) d w x e b, zlen x <> 0 -> e <> 0 ->
  rd cb d (last_active_block w) (zlen x) = Done (e, b) ->
  wl_write cb d w x = Done (d, w, e) /\ wl_read cb d w (zlen x) = Done (e, b).
Proof.
  intros Dev cb d w x e b Hx He H. unfold wl_write, wl_read.
  destruct (Z.eqb_spec (zlen x) 0); [contradiction|]. rewrite H. cbn [obind].
  destruct (Z.eqb_spec e 0); [contradiction|]. split; reflexivity.
Qed.
Print Assumptions wear_read_errors.

Theorem wear_too_many_blocks : forall Dev (cb : callbacks Dev) d N, 256 <= N -> wl_init cb d N = Abort.
Proof.
  intros Dev cb d N HN. unfold wl_init, MAX_BLOCKS_IN_PAGE. destruct (Z.leb_spec 256 N); [reflexivity|lia].
Qed.
Print Assumptions wear_too_many_blocks.

Definition broken : callbacks device := mkCb (fun d b len => Done (-7, [])) dev_wr dev_rm.
Example wear_read_errors_example :
  rd broken dev3 (last_active_block (mkWl 3 0 255)) (zlen [1; 1]) = Done (-7, []) /\
  wl_write broken dev3 (mkWl 3 0 255) [1; 1] = Done (dev3, mkWl 3 0 255, -7).
Proof. split; reflexivity. Qed.

(** C132: from any device contents, every history of writes, refused writes, restarts and interrupted writes: markers,
    data, results of the writes and what is read are those of the specification. *)
Theorem wear_exact : forall N B, 0 < N < 256 -> 0 < B < 2 ^ 64 ->
  forall d h, dev_ok N B d -> Forall (xop_ok B) h ->
  let r := xstates (boot (markers d) (blocks d)) h in
  exists d' w', (do s <- wstart N d; xrun N s h) = Done ((d', w'), snd r) /\
    markers d' = marks (fst r) /\ blocks d' = datas (fst r) /\ wl_read good d' w' B = Done (0, stored (fst r)).
Proof. exact wear_exact_l. Qed.
Print Assumptions wear_exact.

(** C132: nothing is invented. *)
Theorem wear_provenance : forall N B, 0 < N < 256 -> 0 < B < 2 ^ 64 ->
  forall d h x, dev_ok N B d -> Forall (xop_ok B) h ->
  (do s <- wstart N d; do (s', _) <- xrun N s h; wl_read good (fst s') (snd s') B) = Done (0, x) ->
  In x (blocks d) \/ exists o, In o h /\ puts_data x o.
Proof. exact wear_provenance_l. Qed.
Print Assumptions wear_provenance.

Example wear_exact_example :
  let d := mkDev [7; 8; 9; 3] [[0; 0]; [1; 1]; [2; 2]; [3; 3]] [] in
  let h := [XWrite [4; 4]; XRefused [5; 5] 9; XRestart; XTorn [6; 6] [6; 0]; XWrite [6; 0]; XWrite [1; 1]] in
  dev_ok 4 2 d /\ Forall (xop_ok 2) h /\
  xstates (boot (markers d) (blocks d)) h =
    (mkStore [7; 11; 12; 10] [[0; 0]; [6; 0]; [1; 1]; [4; 4]] 2 12, [Some 0; Some 9; None; None; Some 0; Some 0]).
Proof.
  cbv zeta. split; [split; [reflexivity|]; split; [repeat constructor; lia|]; split; [reflexivity|repeat constructor]|].
  split; [repeat constructor|]. vm_compute. reflexivity.
Qed.

(** C133: once fallen back, sessions that write once never get any data through a restart. *)
Theorem wear_stuck : forall N B, 0 < N < 256 -> 0 < B < 2 ^ 64 ->
  forall c d h xs, 0 <= c < 256 -> dev_ok N B d -> erased c d -> Forall (wop_ok B) h ->
  let d0 := nth 0 (blocks d) [] in let n := snd (wstate d0 h) in
  restarts_ok N (d0, 0) h -> 1 < N -> n mod N = N - 1 -> Forall (fun x => zlen x = B) xs ->
  exists r, wread B N d (h ++ [WRestart]) = Done (0, r) /\ wread B N d (h ++ WRestart :: cycles xs) = Done (0, r).
Proof.
  intros N B HN HB c d h xs Hc Hd He Hok d0 n Hr HN1 Hn Hx.
  destruct (wear_falls_back_l N B HN HB c d h Hc Hd He Hok Hr HN1 Hn) as (h1 & h2 & _ & _ & E).
  exists (fst (wstate d0 h1)). split; [exact E|].
  rewrite (wear_stuck_l N B HN HB c d h xs Hc Hd He Hok Hr HN1 Hn Hx). exact E.
Qed.
Print Assumptions wear_stuck.

Example wear_stuck_example :
  let h := [WWrite [1;1]; WWrite [2;2]] in
  restarts_ok 3 ([0;0], 0) h /\ snd (wstate [0;0] h) mod 3 = 3 - 1 /\
  wread 2 3 dev3 (h ++ WRestart :: cycles [[3;3]; [4;4]; [5;5]]) = Done (0, [0;0]).
Proof. cbv zeta. split; [repeat constructor|]. split; vm_compute; reflexivity. Qed.

(** * C144: what initialisation finds on any device, whatever reading the markers returns. *)
Theorem wear_init_exact : forall Dev (cb : callbacks Dev) d N code marker, 0 <= N < 256 ->
  (forall i, 0 <= i < Z.max 1 N -> rm cb d i = Done (code i, marker i) /\ 0 <= marker i < 256) ->
  (exists r m, wl_init cb d N = Done (mkWl N r m)) /\
  forall r m, wl_init cb d N = Done (mkWl N r m) <-> comes_up N code marker r m.
Proof. intros Dev cb d N code marker HN H. exact (init_exact_l cb d N code marker HN H). Qed.
Print Assumptions wear_init_exact.

(** Block 2 of 5 returns 3, so block 3 becomes active. *)
Example wear_init_exact_case :
  let code i := if i =? 2 then 3 else 0 in let marker i := (254 + i) mod 256 in
  comes_up 5 code marker 3 255 /\
  wl_init (mkCb (fun _ _ _ => Undef) (fun _ _ _ _ => Undef) (fun _ i => Done (code i, marker i))) tt 5 = Done (mkWl 5 3 255).
Proof.
  cbv zeta. split; [|reflexivity]. right. exists 1. split; [lia|]. split.
  { intros i Hi. destruct (Z.eqb_spec i 2); [lia|reflexivity]. }
  split; [intros i Hi; replace i with 0 by lia; reflexivity|]. split; [reflexivity|].
  right. left. split; [lia|]. split; [discriminate|reflexivity].
Qed.
