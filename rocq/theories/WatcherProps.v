(** Properties C90-C94 and C99: watchers.

    A list is [ws ++ z :: rest] where [z] is the terminator (current NULL). *)
From Verif Require Import Base BaseLemmas TimeModel TimeSpec WatcherModel WatcherSpec WatcherSystem WatcherProofs WatcherExactProofs.

(** C91 (and C90, for lists that mix both): initialise the list when the memory is [init], then process it
    at every (time, memory) of [hs]: the k-th processing makes exactly the expected calls, in list order,
    each seeing the memory of that moment, and returns 1 iff some watched bytes changed. *)
Theorem watcher_history : forall I w eff malloc ok block z rest ws init hs,
  0 < w -> I <= w -> current z = 0 ->
  Forall (fun x => fresh x /\ fits (zlen init) x) ws ->
  (malloc = true -> ok = true) -> (malloc = false -> Forall (fun x => size x <= block /\ zlen (old x) = block) ws) ->
  harmless eff ws -> Forall (fun s => zlen (snd s) = zlen init) hs ->
  Forall (timely (2 ^ (w - 1)) (rev hs)) ws ->
  exists l l' outs, watcher_list_init malloc ok block (ws ++ z :: rest) init = Done l /\
    wrun I w eff l hs = Done (l', outs) /\ length outs = length hs /\
    forall k, (k < length hs)%nat -> nth_error outs k = Some (expected ws init (rev (firstn (S k) hs))).
Proof. exact watcher_history_l. Qed.
Print Assumptions watcher_history.

(** C90: lists without delays, for any timestamps at all. *)
Theorem watcher_immediate : forall I w eff malloc ok block z rest ws init hs,
  0 < w -> I <= w -> current z = 0 ->
  Forall (fun x => fresh x /\ fits (zlen init) x /\ delay x = 0) ws ->
  (malloc = true -> ok = true) -> (malloc = false -> Forall (fun x => size x <= block /\ zlen (old x) = block) ws) ->
  harmless eff ws -> Forall (fun s => zlen (snd s) = zlen init) hs ->
  exists l l' outs, watcher_list_init malloc ok block (ws ++ z :: rest) init = Done l /\
    wrun I w eff l hs = Done (l', outs) /\ length outs = length hs /\
    forall k t m, nth_error hs k = Some (t, m) ->
      let prev := before init (rev (firstn k hs)) in
      let different x := negb (same_bytes prev m (current x) (size x)) in
      nth_error outs k = Some (map (call_of m) (filter different ws), b2z (existsb different ws)).
Proof.
  intros I w eff malloc ok block z rest ws init hs Hw HI Hz Hf Hok Hbl He Hm.
  destruct (watcher_history I w eff malloc ok block z rest ws init hs) as (l & l' & outs & E1 & E2 & Hlen & Hout); auto.
  { eapply Forall_impl; [|exact Hf]. cbv beta. tauto. }
  { eapply Forall_impl; [|exact Hf]. intros x (_ & _ & Hd). now left. }
  exists l, l', outs. split; [exact E1|]. split; [exact E2|]. split; [exact Hlen|]. intros k t m Hk prev different.
  assert (Hlt : (k < length hs)%nat) by (apply nth_error_Some; congruence).
  rewrite (Hout k Hlt).
  assert (Hfs : rev (firstn (S k) hs) = (t, m) :: rev (firstn k hs)).
  { clear - Hk. revert hs Hk. induction k as [|k IH]; intros [|s hs] Hk; try discriminate; cbn in Hk.
    - injection Hk as ->. reflexivity.
    - change (rev (firstn (S (S k)) (s :: hs))) with (rev (firstn (S k) hs) ++ [s]). rewrite (IH hs Hk). reflexivity. }
  rewrite Hfs. unfold expected. cbn [before]. f_equal. f_equal.
  f_equal. apply filter_ext_in. intros x Hx. unfold fires. rewrite Forall_forall in Hf. destruct (Hf x Hx) as (_ & _ & ->). reflexivity.
Qed.
Print Assumptions watcher_immediate.

(** C91: the reading of [settles] that [watcher_history] uses.  Within a burst (no further change) the callback
    never fires twice, and it does fire by the first quiet processing at or after the delay. *)
Theorem watcher_once_per_burst : forall init a n delay half h1 h2, 0 < delay -> steady half (h2 ++ h1) -> h2 <> [] ->
  settles init a n delay h1 = true -> settles init a n delay (h2 ++ h1) = true ->
  last_change init a n (h2 ++ h1) <> last_change init a n h1.
Proof. exact once_l. Qed.
Print Assumptions watcher_once_per_burst.

Theorem watcher_fires_per_burst : forall init a n delay half h t m c, 0 < delay -> steady half ((t, m) :: h) ->
  last_change init a n ((t, m) :: h) = Some c -> c + delay <= t ->
  exists h2 h1, (t, m) :: h = h2 ++ h1 /\ settles init a n delay h1 = true /\ last_change init a n h1 = Some c.
Proof. exact eventually_l. Qed.
Print Assumptions watcher_fires_per_burst.

(** C92: the query on any list state (it returns no list: it writes nothing and calls nothing). *)
Theorem watcher_check : forall z rest ws m, current z = 0 -> Forall (ready (zlen m)) ws ->
  exists r, watcher_check_for_changes (ws ++ z :: rest) m = Done r /\ (r = 0 \/ r = 1) /\ (r = 1 <-> Exists (stale m) ws).
Proof. intros z rest ws m Hz Hr. exact (check_state_l (zlen m) z rest ws m Hz eq_refl Hr). Qed.
Print Assumptions watcher_check.

(** C93 is false: a delayed change already detected fires after watcher_clear_changes. *)
Theorem watcher_clear_refuted : exists (l : list watcher) l1 l2 (m0 m1 : list Z),
  let eff := fun (_ _ _ : Z) (m : list Z) => m in
  watcher_list_init false true 4 [mkWatcher [0; 0; 0; 0] 1 2 7 0 0 10 0; mkWatcher [] 0 0 0 0 0 0 0] m0 = Done l /\
  watcher_process_changes 32 64 eff l m1 100 = Done (l1, m1, [], 1) /\
  watcher_clear_changes l1 m1 105 = Done l2 /\
  exists l3, watcher_process_changes 32 64 eff l2 m1 110 = Done (l3, m1, [(7, 1, 0, [5; 6])], 0).
Proof.
  do 3 eexists. exists [0; 1; 2; 3], [0; 5; 6; 3]. cbv zeta. split; [reflexivity|]. split; [vm_compute; reflexivity|].
  split; [vm_compute; reflexivity|]. eexists. vm_compute. reflexivity.
Qed.
Print Assumptions watcher_clear_refuted.

(** C93 for the watchers without a change already pending, or whose memory changed again before the clear:
    nothing fires and 0 is returned for as long as the watched bytes stay the same, at any times. *)
Theorem watcher_clear_partial : forall I w eff z rest ws now m hs, current z = 0 -> Forall (ready (zlen m)) ws ->
  Forall (fun x => moved x = 0 \/ (stale m x /\ 0 < delay x)) ws ->
  Forall (fun s => zlen (snd s) = zlen m /\ forall x, In x ws -> bytes (snd s) (current x) (size x) = bytes m (current x) (size x)) hs ->
  exists ws', watcher_clear_changes (ws ++ z :: rest) m now = Done (ws' ++ z :: rest) /\
    watcher_check_for_changes (ws' ++ z :: rest) m = Done 0 /\
    wrun I w eff (ws' ++ z :: rest) hs = Done (ws' ++ z :: rest, repeat ([], 0) (length hs)).
Proof.
  intros I w eff z rest ws now m hs Hz Hr Hp Hs.
  destruct (clear_l (zlen m) z rest now ws m Hz eq_refl Hr) as (ws' & E & Hr' & Hrec & Hst & Hc). specialize (Hc Hp).
  exists ws'. split; [exact E|]. split.
  - destruct (check_state_l (zlen m) z rest ws' m Hz eq_refl Hr') as (r & Er & Hr01 & Hr1). rewrite Er. f_equal.
    destruct Hr01 as [->| ->]; [reflexivity|]. exfalso. assert (Hx : Exists (stale m) ws') by (now apply Hr1).
    apply Exists_exists in Hx. destruct Hx as (x & Hx & Hst'). rewrite Forall_forall in Hrec. apply Hst'. now apply Hrec.
  - apply (calm_run_l I w eff (zlen m) z rest m ws' Hz Hr' Hc).
    assert (Hin : forall x', In x' ws' -> exists x, In x ws /\ current x' = current x /\ size x' = size x).
    { clear - Hst. induction Hst as [|x y ws ws' (S1 & S2 & _) Hst IH]; intros x' [].
      - subst. exists x. split; [now left|]. split; assumption.
      - destruct (IH x' H) as (x0 & H0 & E1 & E2). exists x0. split; [now right|]. split; assumption. }
    eapply Forall_impl; [|exact Hs]. cbv beta. intros s [H1 H2]. split; [exact H1|]. intros x' Hx'.
    destruct (Hin x' Hx') as (x & Hx & -> & ->). now apply H2.
Qed.
Print Assumptions watcher_clear_partial.

(** C94 is false: what an immediate callback writes to its own memory is taken as already known. *)
Theorem watcher_callback_write_refuted : exists (l l1 : list watcher) (m0 m1 m2 : list Z),
  let eff := fun (_ a _ : Z) (m : list Z) => upd m (Z.to_nat a) 77 in
  watcher_list_init false true 4 [mkWatcher [0; 0; 0; 0] 1 2 7 0 0 0 0; mkWatcher [] 0 0 0 0 0 0 0] m0 = Done l /\
  watcher_process_changes 32 64 eff l m1 100 = Done (l1, m2, [(7, 1, 0, [5; 6])], 1) /\ m2 <> m1 /\
  watcher_check_for_changes l1 m2 = Done 0 /\
  forall now, watcher_process_changes 32 64 eff l1 m2 now = Done (l1, m2, [], 0).
Proof.
  do 2 eexists. exists [0; 1; 2; 3], [0; 5; 6; 3], [0; 77; 6; 3]. cbv zeta. split; [reflexivity|].
  split; [vm_compute; reflexivity|]. split; [discriminate|]. split; [vm_compute; reflexivity|]. intros now. reflexivity.
Qed.
Print Assumptions watcher_callback_write_refuted.

(** C94 for delayed watchers and for callbacks that do not write their own watched bytes, whatever else callbacks
    write, in any state: if the value a watcher remembers changes, then its callback was called with exactly that value,
    or the delayed call is now pending; and what differs from the remembered value on return makes the next
    query (and processing) report a change. *)
Theorem watcher_callback_write_partial : forall I w eff z rest now ws m,
  (forall c a d m, zlen (eff c a d m) = zlen m) -> current z = 0 -> Forall (ready (zlen m)) ws ->
  exists ws' m' cs res, watcher_process_changes I w eff (ws ++ z :: rest) m now = Done (ws' ++ z :: rest, m', cs, res) /\
    Forall2 (fun x x' => same_static x x' /\
      ((0 < delay x \/ quiet eff x) -> recorded x' <> recorded x ->
         if 0 <? delay x then moved x' = 1 /\ timestamp x' = now
         else In (cb x, current x, data x, recorded x') cs)) ws ws' /\
    (Exists (stale m') ws' <-> watcher_check_for_changes (ws' ++ z :: rest) m' = Done 1).
Proof.
  intros I w eff z rest now ws m He Hz Hr.
  destruct (process_state_l I w eff (zlen m) z rest now He Hz ws m eq_refl Hr) as (ws' & m' & cs & res & E & Hm' & Hr' & Hall).
  exists ws', m', cs, res. split; [exact E|]. split; [exact Hall|].
  destruct (check_state_l (zlen m) z rest ws' m' Hz Hm' Hr') as (r & Er & Hr01 & Hr1). rewrite Er, <- Hr1.
  split; [intros ->; reflexivity|intros H; now injection H].
Qed.
Print Assumptions watcher_callback_write_partial.

(** C99: triggering calls every callback once, in list order, each on the memory the earlier ones left. *)
Theorem watcher_trigger : forall eff z rest ws m, (forall c a d m, zlen (eff c a d m) = zlen m) -> current z = 0 ->
  Forall (ready (zlen m)) ws ->
  exists m' cs, watcher_trigger_all eff (ws ++ z :: rest) m = Done (m', cs) /\
    map fst cs = map (fun x => (cb x, current x, data x)) ws /\
    m' = fold_left (fun m x => eff (cb x) (current x) (data x) m) ws m.
Proof. intros eff z rest ws m He Hz Hr. exact (trigger_l eff (zlen m) z rest He Hz ws m eq_refl Hr). Qed.
Print Assumptions watcher_trigger.

Theorem watcher_trigger_one : forall eff l i x m, 0 <= i -> nth_error l (Z.to_nat i) = Some x -> ready (zlen m) x ->
  watcher_trigger_cb eff l m i = Done (eff (cb x) (current x) (data x) m, [call_of m x]).
Proof.
  intros eff l i x m Hi Hn (Hf & _ & Hcb). unfold watcher_trigger_cb, zget. destruct (Z.ltb_spec i 0); [lia|]. rewrite Hn. cbn [obind].
  unfold call. destruct (Z.eqb_spec (cb x) 0); [contradiction|]. rewrite (read_cur (zlen m)) by auto. reflexivity.
Qed.
Print Assumptions watcher_trigger_one.

(** C90: without malloc, a watcher too large for its block fails the assertion of the initialisation. *)
Theorem watcher_too_large : forall ok block ws x rest m, 
  Forall (fun y => fits (zlen m) y /\ size y <= block /\ size y <= zlen (old y)) ws -> current x <> 0 -> block < size x ->
  watcher_list_init false ok block (ws ++ x :: rest) m = Abort.
Proof.
  intros ok block ws x rest m Hw Hx Hb. induction Hw as [|y ws (Hf & H1 & H2) Hw IH]; cbn [app watcher_list_init].
  - destruct (Z.eqb_spec (current x) 0); [contradiction|]. destruct (Z.leb_spec (size x) block); [lia|]. reflexivity.
  - destruct (Z.eqb_spec (current y) 0) as [E|_]; [destruct Hf as (Hp & _); lia|].
    destruct (Z.leb_spec (size y) block); [|lia]. cbn [obind]. unfold save. rewrite (read_cur (zlen m)) by auto. cbn [obind].
    rewrite zwrite_ok; [|lia|]; cycle 1.
    { destruct Hf as (F1 & F2 & F3). unfold bytes, zlen in *. rewrite firstn_length, skipn_length. lia. }
    cbn [obind]. now rewrite IH.
Qed.
Print Assumptions watcher_too_large.

(** Two watchers, one delayed by 10, over a wrapping 64 bit clock; callbacks write an unwatched byte. *)
Definition wx_eff (c a d : Z) (m : list Z) : list Z := upd m 0 c.
Definition wx_ws : list watcher :=
  [mkWatcher [0; 0; 0; 0] 1 2 7 70 0 10 0; mkWatcher [0; 0; 0; 0] 3 1 8 80 0 0 0].
Definition wx_init : list Z := [0; 1; 2; 3].
Definition wx_T : Z := 2 ^ 64 - 4.
Definition wx_hs : list (Z * list Z) :=
  [(wx_T, [0; 5; 2; 4]); (wx_T + 3, [0; 6; 2; 4]); (wx_T + 8, [9; 6; 2; 4]); (wx_T + 13, [9; 6; 2; 5]);
   (wx_T + 20, [9; 6; 2; 5])].

Example watcher_example :
  Forall (fun x => fresh x /\ fits (zlen wx_init) x) wx_ws /\
  Forall (fun x => size x <= 4 /\ zlen (old x) = 4) wx_ws /\
  harmless wx_eff wx_ws /\ Forall (fun s => zlen (snd s) = zlen wx_init) wx_hs /\
  Forall (timely (2 ^ (64 - 1)) (rev wx_hs)) wx_ws /\
  exists l l', watcher_list_init false true 4 (wx_ws ++ [mkWatcher [] 0 0 0 0 0 0 0]) wx_init = Done l /\
    wrun 32 64 wx_eff l wx_hs =
      Done (l', [([(8, 3, 80, [4])], 1); ([], 1); ([], 0); ([(7, 1, 70, [6; 2]); (8, 3, 80, [5])], 1); ([], 0)]).
Proof.
  split; [repeat constructor; unfold fresh, fits, zlen; cbn; lia|].
  split; [repeat constructor; unfold zlen; cbn; lia|].
  split.
  { intros c a d m. unfold wx_eff. split; [apply zlen_upd|]. destruct m as [|b m]; [reflexivity|].
    intros x [<-|[<-|[]]]; reflexivity. }
  split; [repeat constructor|].
  split.
  { constructor; [right|constructor; [left; reflexivity|constructor]]. cbn. unfold wx_T. lia. }
  do 2 eexists. split; [reflexivity|]. vm_compute. reflexivity.
Qed.

Example watcher_trigger_example :
  Forall (ready (zlen wx_init)) wx_ws /\
  watcher_trigger_cb wx_eff wx_ws wx_init 1 = Done ([8; 1; 2; 3], [(8, 3, 80, [3])]) /\
  watcher_trigger_all wx_eff (wx_ws ++ [mkWatcher [] 0 0 0 0 0 0 0]) wx_init =
    Done ([8; 1; 2; 3], [(7, 1, 70, [1; 2]); (8, 3, 80, [3])]) /\
  watcher_list_init false true 1 wx_ws wx_init = Abort.
Proof. split; [repeat constructor; unfold roomy, zlen; cbn; lia|]. repeat split. Qed.

(** C113 is false with GEL_WATCHER_REDUCE_RAM_FOOTPRINT: an array of 256 bytes is not watched at all, whatever changes
    and whenever it is processed ... *)
Theorem watcher_macros_refuted : exists r, wanted r = (1, 256, 7, 0, 0) /\
  forall L eff malloc block init hs I w, 0 <= block -> 257 <= zlen init -> Forall (fun s => 257 <= zlen (snd s)) hs ->
  exists l, watcher_list_init malloc true block (written_list L malloc block true [r]) init = Done l /\
    wrun I w eff l hs = Done (l, repeat ([], 0) (length hs)).
Proof. exact macros_256_l. Qed.
Print Assumptions watcher_macros_refuted.

(** ... and a delay of 65536 is none. *)
Theorem watcher_macros_delay_refuted : exists r l l' eff (m0 m1 : list Z), wanted r = (1, 2, 7, 0, 65536) /\
  watcher_list_init false true 4 (written_list 64 false 4 true [r]) m0 = Done l /\
  watcher_process_changes 32 64 eff l m1 100 = Done (l', m1, [(7, 1, 0, [5; 6])], 1).
Proof.
  exists (RDelayed 1 2 7 0 65536). do 2 eexists. exists (fun _ _ _ m => m), [0; 1; 2; 3], [0; 5; 6; 3].
  split; [reflexivity|]. split; [vm_compute; reflexivity|]. vm_compute. reflexivity.
Qed.
Print Assumptions watcher_macros_delay_refuted.

(** C113: with sizes and delays that can be stored (any, without GEL_WATCHER_REDUCE_RAM_FOOTPRINT), a list made with the
    macros, initialised and processed, does what was requested. *)
Theorem watcher_macros_partial : forall I w eff malloc ok block reduce rs init hs, 0 < w -> I <= w ->
  Forall (sensible (zlen init) (2 ^ (w - 1)) (rev hs)) rs -> Forall (storable reduce) rs ->
  (malloc = true -> ok = true) -> (malloc = false -> 0 <= block /\ Forall (block_fits block) rs) ->
  leaves_alone eff rs -> Forall (fun s => zlen (snd s) = zlen init) hs ->
  exists l l' outs, watcher_list_init malloc ok block (written_list w malloc block reduce rs) init = Done l /\
    wrun I w eff l hs = Done (l', outs) /\ length outs = length hs /\
    forall k, (k < length hs)%nat -> nth_error outs k = Some (requested rs init (rev (firstn (S k) hs))).
Proof. exact macros_l. Qed.
Print Assumptions watcher_macros_partial.

Example watcher_macros_example :
  let rs := [RDelayedArray 1 2 2 7 0 10; RWatch 5 1 8 99] in
  let init := [0; 1; 2; 3; 4; 5] in
  let hs := [(100, [0; 1; 2; 3; 9; 5]); (105, [0; 1; 2; 3; 9; 6]); (110, [0; 1; 2; 3; 9; 6])] in
  Forall (sensible (zlen init) (2 ^ 63) (rev hs)) rs /\ Forall (storable true) rs /\ Forall (block_fits 4) rs /\
  leaves_alone (fun _ _ _ m => m) rs /\
  (do l <- watcher_list_init false true 4 (written_list 64 false 4 true rs) init;
   do (_, outs) <- wrun 32 64 (fun _ _ _ m => m) l hs; Done outs)
  = Done [([], 1); ([(8, 5, 99, [6])], 1); ([(7, 1, 0, [1; 2; 3; 9])], 0)].
Proof.
  cbv zeta. split; [repeat constructor; cbn; lia|]. split; [repeat constructor; cbn; lia|]. split; [repeat constructor; cbn; lia|].
  split; [|vm_compute; reflexivity]. intros c a d m. split; [reflexivity|]. intros r _. destruct (wanted r) as [[[[? ?] ?] ?] ?]. reflexivity.
Qed.

(** C139: initialise the list, then call the list functions in any order, with any memory each time and callbacks that
    write anything: every call leaves the memory, calls back and answers exactly as the specification says. *)
Theorem watcher_exact : forall I w eff malloc ok block z rest ws init ops,
  0 < w -> I <= w -> current z = 0 ->
  Forall (fun x => fresh x /\ fits (zlen init) x) ws ->
  (malloc = true -> ok = true) -> (malloc = false -> Forall (fun x => size x <= block /\ zlen (old x) = block) ws) ->
  (forall c a d m, zlen (eff c a d m) = zlen m) ->
  Forall (in_order (zlen init) (length ws)) ops -> paced eff (2 ^ (w - 1)) (map (opened init) ws) ops ->
  exists l l', watcher_list_init malloc ok block (ws ++ z :: rest) init = Done l /\
    wexecs I w eff l ops = Done (l', sight_run eff (map (opened init) ws) ops).
Proof. exact watcher_exact_l. Qed.
Print Assumptions watcher_exact.

(** The pace is kept when the times of the processings do not go back and advance by less than half the range of the
    counter, with delays below it ... *)
Theorem watcher_paced : forall w eff ws init ops, 0 < w -> Forall (fun x => delay x < 2 ^ (w - 1)) ws ->
  regular (2 ^ (w - 1)) None ops -> paced eff (2 ^ (w - 1)) (map (opened init) ws) ops.
Proof. exact watcher_paced_l. Qed.
Print Assumptions watcher_paced.

(** ... and at any times without delays. *)
Theorem watcher_paced_immediate : forall half eff ws init ops, Forall (fun x => delay x = 0) ws ->
  paced eff half (map (opened init) ws) ops.
Proof.
  intros half eff ws init ops Hd. apply immediate_l. rewrite Forall_map. eapply Forall_impl; [|exact Hd].
  intros x H. split; [cbv beta in H; unfold opened; cbn [wait]; lia|reflexivity].
Qed.
Print Assumptions watcher_paced_immediate.

(** The callbacks write the byte after the first one they watch; the second watcher watches that byte too.  The change
    noticed at 2^64 - 5 is reported in spite of the clear; the delayed callback's own write is noticed at the next
    processing, the immediate one's is not. *)
Definition we_eff (c a d : Z) (m : list Z) : list Z := upd m (Z.to_nat (a + 1)) c.
Definition we_ws : list watcher :=
  [mkWatcher [0; 0; 0; 0] 1 2 7 70 0 10 0; mkWatcher [0; 0; 0; 0] 2 2 8 80 0 0 0].
Definition we_ops : list wop :=
  [OProcess (2 ^ 64 - 5) [0; 9; 2; 3]; OClear (2 ^ 64) [0; 9; 2; 3]; OCheck [0; 9; 2; 3]; OProcess (2 ^ 64 + 5) [0; 9; 2; 3];
   OProcess (2 ^ 64 + 6) [0; 9; 7; 8]; OTrigger 1 [0; 9; 7; 8]; OTriggerAll [0; 9; 2; 3]].

Example watcher_exact_example :
  Forall (fun x => fresh x /\ fits 4 x) we_ws /\ Forall (fun x => size x <= 4 /\ zlen (old x) = 4) we_ws /\
  (forall c a d m, zlen (we_eff c a d m) = zlen m) /\ Forall (in_order 4 (length we_ws)) we_ops /\
  Forall (fun x => delay x < 2 ^ (64 - 1)) we_ws /\ regular (2 ^ (64 - 1)) None we_ops /\
  exists l l', watcher_list_init false true 4 (we_ws ++ [mkWatcher [] 0 0 0 0 0 0 0]) [0; 1; 2; 3] = Done l /\
    wexecs 32 64 we_eff l we_ops = Done (l',
      [([0; 9; 2; 3], [], 1); ([0; 9; 2; 3], [], 0); ([0; 9; 2; 3], [], 0);
       ([0; 9; 7; 8], [(7, 1, 70, [9; 2]); (8, 2, 80, [7; 3])], 1);
       ([0; 9; 7; 8], [], 1); ([0; 9; 7; 8], [(8, 2, 80, [7; 8])], 0);
       ([0; 9; 7; 8], [(7, 1, 70, [9; 2]); (8, 2, 80, [7; 3])], 0)]).
Proof.
  split; [repeat constructor; unfold fresh, fits; cbn; lia|].
  split; [repeat constructor; unfold zlen; cbn; lia|].
  split; [intros; apply zlen_upd|].
  split; [repeat constructor|].
  split; [repeat constructor|].
  split; [vm_compute; repeat match goal with |- _ /\ _ => split end; auto; discriminate|].
  do 2 eexists. split; [reflexivity|]. vm_compute. reflexivity.
Qed.
