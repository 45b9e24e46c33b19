(** A debounce filter in front of a keypad. *)
From Verif Require Import Base TimeModel TimeSpec DebounceModel DebounceSpec DebounceSystem KeypadModel KeypadSpec KeypadSystem
  DebKeySpec DebKeySystem DebKeyProofs.

(** C191: at every poll the keypad reports what it would report of clean contacts: of every input the level of the latest
    d+1 equal samples in a row. *)
Theorem debounced_keypad : forall I w click longclick period, 0 < w -> I <= w ->
  0 <= click <= longclick -> longclick < 2 ^ (w - 1) -> 0 <= period < 2 ^ (w - 1) ->
  forall G, 0 < G -> 2 * G <= 2 ^ (w - 1) + (longclick - click) ->
  forall W d f v, 0 <= d < 2 ^ Z.of_nat W -> length (debounce_count f) = W -> 0 <= v < 2 ^ Z.of_nat W ->
  forall ks z rest h, table ks z -> Forall idle ks -> paced G None (map Some h) ->
  Forall (fun s => 0 <= snd s < 2 ^ Z.of_nat W) h ->
  exists f0 f' ks' outs, dstart W f v = Done f0 /\
    polls I w W d click longclick period f0 (ks ++ z :: rest) h = Done (f', ks' ++ z :: rest, outs) /\
    let r := pad_run click longclick period (map bitvalue ks) pad0 (map Some (cleaned W (S (Z.to_nat d)) v [] h)) in
    map Some outs = map (pad_output (map code ks)) (snd r) /\ length ks' = length ks /\
    forall j k, nth_error ks' j = Some k -> keypad_get_key_state k = b2z (shown (fst r) j).
Proof. exact debkey_l. Qed.
Print Assumptions debounced_keypad.

(** C192: contacts that are never closed for d+1 polls in a row are not noticed. *)
Theorem debounced_keypad_silent : forall I w click longclick period, 0 < w -> I <= w ->
  0 <= click <= longclick -> longclick < 2 ^ (w - 1) -> 0 <= period < 2 ^ (w - 1) ->
  forall G, 0 < G -> 2 * G <= 2 ^ (w - 1) + (longclick - click) ->
  forall W d f, 0 <= d < 2 ^ Z.of_nat W -> length (debounce_count f) = W ->
  forall ks z rest h, table ks z -> Forall idle ks -> paced G None (map Some h) ->
  Forall (fun s => 0 <= snd s < 2 ^ Z.of_nat W) h ->
  (forall i, 0 <= i < Z.of_nat W -> no_run (S (Z.to_nat d)) true (contact i h)) ->
  exists f0 f' ks' outs, debounce_filter_init W f = Done f0 /\
    polls I w W d click longclick period f0 (ks ++ z :: rest) h = Done (f', ks' ++ z :: rest, outs) /\
    outs = repeat (-1, 0, KEY_NOTHING) (length h) /\
    forall k, In k ks' -> keypad_get_key_state k = 0.
Proof. exact silence_l. Qed.
Print Assumptions debounced_keypad_silent.

(** C193: a contact that bounces before, while and after it is held for d+1 polls gives one press, at the latest with the last
    of these polls, and at most one release; no other key is heard. *)
Theorem debounced_keypad_press : forall I w click longclick period, 0 < w -> I <= w ->
  0 <= click <= longclick -> longclick < 2 ^ (w - 1) -> 0 <= period < 2 ^ (w - 1) ->
  forall G, 0 < G -> 2 * G <= 2 ^ (w - 1) + (longclick - click) ->
  forall W d f, 0 <= d < 2 ^ Z.of_nat W -> length (debounce_count f) = W ->
  forall ks1 k ks2 z rest h a A B D, table (ks1 ++ k :: ks2) z -> Forall idle (ks1 ++ k :: ks2) -> paced G None (map Some h) ->
  Forall (fun s => 0 <= snd s < 2 ^ Z.of_nat W) h -> 0 <= a < Z.of_nat W ->
  bitvalue k = 2 ^ a -> Forall (fun k' => bitvalue k' <> 2 ^ a) ks2 ->
  let n := S (Z.to_nat d) in
  (forall i, 0 <= i < Z.of_nat W -> i <> a -> no_run n true (contact i h)) ->
  contact a h = A ++ repeat true n ++ B ++ repeat false n ++ D ->
  no_run n true A -> no_run n false B -> no_run n true D ->
  exists f0 f' ks' outs, debounce_filter_init W f = Done f0 /\
    polls I w W d click longclick period f0 ((ks1 ++ k :: ks2) ++ z :: rest) h = Done (f', ks' ++ z :: rest, outs) /\
    let press := (Z.of_nat (length ks1), code k, KEY_PRESS) in
    filter (reports_event KEY_PRESS) outs = [press] /\
    (exists m, (m < length A + n)%nat /\ nth_error outs m = Some press) /\
    (length (filter (reports_event KEY_RELEASE) outs) <= 1)%nat /\
    Forall (fun o => snd o = KEY_NOTHING \/ fst o = (Z.of_nat (length ks1), code k)) outs.
Proof. exact press_l. Qed.
Print Assumptions debounced_keypad_press.

Definition keyA := KEYPAD_KEY 1 65.
Definition keyB := KEYPAD_KEY 2 66.
Definition bouncy : list (Z * Z) :=
  [(65500, 2); (65510, 0); (65520, 2); (65530, 3); (65540, 2); (65550, 0); (65560, 2); (65570, 0); (65580, 1); (65590, 0);
   (65600, 0); (65610, 2); (65620, 0)].

(** A bouncing press of B across the wrap-around of a 16 bit clock, with a disturbance of A. *)
Example debounced_keypad_case :
  let ks := [keyA; keyB] in
  table ks KEYPAD_NULL_KEY /\ Forall idle ks /\ paced 16000 None (map Some bouncy) /\
  Forall (fun s => 0 <= snd s < 2 ^ Z.of_nat 16) bouncy /\
  contact 1 bouncy = [true; false] ++ repeat true 3 ++ [false; true] ++ repeat false 3 ++ [false; true; false] /\
  no_run 3 true [true; false] /\ no_run 3 false [false; true] /\ no_run 3 true [false; true; false] /\
  (forall i, 0 <= i < Z.of_nat 16 -> i <> 1 -> no_run 3 true (contact i bouncy)) /\
  cleaned 16 3 0 [] bouncy = combine (map fst bouncy) [0; 0; 0; 0; 2; 2; 2; 2; 2; 0; 0; 0; 0] /\
  (do f0 <- debounce_filter_init 16 (mkDf 9 9 (repeat 4 16));
   do (_, _, outs) <- polls 16 16 16 2 10 100 20 f0 (ks ++ [KEYPAD_NULL_KEY]) bouncy; Done outs) =
  Done ([(-1, 0, 0); (-1, 0, 0); (-1, 0, 0); (-1, 0, 0); (1, 66, KEY_PRESS); (1, 66, 0); (1, 66, KEY_CLICK); (1, 66, 0);
         (1, 66, 0); (1, 66, 0); (1, 66, 0); (1, 66, KEY_RELEASE); (-1, 0, 0)]).
Proof.
  assert (Short : forall n b l, (length l < n)%nat -> no_run n b l).
  { intros n b l Hl pre mid post -> E. rewrite !app_length in Hl. lia. }
  cbv zeta. split; [split; [repeat constructor; cbn; lia|reflexivity]|]. split; [repeat constructor; cbn; tauto|].
  split; [cbn; lia|]. split; [repeat constructor; cbn; lia|]. split; [reflexivity|].
  split; [apply Short; cbn; lia|]. split; [apply Short; cbn; lia|]. split.
  { intros pre mid post E L. destruct mid as [|a [|b [|c [|]]]]; cbn in L; try lia.
    destruct pre as [|p pre]; cbn in E; [injection E; intros; subst; cbn; auto|]. exfalso.
    apply (f_equal (@length bool)) in E. cbn in E. rewrite app_length in E. cbn in E. lia. }
  split.
  { intros i Hi Na. assert (E0 : forall x, Z.testbit x i = true -> x = 0 \/ x = 2 \/ 0 <= x < 2 ^ i -> False).
    { intros x T [->|[->|Hx]]; [now rewrite Z.bits_0 in T| |].
      - change 2 with (2 ^ 1) in T. rewrite Z.pow2_bits_eqb in T by lia. apply Z.eqb_eq in T. lia.
      - destruct (Z.eq_dec x 0) as [->|]; [now rewrite Z.bits_0 in T|]. rewrite Z.bits_above_log2 in T; [discriminate|lia|].
        apply Z.log2_lt_pow2; lia. }
    assert (F0 : Z.testbit 0 i = false) by apply Z.bits_0.
    assert (F2 : Z.testbit 2 i = false) by (destruct (Z.testbit 2 i) eqn:T; [exfalso; eauto|reflexivity]).
    unfold contact, bouncy. cbn [map snd]. rewrite F0, F2.
    intros pre mid post E L. destruct mid as [|a [|b [|c [|]]]]; cbn in L; try lia. cbn [In negb].
    do 13 (destruct pre as [|? pre]; [cbn in E; injection E; intros; subst; auto; try discriminate|cbn in E; injection E as _ E]).
    destruct pre; discriminate. }
  split; vm_compute; reflexivity.
Qed.

(** Two contacts that bounce in turn, never for two polls in a row. *)
Example debounced_keypad_silent_case :
  let ks := [keyA; keyB] in let h := [(5, 1); (6, 2); (7, 1); (8, 2)] in
  table ks KEYPAD_NULL_KEY /\ Forall idle ks /\ paced 16000 None (map Some h) /\
  Forall (fun s => 0 <= snd s < 2 ^ Z.of_nat 2) h /\
  (forall i, 0 <= i < Z.of_nat 2 -> no_run 2 true (contact i h)) /\
  (do f0 <- debounce_filter_init 2 (mkDf 3 3 [1; 1]);
   do (_, _, outs) <- polls 16 16 2 1 10 100 20 f0 (ks ++ [KEYPAD_NULL_KEY]) h; Done outs) = Done (repeat (-1, 0, KEY_NOTHING) 4) /\
  (do f0 <- debounce_filter_init 2 (mkDf 3 3 [1; 1]);
   do (_, _, outs) <- polls 16 16 2 0 10 100 20 f0 (ks ++ [KEYPAD_NULL_KEY]) h; Done (nth_error outs 0)) = Done (Some (0, 65, KEY_PRESS)).
Proof.
  cbv zeta. split; [split; [repeat constructor; cbn; lia|reflexivity]|]. split; [repeat constructor; cbn; tauto|].
  split; [cbn; lia|]. split; [repeat constructor; cbn; lia|]. split.
  { intros i Hi pre mid post E L. destruct mid as [|a [|b [|]]]; cbn in L; try lia. cbn [In negb].
    assert (C : i = 0 \/ i = 1) by lia. destruct C as [-> | ->];
    (do 4 (destruct pre as [|? pre]; [cbn in E; injection E; intros; subst; auto; try discriminate|cbn in E; injection E as _ E]));
    destruct pre; discriminate. }
  split; vm_compute; reflexivity.
Qed.
