(** Properties C52-C57: the keypad.

    [krun I w keys ops] performs calls of keypad_routine and resets and gives the final keys and for each
    call the index of the key it handled (-1 for none), the code and the event.  [calls click longclick
    period b u h] are calls with fixed thresholds at the times of [h], with bitmap [b] where [h] says down
    and the bitmap [u t], different from [b], where it says up. *)
From Verif Require Import Base BaseLemmas TimeModel TimeSpec KeypadModel KeypadSpec KeypadSystem KeypadProofs KeypadTableProofs.

(** C52: no history on a terminated table of idle keys is undefined; a press is reported only for the key
    whose bit map is passed, with its code, and between two presses of a key comes a call
    with another bitmap, or a reset. *)
Theorem keypad_press : forall I w ks z rest ops, table ks z -> Forall idle ks ->
  exists keys outs, krun I w (ks ++ z :: rest) ops = Done (keys, outs) /\ length outs = length ops /\
    forall n f c, nth_error outs n = Some (Some (f, c, KEY_PRESS)) ->
      exists i k click longclick period t, f = Z.of_nat i /\ nth_error ks i = Some k /\ c = code k /\
        nth_error ops n = Some (KCall click longclick period t (bitvalue k)) /\
        forall n' c', (n' < n)%nat -> nth_error outs n' = Some (Some (f, c', KEY_PRESS)) ->
          exists m o, (n' < m < n)%nat /\ nth_error ops m = Some o /\ interrupts (bitvalue k) o.
Proof. exact press_l. Qed.
Print Assumptions keypad_press.

(** C52, one key: exactly on the first call with the bitmap. *)
Theorem keypad_press_single : forall I w k z rest ops, table [k] z -> idle k ->
  exists keys outs, krun I w (k :: z :: rest) ops = Done (keys, outs) /\ length outs = length ops /\
    forall n click longclick period t bits f c e, nth_error ops n = Some (KCall click longclick period t bits) ->
      nth_error outs n = Some (Some (f, c, e)) ->
      (e = KEY_PRESS <-> bits = bitvalue k /\
        match n with O => True | S m => exists o, nth_error ops m = Some o /\ interrupts (bitvalue k) o end) /\
      (e = KEY_PRESS -> c = code k).
Proof. exact press_single_l. Qed.
Print Assumptions keypad_press_single.

Definition keyA := KEYPAD_KEY 1 65.
Definition keyB := KEYPAD_KEY 2 66.
Definition kend := KEYPAD_NULL_KEY.

Definition outputs (r : outcome (list key * list (option (Z * Z * Z)))) := do (_, outs) <- r; Done outs.

Example keypad_press_example :
  table [keyA; keyB] kend /\ Forall idle [keyA; keyB] /\
  outputs (krun 32 64 [keyA; keyB; kend] [KCall 10 100 20 5 1; KCall 10 100 20 6 1; KCall 10 100 20 7 2; KCall 10 100 20 8 2; KCall 10 100 20 9 1])
    = Done [Some (0, 65, KEY_PRESS); Some (0, 65, KEY_NOTHING); Some (0, 65, KEY_RELEASE); Some (1, 66, KEY_PRESS); Some (1, 66, KEY_RELEASE)].
Proof.
  split; [split; [repeat constructor; cbn; lia|reflexivity]|]. split; [repeat constructor; cbn; tauto|]. vm_compute. reflexivity.
Qed.

(** C53. *)
Theorem keypad_click_thresholds : forall I w click longclick period, 0 < w -> I <= w ->
  0 <= click <= longclick -> longclick < 2 ^ (w - 1) -> 0 <= period < 2 ^ (w - 1) ->
  forall k z rest u, table [k] z -> idle k -> (forall t, u t <> bitvalue k) ->
  forall h, advancing (2 ^ (w - 1)) h ->
  exists es, reports I w (k :: z :: rest) (calls click longclick period (bitvalue k) u h) es /\ length es = length h /\
    click_ok click (trace h es) /\ longclick_ok longclick (trace h es).
Proof. exact clicks_l. Qed.
Print Assumptions keypad_click_thresholds.

(** C54. *)
Theorem keypad_order : forall I w click longclick period, 0 < w -> I <= w ->
  0 <= click <= longclick -> longclick < 2 ^ (w - 1) -> 0 <= period < 2 ^ (w - 1) ->
  forall k z rest u, table [k] z -> idle k -> (forall t, u t <> bitvalue k) ->
  forall h, advancing (2 ^ (w - 1)) h ->
  exists es, reports I w (k :: z :: rest) (calls click longclick period (bitvalue k) u h) es /\ length es = length h /\ ordered Ready es.
Proof. exact order_l. Qed.
Print Assumptions keypad_order.

(** C55: also from a click or long click to the first repeat. *)
Theorem keypad_repeat_period : forall I w click longclick period, 0 < w -> I <= w ->
  0 <= click <= longclick -> longclick < 2 ^ (w - 1) -> 0 <= period < 2 ^ (w - 1) ->
  forall k z rest u, table [k] z -> idle k -> (forall t, u t <> bitvalue k) ->
  forall h, advancing (2 ^ (w - 1)) h ->
  exists es, reports I w (k :: z :: rest) (calls click longclick period (bitvalue k) u h) es /\ length es = length h /\
    forall k1 k2 t1 d1 e1 t2 d2 e2, (k1 < k2)%nat ->
      nth_error (trace h es) k1 = Some (t1, d1, e1) -> nth_error (trace h es) k2 = Some (t2, d2, e2) ->
      (repeat_event e1 = true \/ e1 = Click \/ e1 = Longclick) -> repeat_event e2 = true -> t1 + period < t2.
Proof. exact repeat_period_l. Qed.
Print Assumptions keypad_repeat_period.

(** C53-C55, both directions: with calls often enough one key behaves exactly as the automaton [kstep]. *)
Theorem keypad_automaton : forall I w click longclick period, 0 < w -> I <= w ->
  0 <= click <= longclick -> longclick < 2 ^ (w - 1) -> 0 <= period < 2 ^ (w - 1) ->
  forall k z rest u, table [k] z -> idle k -> (forall t, u t <> bitvalue k) ->
  forall G h, 0 < G -> 2 * G <= 2 ^ (w - 1) + (longclick - click) -> advancing G h ->
  exists keys outs, krun I w (k :: z :: rest) (calls click longclick period (bitvalue k) u h) = Done (keys, outs) /\
    map (option_map snd) outs = map (fun e => Some (event_code e)) (kevents click longclick period Idle h) /\
    Forall (fun o => match o with Some (_, c, e) => c = code k \/ e = KEY_NOTHING | None => False end) outs.
Proof. exact automaton_l. Qed.
Print Assumptions keypad_automaton.

(** The thresholds 10, 100 and 40 with a 16 bit clock that wraps during the press. *)
Example keypad_automaton_example :
  let h := [(65500, true); (65505, true); (65520, true); (65570, true); (65601, true); (65650, true); (65660, false); (65671, false)] in
  table [keyA] kend /\ idle keyA /\ advancing 16000 h /\ 2 * 16000 <= 2 ^ 15 + (100 - 10) /\
  kevents 10 100 40 Idle h = [Press; Nothing; Click; Pressing; Longclick; Longpress; Nothing; Release] /\
  outputs (krun 16 16 [keyA; kend] (calls 10 100 40 1 (fun _ => 0) h)) =
    Done [Some (0, 65, KEY_PRESS); Some (0, 65, KEY_NOTHING); Some (0, 65, KEY_CLICK); Some (0, 65, KEY_PRESSING);
          Some (0, 65, KEY_LONGCLICK); Some (0, 65, KEY_LONGPRESS); Some (0, 65, KEY_NOTHING); Some (0, 65, KEY_RELEASE)].
Proof.
  cbv zeta. split; [split; [repeat constructor; cbn; lia|reflexivity]|]. split; [repeat constructor; cbn; tauto|].
  split; [cbn; lia|]. split; [lia|]. split; vm_compute; reflexivity.
Qed.

(** click <= longclick is needed: otherwise a long click is reported while the key is up. *)
Example keypad_thresholds_needed : exists h, advancing (2 ^ 63) h /\
  nth_error h 3 = Some (80, false) /\
  exists es, reports 32 64 [keyA; kend] (calls 50 5 100 1 (fun _ => 0) h) es /\ nth_error es 3 = Some Longclick.
Proof.
  exists [(0, true); (60, true); (70, false); (80, false)]. split; [cbn; lia|]. split; [reflexivity|].
  exists [Press; Click; Nothing; Longclick]. split; [|reflexivity]. eexists. eexists. split; vm_compute; reflexivity.
Qed.

(** C56 is false: the key B, listed before the pressed key A, is seen while A is being released and never
    handled; its state stays 1 after it has been released. *)
Theorem keypad_state_refuted : exists ks z ops click longclick period t bits ks' outs k',
  table ks z /\ Forall idle ks /\ krun 32 64 (ks ++ [z]) (ops ++ [KCall click longclick period t bits]) = Done (ks', outs) /\
  nth_error ks' 0 = Some k' /\ bits <> bitvalue k' /\ keypad_get_key_state k' = 1.
Proof.
  exists [keyB; keyA], kend, [KCall 10 100 20 5 1; KCall 10 100 20 6 2], 10, 100, 20, 7, 0. do 3 eexists.
  split; [split; [repeat constructor; cbn; lia|reflexivity]|]. split; [repeat constructor; cbn; tauto|].
  split; [vm_compute; reflexivity|]. split; [reflexivity|]. split; [cbn; lia|reflexivity].
Qed.
Print Assumptions keypad_state_refuted.

(** What is true of C56: with one key, the state is right after every call ... *)
Theorem keypad_state_single_partial : forall I w k z rest ops click longclick period t bits, table [k] z -> idle k ->
  exists k' outs, krun I w (k :: z :: rest) (ops ++ [KCall click longclick period t bits]) = Done (k' :: z :: rest, outs) /\
    keypad_get_key_state k' = if bits =? bitvalue k then 1 else 0.
Proof. exact state_single_l. Qed.
Print Assumptions keypad_state_single_partial.

(** ... and with several, that of the key which the call handled; a call handles no key only if no key has the bitmap.
    Missing: the other keys. *)
Theorem keypad_state_partial : forall I w ks z rest ops click longclick period t bits, table ks z -> Forall idle ks ->
  exists ks' outs f c e, krun I w (ks ++ z :: rest) (ops ++ [KCall click longclick period t bits]) = Done (ks' ++ z :: rest, outs ++ [Some (f, c, e)]) /\
    length ks' = length ks /\
    (f = -1 -> Forall (fun k => bitvalue k <> bits) ks) /\
    (f <> -1 -> exists k k', nth_error ks (Z.to_nat f) = Some k /\ nth_error ks' (Z.to_nat f) = Some k' /\
       keypad_get_key_state k' = if bits =? bitvalue k then 1 else 0).
Proof. exact state_found_l. Qed.
Print Assumptions keypad_state_partial.

(** C57: whatever the keys were. *)
Theorem keypad_reset : forall I w ks z rest, table ks z ->
  exists ks', keypad_reset_keys (ks ++ z :: rest) = Done (ks' ++ z :: rest) /\ length ks' = length ks /\
    Forall (fun k => keypad_get_key_state k = 0) ks' /\
    map (fun k => (bitvalue k, code k)) ks' = map (fun k => (bitvalue k, code k)) ks /\
    forall click longclick period now bits, Forall (fun k => bitvalue k <> bits) ks ->
      keypad_routine I w (ks' ++ z :: rest) click longclick period now bits = Done (ks' ++ z :: rest, -1, 0, KEY_NOTHING).
Proof. exact reset_call_l. Qed.
Print Assumptions keypad_reset.

Example keypad_reset_example :
  table [mkKey 1 65 12 13 1 1 0 KEY_LONGCLICK; mkKey 2 66 5 6 1 0 1 KEY_CLICK] kend /\
  Forall (fun k => bitvalue k <> 4) [mkKey 1 65 12 13 1 1 0 KEY_LONGCLICK; mkKey 2 66 5 6 1 0 1 KEY_CLICK] /\
  keypad_reset_keys [mkKey 1 65 12 13 1 1 0 KEY_LONGCLICK; mkKey 2 66 5 6 1 0 1 KEY_CLICK; kend; keyB]
    = Done [mkKey 1 65 0 0 0 0 1 KEY_NOTHING; mkKey 2 66 0 0 0 0 1 KEY_NOTHING; kend; keyB].
Proof. split; [split; [repeat constructor; cbn; lia|reflexivity]|]. split; [repeat constructor; cbn; lia|reflexivity]. Qed.

(** C109: keys whose bit map never appears do not interfere. *)
Theorem keypad_unused_keys : forall I w ks1 k ks2 z rest ops, table (ks1 ++ k :: ks2) z -> Forall idle (ks1 ++ ks2) ->
  never_seen (ks1 ++ ks2) ops ->
  exists k' outs ks1' ks2', krun I w [k; z] ops = Done ([k'; z], outs) /\
    krun I w (ks1 ++ k :: ks2 ++ z :: rest) ops = Done (ks1' ++ k' :: ks2' ++ z :: rest, map (moved_by (zlen ks1)) outs) /\
    map (fun k => (bitvalue k, code k)) (ks1' ++ ks2') = map (fun k => (bitvalue k, code k)) (ks1 ++ ks2) /\
    Forall idle (ks1' ++ ks2') /\ (Forall no_reset ops -> ks1' = ks1 /\ ks2' = ks2).
Proof. exact unused_keys_l. Qed.
Print Assumptions keypad_unused_keys.

Example keypad_unused_example :
  let ops := [KCall 10 100 20 5 2; KCall 10 100 20 20 2; KReset; KCall 10 100 20 21 0; KCall 10 100 20 22 2; KCall 10 100 20 23 0] in
  table ([keyA] ++ keyB :: [KEYPAD_KEY 3 67]) kend /\ Forall idle ([keyA] ++ [KEYPAD_KEY 3 67]) /\ never_seen ([keyA] ++ [KEYPAD_KEY 3 67]) ops /\
  outputs (krun 32 64 [keyB; kend] ops)
    = Done [Some (0, 66, KEY_PRESS); Some (0, 66, KEY_CLICK); None; Some (-1, 0, KEY_NOTHING); Some (0, 66, KEY_PRESS); Some (0, 66, KEY_RELEASE)] /\
  outputs (krun 32 64 [keyA; keyB; KEYPAD_KEY 3 67; kend] ops)
    = Done [Some (1, 66, KEY_PRESS); Some (1, 66, KEY_CLICK); None; Some (-1, 0, KEY_NOTHING); Some (1, 66, KEY_PRESS); Some (1, 66, KEY_RELEASE)].
Proof.
  cbv zeta. split; [split; [repeat constructor; cbn; lia|reflexivity]|]. split; [repeat constructor; cbn; tauto|].
  split; [repeat constructor; cbn; lia|]. split; vm_compute; reflexivity.
Qed.

(** C110: events of different keys never mix: from a press of one key to its release (or a reset) no other key
    has an event, at whatever times and with whatever thresholds. *)
Theorem keypad_one_at_a_time : forall I w ks z rest ops, table ks z -> Forall idle ks ->
  exists keys es, krun I w (ks ++ z :: rest) ops = Done (keys, map (option_map (fun '(f, c, e) => (f, c, event_code e))) es) /\
    one_at_a_time None es.
Proof. exact one_at_a_time_l. Qed.
Print Assumptions keypad_one_at_a_time.

(** B is pressed while A is held and again while A is leaving: it is heard only after the release of A. *)
Example keypad_one_at_a_time_example :
  let ops := [KCall 10 100 20 5 1; KCall 10 100 20 20 1; KCall 10 100 20 25 2; KCall 10 100 20 26 2; KCall 10 100 20 40 2; KCall 10 100 20 41 2] in
  table [keyA; keyB] kend /\ Forall idle [keyA; keyB] /\
  outputs (krun 32 64 [keyA; keyB; kend] ops)
    = Done [Some (0, 65, KEY_PRESS); Some (0, 65, KEY_CLICK); Some (0, 65, KEY_NOTHING); Some (0, 65, KEY_NOTHING);
            Some (0, 65, KEY_RELEASE); Some (1, 66, KEY_PRESS)] /\
  ~ one_at_a_time None [Some (0, 65, Press); Some (1, 66, Press)] /\
  ~ one_at_a_time None [Some (0, 65, Press); Some (0, 65, Release); Some (0, 65, Click)].
Proof.
  cbv zeta. split; [split; [repeat constructor; cbn; lia|reflexivity]|]. split; [repeat constructor; cbn; tauto|].
  split; [vm_compute; reflexivity|]. split; cbn; intuition congruence.
Qed.

(** C130: a whole table, exactly.  [pad_run] gives for every call the key concerned and its event, and the states shown
    at the end. *)
Theorem keypad_exact : forall I w click longclick period, 0 < w -> I <= w ->
  0 <= click <= longclick -> longclick < 2 ^ (w - 1) -> 0 <= period < 2 ^ (w - 1) ->
  forall G, 0 < G -> 2 * G <= 2 ^ (w - 1) + (longclick - click) ->
  forall ks z rest h, table ks z -> Forall idle ks -> paced G None h ->
  exists ks', krun I w (ks ++ z :: rest) (pad_ops click longclick period h) =
      Done (ks' ++ z :: rest, map (pad_output (map code ks)) (snd (pad_run click longclick period (map bitvalue ks) pad0 h))) /\
    length ks' = length ks /\ map bitvalue ks' = map bitvalue ks /\ map code ks' = map code ks /\
    forall j k, nth_error ks' j = Some k -> keypad_get_key_state k = b2z (shown (fst (pad_run click longclick period (map bitvalue ks) pad0 h)) j).
Proof.
  intros I w click longclick period Hw HI H1 H2 H3 G HG HG2 ks z rest h Ht.
  exact (pad_l I w Hw HI click longclick period H1 H2 H3 G HG HG2 z rest (proj2 Ht) ks h Ht).
Qed.
Print Assumptions keypad_exact.

(** B is seen while A is held, heard after the release of A, and still shown as held when it is up again (as in C56). *)
Example keypad_exact_example :
  let h := [Some (65500, 1); Some (65520, 1); Some (65540, 2); Some (65545, 0); Some (65560, 0); None;
            Some (65570, 1); Some (65575, 2); Some (65576, 2); Some (65580, 0)] in
  let r := pad_run 10 100 40 [2; 1] pad0 h in
  table [keyB; keyA] kend /\ Forall idle [keyB; keyA] /\ paced 16000 None h /\ 2 * 16000 <= 2 ^ 15 + (100 - 10) /\
  snd r = [Some (Some (1%nat, Press)); Some (Some (1%nat, Click)); Some (Some (1%nat, Nothing)); Some (Some (1%nat, Nothing));
           Some (Some (1%nat, Release)); None;
           Some (Some (1%nat, Press)); Some (Some (1%nat, Release)); Some (Some (0%nat, Press)); Some (Some (0%nat, Release))] /\
  shown (fst (pad_run 10 100 40 [2; 1] pad0 (firstn 5 h))) 0 = true /\ shown (fst r) 0 = false.
Proof.
  cbv zeta. split; [split; [repeat constructor; cbn; lia|reflexivity]|]. split; [repeat constructor; cbn; tauto|].
  split; [cbn; lia|]. split; [lia|]. split; [vm_compute; reflexivity|]. split; vm_compute; reflexivity.
Qed.
