(** Property C209: C204 for a table with any number of keys. *)
From Verif Require Import Base KeypadModel KeypadSpec KeypadSystem KeypadProofs KeypadProps KeyLateSpec KeyTabLateSpec KeyTabLateProofs.

(** Let [seg] be some successive calls in any history, the first of which reports key [k].  Then the calls report [k]
    until its release or to the end of [seg], and its events are at most [J] late, as if it were alone. *)
Theorem keypad_table_prompt : forall I w click longclick period J, 0 < w -> I <= w ->
  0 <= click <= longclick -> longclick < 2 ^ (w - 1) -> 0 <= period < 2 ^ (w - 1) ->
  0 <= J -> 2 * (J + 1) <= 2 ^ (w - 1) + (longclick - click) ->
  forall ks z rest h1 seg h2, table ks z -> Forall idle ks -> paced (J + 1) None (h1 ++ map Some seg ++ h2) -> seg <> [] ->
  exists keys outs, krun I w (ks ++ z :: rest) (pad_ops click longclick period (h1 ++ map Some seg ++ h2)) = Done (keys, outs) /\
    forall i k c e, nth_error ks i = Some k -> nth_error outs (length h1) = Some (Some (Z.of_nat i, c, e)) ->
    exists es, (1 <= length es <= length seg)%nat /\
      firstn (length es) (skipn (length h1) outs) = map (fun e => Some (Z.of_nat i, code k, event_code e)) es /\
      (length es = length seg \/ last es Nothing = Release) /\
      let tr := trace (seen (bitvalue k) (firstn (length es) seg)) es in
      click_prompt click J tr /\ longclick_prompt click longclick J tr /\ repeat_prompt period J tr /\ release_prompt click J tr.
Proof.
  intros I w click longclick period J Hw HI Hc Hl Hp HJ HG ks z rest h1 seg h2 Ht Hid HP Hs.
  destruct (keypad_exact I w click longclick period Hw HI Hc Hl Hp (J + 1) ltac:(lia) HG ks z rest (h1 ++ map Some seg ++ h2) Ht Hid HP) as (ks' & E & _).
  eexists. eexists. split; [exact E|]. intros i k c e Hk Hn.
  rewrite nth_error_map in Hn. destruct (nth_error (snd (pad_run click longclick period (map bitvalue ks) pad0 (h1 ++ map Some seg ++ h2))) (length h1)) as [o|] eqn:EO; [|discriminate].
  cbn [option_map] in Hn. injection Hn as Hn. destruct o as [[[i' e0]|]|]; cbn [pad_output] in Hn; [|injection Hn; lia|discriminate].
  assert (i' = i) as -> by (injection Hn; lia).
  destruct (window_l click longclick period J (map bitvalue ks) h1 seg h2 i e0 Hc (proj1 Hp) HJ HP Hs EO) as (es & L & F & R & T).
  exists es. split; [exact L|]. split.
  - rewrite skipn_map, firstn_map, F, map_map. apply map_ext. intros x. cbn [pad_output].
    rewrite (nth_error_nth (map code ks) i 0 (x := code k)); [reflexivity|]. now apply map_nth_error.
  - split; [exact R|]. rewrite (nth_error_nth (map bitvalue ks) i 0 (x := bitvalue k)) in T; [exact T|]. now apply map_nth_error.
Qed.
Print Assumptions keypad_table_prompt.

(** B is pressed and released; then A is pressed, clicked and repeated while B comes and goes, and released 25 after
    it was found up (calls at most 30 apart, click threshold 10); the last call reports B again. *)
Example keypad_table_prompt_case :
  let h1 := [Some (65480, 2); Some (65490, 0)] in
  let seg := [(65500, 1); (65530, 1); (65560, 1); (65575, 1); (65580, 2); (65605, 0); (65606, 2)] in
  table [keyB; keyA] kend /\ Forall idle [keyB; keyA] /\ paced 31 None (h1 ++ map Some seg ++ []) /\ 2 * (30 + 1) <= 2 ^ 15 + (100 - 10) /\
  outputs (krun 16 16 [keyB; keyA; kend] (pad_ops 10 100 40 (h1 ++ map Some seg ++ []))) =
    Done [Some (0, 66, KEY_PRESS); Some (0, 66, KEY_RELEASE);
          Some (1, 65, KEY_PRESS); Some (1, 65, KEY_CLICK); Some (1, 65, KEY_NOTHING); Some (1, 65, KEY_PRESSING);
          Some (1, 65, KEY_NOTHING); Some (1, 65, KEY_RELEASE); Some (0, 66, KEY_PRESS)].
Proof.
  cbv zeta. split; [split; [repeat constructor; cbn; lia|reflexivity]|]. split; [repeat constructor; cbn; tauto|].
  split; [cbn; lia|]. split; [lia|]. vm_compute; reflexivity.
Qed.
