(** Property C204: the events of a key looked at every [J] time units are at most [J] late. *)
From Verif Require Import Base KeypadModel KeypadSpec KeypadSystem KeypadProps KeyLateSpec KeyLateProofs.

(** C53-C55 say that events do not come too early; this is how late they may be. *)
Theorem keypad_prompt : forall I w click longclick period J, 0 < w -> I <= w ->
  0 <= click <= longclick -> longclick < 2 ^ (w - 1) -> 0 <= period < 2 ^ (w - 1) ->
  forall k z rest u, table [k] z -> idle k -> (forall t, u t <> bitvalue k) ->
  forall h, 0 <= J -> 2 * (J + 1) <= 2 ^ (w - 1) + (longclick - click) -> advancing (J + 1) h ->
  exists es, reports I w (k :: z :: rest) (calls click longclick period (bitvalue k) u h) es /\ length es = length h /\
    click_prompt click J (trace h es) /\ longclick_prompt click longclick J (trace h es) /\
    repeat_prompt period J (trace h es) /\ release_prompt click J (trace h es).
Proof.
  intros I w click longclick period J Hw HI Hc Hl Hp k z rest u Ht Hi Hu h HJ HG Ha.
  destruct (keypad_automaton I w click longclick period Hw HI Hc Hl Hp k z rest u Ht Hi Hu (J + 1) h ltac:(lia) HG Ha)
    as (keys & outs & ER & EO & _).
  exists (kevents click longclick period Idle h). split; [now exists keys, outs|]. split.
  - clear. generalize Idle. induction h as [|[t d] h IH]; intros s; [reflexivity|]. cbn [kevents]. destruct (kstep _ _ _ _ _ _).
    cbn [length]. now rewrite IH.
  - rewrite ktrace_trace. apply prompt_l; [lia|lia|exact Ha].
Qed.
Print Assumptions keypad_prompt.

(** Calls at most 30 apart across the wrap of a 16 bit clock, thresholds 10, 100 and 40: click, two repeats, long click,
    another repeat, release. *)
Example keypad_prompt_case :
  let h := [(65500, true); (65530, true); (65560, true); (65575, true); (65605, true); (65635, true); (65650, true); (65660, false); (65685, false)] in
  advancing 31 h /\
  trace h (kevents 10 100 40 Idle h) =
    [(65500, true, Press); (65530, true, Click); (65560, true, Nothing); (65575, true, Pressing); (65605, true, Longclick);
     (65635, true, Nothing); (65650, true, Longpress); (65660, false, Nothing); (65685, false, Release)] /\
  outputs (krun 16 16 [keyA; kend] (calls 10 100 40 1 (fun _ => 0) h)) =
    Done [Some (0, 65, KEY_PRESS); Some (0, 65, KEY_CLICK); Some (0, 65, KEY_NOTHING); Some (0, 65, KEY_PRESSING);
          Some (0, 65, KEY_LONGCLICK); Some (0, 65, KEY_NOTHING); Some (0, 65, KEY_LONGPRESS); Some (0, 65, KEY_NOTHING);
          Some (0, 65, KEY_RELEASE)].
Proof. cbv zeta. split; [cbn; lia|]. split; vm_compute; reflexivity. Qed.

(** The long click needs a call of its own: with click = long click = 10 and calls every 30 it comes 60 after the press. *)
Example keypad_prompt_long :
  let h := [(0, true); (10, true); (40, true); (70, true)] in
  kevents 10 10 40 Idle h = [Press; Nothing; Click; Longclick] /\ 70 = 0 + Z.max 10 (10 + 30) + 30.
Proof. split; vm_compute; reflexivity. Qed.
