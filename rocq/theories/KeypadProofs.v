From Coq Require Import ZifyBool.
From Verif Require Import Base BaseLemmas TimeModel TimeSpec TimeProofs KeypadModel KeypadSpec KeypadSystem.

(** * One key *)

Section Single.
Variables I w : Z.
Hypothesis Hw : 0 < w.
Hypothesis HI : I <= w.
Variables click longclick period : Z.
Definition half := 2 ^ (w - 1).
Hypothesis Hclick : 0 <= click <= longclick.
Hypothesis Hlong : longclick < half.
Hypothesis Hperiod : 0 <= period < half.
Variable b : Z.
Hypothesis Hb : b <> 0.

(** The automaton, except that a long click may be missed (the model misses it when the clock has gone
    round too far). *)
Definition lstep (s : phase) (t : Z) (d : bool) (s' : phase) (e : kevent) : Prop :=
  kstep click longclick period s t d = (s', e) \/
  (d = true /\ exists p m, s = Clicked p m /\ p + longclick < t /\
     (s', e) = if m + period <? t then (Clicked p t, Pressing) else (s, Nothing)).

(** The key after the call at [t']. *)
Definition rel (t' : Z) (s : phase) (k : key) : Prop :=
  bitvalue k = b /\
  match s with
  | Idle => idle k
  | Down p => oldvalue k = 1 /\ value k = 1 /\ ignore k = 0 /\ lastevent k = KEY_PRESS /\ time_state k = counter w p /\ p <= t' <= p + click
  | Clicked p m => oldvalue k = 1 /\ value k = 1 /\ ignore k = 0 /\ lastevent k = KEY_CLICK /\ time_state k = counter w p /\
      time_period k = counter w m /\ p <= m <= t' /\ t' <= m + period
  | Long m => oldvalue k = 1 /\ value k = 1 /\ ignore k = 0 /\ lastevent k = KEY_LONGCLICK /\ time_period k = counter w m /\ m <= t' <= m + period
  | Leaving r => oldvalue k = 0 /\ value k = 0 /\ ignore k = 0 /\ (lastevent k = KEY_CLICK \/ lastevent k = KEY_LONGCLICK) /\
      time_state k = counter w r /\ r <= t' <= r + click
  end.

Lemma expired : forall s now d, - half < now - (s + d) < half ->
  is_strictly_expired I w w (counter w s) (counter w now) d = (s + d <? now).
Proof. intros s now d H. apply is_strictly_expired_l; [exact Hw|exact HI|]. unfold close. fold half. lia. Qed.

(** If the difference is beyond the half range the answer may be anything. *)
Lemma handle_down : forall k s t t', rel t' s k -> t' <= t < t' + half ->
  exists s' e, lstep s t true s' e /\ ((forall p m, s = Clicked p m -> t - (p + longclick) < half) -> kstep click longclick period s t true = (s', e)) /\
    exists k', handle I w (set_value k 1) click longclick period (counter w t) = (k', event_code e) /\ rel t s' k'.
Proof.
  intros k s t t' [Hbit Hs] Ht. unfold handle, set_lastevent, set_time_state, set_time_period, set_ignore, set_oldvalue, set_value.
  cbn [bitvalue code value oldvalue ignore lastevent time_state time_period].
  destruct s as [|p|p m|m|r].
  - destruct Hs as (Ho & Hv & Hl). rewrite Ho. change (1 =? 0) with false. cbn [andb negb].
    exists (Down t), Press. split; [now left|]. split; [reflexivity|]. eexists. split; [reflexivity|].
    split; [exact Hbit|]. cbn. repeat split; lia.
  - destruct Hs as (Ho & Hv & Hi & Hl & Hts & Hp). rewrite Ho, Hi. cbn [Z.eqb andb negb Pos.eqb set_value lastevent time_state time_period value].
    rewrite Hl, Hts. change (KEY_PRESS =? KEY_PRESS) with true. change (1 =? 1) with true. cbn [andb].
    rewrite expired by lia. destruct (Z.ltb_spec (p + click) t) as [Hc|Hc].
    + exists (Clicked p t), Click. unfold lstep. cbn [kstep]. destruct (Z.ltb_spec (p + click) t); [|lia].
      split; [now left|]. split; [reflexivity|]. eexists. split; [reflexivity|]. split; [exact Hbit|]. cbn. repeat split; try assumption; lia.
    + exists (Down p), Nothing. unfold lstep. cbn [kstep]. destruct (Z.ltb_spec (p + click) t); [lia|].
      split; [now left|]. split; [reflexivity|]. change (1 =? 0) with false. rewrite andb_false_r. cbn [andb].
      change ((KEY_PRESS =? KEY_CLICK) || (KEY_PRESS =? KEY_PRESS)) with true. cbn [andb]. rewrite expired by lia.
      destruct (Z.ltb_spec (p + longclick) t); [lia|]. change (KEY_PRESS =? KEY_LONGCLICK) with false. change (KEY_PRESS =? KEY_CLICK) with false.
      cbn [andb]. eexists. split; [reflexivity|]. split; [exact Hbit|]. cbn. repeat split; try assumption; lia.
  - destruct Hs as (Ho & Hv & Hi & Hl & Hts & Htp & Hp & Hm). rewrite Ho, Hi. cbn [Z.eqb andb negb Pos.eqb set_value lastevent time_state time_period value].
    rewrite Hl, Hts, Htp. change (KEY_CLICK =? KEY_PRESS) with false. change (1 =? 0) with false. change (1 =? 1) with true. rewrite andb_false_r. cbn [andb].
    change ((KEY_CLICK =? KEY_CLICK) || false) with true. change (KEY_CLICK =? KEY_CLICK) with true.
    change (KEY_CLICK =? KEY_LONGCLICK) with false. cbn [andb].
    rewrite (expired m) by lia.
    assert (Hsound : is_strictly_expired I w w (counter w p) (counter w t) longclick = true -> p + longclick < t).
    { intros H. destruct (Z_lt_ge_dec (p + longclick) t) as [|Hge]; [assumption|]. rewrite expired in H by lia. lia. }
    assert (Hexact : t - (p + longclick) < half -> is_strictly_expired I w w (counter w p) (counter w t) longclick = (p + longclick <? t)).
    { intros H. apply expired. lia. }
    destruct (is_strictly_expired I w w (counter w p) (counter w t) longclick) eqn:Ex.
    + specialize (Hsound eq_refl). exists (Long t), Longclick.
      assert (Hk : kstep click longclick period (Clicked p m) t true = (Long t, Longclick)).
      { cbn [kstep]. destruct (Z.ltb_spec (p + longclick) t); [reflexivity|lia]. }
      split; [left; exact Hk|]. split; [intros _; exact Hk|]. eexists. split; [reflexivity|]. split; [exact Hbit|]. cbn. repeat split; try assumption; lia.
    + set (r := if m + period <? t then (Clicked p t, Pressing) else (Clicked p m, Nothing)).
      exists (fst r), (snd r). split; [|split].
      * destruct (Z_lt_ge_dec (p + longclick) t) as [Hlt|Hge].
        -- right. split; [reflexivity|]. exists p, m. split; [reflexivity|]. split; [exact Hlt|]. unfold r. destruct (m + period <? t); reflexivity.
        -- left. cbn [kstep]. destruct (Z.ltb_spec (p + longclick) t); [lia|]. unfold r. destruct (m + period <? t); reflexivity.
      * intros H. specialize (H p m eq_refl). specialize (Hexact H). cbn [kstep]. rewrite <- Hexact. unfold r. destruct (m + period <? t); reflexivity.
      * unfold r. destruct (Z.ltb_spec (m + period) t); (eexists; split; [reflexivity|]; split; [exact Hbit|]; cbn; repeat split; try assumption; lia).
  - destruct Hs as (Ho & Hv & Hi & Hl & Htp & Hm). rewrite Ho, Hi. cbn [Z.eqb andb negb Pos.eqb set_value lastevent time_state time_period value].
    rewrite Hl, Htp. change (KEY_LONGCLICK =? KEY_PRESS) with false. change (1 =? 0) with false. change (1 =? 1) with true. rewrite andb_false_r. cbn [andb].
    change ((KEY_LONGCLICK =? KEY_CLICK) || false) with false. change (KEY_LONGCLICK =? KEY_CLICK) with false.
    change (KEY_LONGCLICK =? KEY_LONGCLICK) with true. cbn [andb]. rewrite expired by lia.
    exists (if m + period <? t then Long t else Long m), (if m + period <? t then Longpress else Nothing). unfold lstep. cbn [kstep].
    destruct (Z.ltb_spec (m + period) t); (split; [now left|]; split; [reflexivity|]; eexists; split; [reflexivity|]; split; [exact Hbit|]; cbn; repeat split; try assumption; lia).
  - destruct Hs as (Ho & Hv & Hi & Hl & Hts & Hr). rewrite Ho. change (1 =? 0) with false. cbn [andb negb].
    exists (Down t), Press. split; [now left|]. split; [reflexivity|]. eexists. split; [reflexivity|].
    split; [exact Hbit|]. cbn. repeat split; lia.
Qed.

Lemma step_l : forall k s t t' u (d : bool) z rest, rel t' s k -> bitvalue z = 0 -> u <> b -> t' <= t < t' + half ->
  exists s' e k' found c, keypad_routine I w (k :: z :: rest) click longclick period (counter w t) (if d then b else u) =
      Done (k' :: z :: rest, found, c, event_code e) /\
    lstep s t d s' e /\ rel t s' k' /\ code k' = code k /\ (found = 0 /\ c = code k \/ found = -1 /\ e = Nothing) /\ value k' = b2z d /\
    ((forall p m, s = Clicked p m -> t - (p + longclick) < half) -> kstep click longclick period s t d = (s', e)).
Proof.
  intros k s t t' u d z rest Hrel Hz Hu Ht. pose proof Hrel as [Hbit Hs].
  unfold keypad_routine. cbn [scan]. rewrite Hbit, Hz. destruct (Z.eqb_spec b 0); [contradiction|]. cbn [Z.eqb obind].
  destruct d.
  - rewrite Z.eqb_refl. cbn [obind]. change (0 =? -1) with false. change (zget (set_value k 1 :: z :: rest) 0) with (Done (set_value k 1)).
    cbn [obind]. destruct (handle_down k s t t' Hrel Ht) as (s' & e & L & Ex & k' & E & R). rewrite E.
    change (zset (set_value k 1 :: z :: rest) 0 k') with (Done (k' :: z :: rest)). cbn [obind].
    exists s', e, k', 0, (code k). split; [reflexivity|]. split; [exact L|]. split; [exact R|].
    assert (Hcv : code k' = code k /\ value k' = 1).
    { clear - E. unfold handle in E. repeat match type of E with context [if ?c then _ else _] => destruct c end; injection E as <- _; split; reflexivity. }
    destruct Hcv as [Hc Hv]. split; [exact Hc|]. split; [left; split; reflexivity|]. split; [exact Hv|exact Ex].
  - destruct (Z.eqb_spec b u) as [E|_]; [congruence|]. cbn [negb andb]. rewrite andb_true_r.
    assert (Hup : forall s', s' = Leaving t -> (oldvalue k = 1 /\ (lastevent k = KEY_CLICK \/ lastevent k = KEY_LONGCLICK)) ->
      exists k', handle I w (set_value k 0) click longclick period (counter w t) = (k', event_code Nothing) /\ rel t s' k' /\ code k' = code k /\ value k' = 0).
    { intros s' -> [Ho Hl]. unfold handle. cbn [set_value value oldvalue ignore]. rewrite Ho. change (0 =? 1) with false. cbn [andb negb].
      cbn [set_ignore set_oldvalue set_time_state set_value value lastevent]. change (0 =? 0) with true. cbn [negb].
      destruct (Z.eqb_spec (lastevent k) KEY_PRESS) as [E|_]; [unfold KEY_PRESS, KEY_CLICK, KEY_LONGCLICK in *; lia|].
      eexists. split; [reflexivity|]. split; [|split; reflexivity]. split; [exact Hbit|]. cbn. repeat split; try assumption; lia. }
    destruct s as [|p|p m|m|r].
    + destruct Hs as (Ho & Hv & Hl). rewrite Ho. cbn [Z.eqb negb].
      assert (E : negb (lastevent k =? KEY_RELEASE) && negb (lastevent k =? KEY_NOTHING) = false) by lia. rewrite E. cbn [obind].
      change (-1 =? -1) with true. cbn [obind]. exists Idle, Nothing, k, (-1), 0. split; [reflexivity|]. split; [now left|].
      split; [exact Hrel|]. split; [reflexivity|]. split; [right; split; reflexivity|]. split; [exact Hv|reflexivity].
    + destruct Hs as (Ho & Hv & Hi & Hl & Hts & Hp). rewrite Ho. cbn [Z.eqb negb Pos.eqb obind]. change (zget (set_value k 0 :: z :: rest) 0) with (Done (set_value k 0)).
      cbn [obind]. unfold handle. cbn [set_value value oldvalue ignore]. rewrite Ho. change (0 =? 1) with false. cbn [andb negb].
      cbn [set_ignore set_oldvalue set_time_state set_value value lastevent]. rewrite Hl. change (0 =? 0) with true. change (KEY_PRESS =? KEY_PRESS) with true. cbn [negb].
      exists Idle, Release. eexists _, 0, (code k). split; [reflexivity|]. split; [now left|]. split; [split; [exact Hbit|]; cbn; unfold idle; cbn; auto|].
      split; [reflexivity|]. split; [left; split; reflexivity|]. split; reflexivity.
    + destruct Hs as (Ho & Hv & Hi & Hl & _). rewrite Ho. cbn [Z.eqb negb Pos.eqb obind]. change (zget (set_value k 0 :: z :: rest) 0) with (Done (set_value k 0)).
      cbn [obind]. destruct (Hup (Leaving t) eq_refl) as (k' & E & R & Hc & Hv'); [auto|]. rewrite E. cbn [zset Z.ltb orb]. 
      change (zset (set_value k 0 :: z :: rest) 0 k') with (Done (k' :: z :: rest)). cbn [obind].
      exists (Leaving t), Nothing, k', 0, (code k). split; [reflexivity|]. split; [now left|]. split; [exact R|]. split; [exact Hc|].
      split; [left; split; reflexivity|]. split; [exact Hv'|reflexivity].
    + destruct Hs as (Ho & Hv & Hi & Hl & _). rewrite Ho. cbn [Z.eqb negb Pos.eqb obind]. change (zget (set_value k 0 :: z :: rest) 0) with (Done (set_value k 0)).
      cbn [obind]. destruct (Hup (Leaving t) eq_refl) as (k' & E & R & Hc & Hv'); [auto|]. rewrite E.
      change (zset (set_value k 0 :: z :: rest) 0 k') with (Done (k' :: z :: rest)). cbn [obind].
      exists (Leaving t), Nothing, k', 0, (code k). split; [reflexivity|]. split; [now left|]. split; [exact R|]. split; [exact Hc|].
      split; [left; split; reflexivity|]. split; [exact Hv'|reflexivity].
    + destruct Hs as (Ho & Hv & Hi & Hl & Hts & Hr). rewrite Ho. cbn [Z.eqb negb].
      assert (E : negb (lastevent k =? KEY_RELEASE) && negb (lastevent k =? KEY_NOTHING) = true) by (unfold KEY_RELEASE, KEY_NOTHING, KEY_CLICK, KEY_LONGCLICK in *; lia).
      rewrite E. cbn [obind]. change (0 =? -1) with false. change (zget (k :: z :: rest) 0) with (Done k). cbn [obind].
      assert (Hh : exists s' e k', handle I w k click longclick period (counter w t) = (k', event_code e) /\ kstep click longclick period (Leaving r) t false = (s', e) /\
                 rel t s' k' /\ code k' = code k /\ value k' = 0).
      { unfold handle. rewrite Ho, Hv, Hi, Hts. cbn [Z.eqb andb negb].
        assert (E1 : (lastevent k =? KEY_PRESS) = false) by (unfold KEY_PRESS, KEY_CLICK, KEY_LONGCLICK in *; lia).
        assert (E2 : negb (lastevent k =? KEY_RELEASE) || (lastevent k =? KEY_NOTHING) = true) by (unfold KEY_RELEASE, KEY_NOTHING, KEY_CLICK, KEY_LONGCLICK in *; lia).
        rewrite E1, E2. cbn [andb]. rewrite !expired by lia. cbn [kstep]. rewrite !andb_false_r. cbn [andb].
        destruct (Z.ltb_spec (r + click) t) as [Hlt|Hge].
        - exists Idle, Release. eexists. split; [reflexivity|]. split; [reflexivity|]. split; [|split; [reflexivity|exact Hv]].
          split; [exact Hbit|]. cbn. unfold idle. cbn. auto.
        - destruct (Z.ltb_spec (r + longclick) t); [lia|]. rewrite !andb_false_r.
          exists (Leaving r), Nothing, k. split; [reflexivity|]. split; [reflexivity|]. split; [|split; [reflexivity|exact Hv]].
          split; [exact Hbit|]. cbn. repeat split; try assumption; lia. }
      destruct Hh as (s' & e & k' & Eh & Ek & R & Hc & Hv'). rewrite Eh.
      change (zset (k :: z :: rest) 0 k') with (Done (k' :: z :: rest)). cbn [obind].
      exists s', e, k', 0, (code k). split; [reflexivity|]. split; [left; exact Ek|]. split; [exact R|]. split; [exact Hc|].
      split; [left; split; reflexivity|]. split; [exact Hv'|intros _; exact Ek].
Qed.

(** Runs of the loose automaton. *)
Inductive lrun : phase -> list (Z * bool) -> list kevent -> phase -> Prop :=
| lrun_nil : forall s, lrun s [] [] s
| lrun_cons : forall s t d h s1 e es s2, lstep s t d s1 e -> lrun s1 h es s2 -> lrun s ((t, d) :: h) (e :: es) s2.

Definition next_time (t' : Z) (h : list (Z * bool)) : Prop :=
  match h with [] => True | (t, _) :: _ => t' <= t < t' + half end.

Lemma run_l : forall u z rest, bitvalue z = 0 -> (forall t, u t <> b) -> forall h k s t',
  rel t' s k -> next_time t' h -> advancing half h ->
  exists k' es s' outs, krun I w (k :: z :: rest) (calls click longclick period b u h) = Done (k' :: z :: rest, outs) /\
    map (option_map snd) outs = map (fun e => Some (event_code e)) es /\
    lrun s h es s' /\ length es = length h /\ (forall t d, last h (0, false) = (t, d) -> h <> [] -> value k' = b2z d).
Proof.
  intros u z rest Hz Hu. induction h as [|[t d] h IH]; intros k s t' Hrel Hn Ha.
  - exists k, [], s, []. cbn. repeat split; try constructor. intros t d _ []. reflexivity.
  - cbn [calls map krun fst snd]. cbn [next_time] in Hn.
    destruct (step_l k s t t' (u t) d z rest Hrel Hz (Hu t) Hn) as (s1 & e & k1 & found & c & E & L & R & Hc & _ & Hv & _).
    rewrite E. cbn [obind]. fold (calls click longclick period b u h).
    destruct (IH k1 s1 t R) as (k' & es & s' & outs & E' & Ho & L' & Hlen & Hlast).
    { destruct h as [|[t1 d1] h]; [exact Logic.I|]. cbn [advancing] in Ha. cbn. lia. }
    { destruct h as [|[t1 d1] h]; [exact Logic.I|]. cbn [advancing] in Ha. tauto. }
    rewrite E'. cbn [obind]. exists k', (e :: es), s', (Some (found, c, event_code e) :: outs). split; [reflexivity|].
    split; [cbn [map option_map snd]; now rewrite Ho|]. split; [econstructor; eassumption|]. split; [cbn [length]; lia|].
    intros t2 d2 Hl _. destruct h as [|x h].
    + cbn in E'. injection E' as <- _. cbn in Hl. injection Hl as <- <-. exact Hv.
    + apply (Hlast t2 d2); [exact Hl|discriminate].
Qed.

(** Exactness. *)
Variable G : Z.
Hypothesis HG : G <= half.
Hypothesis HG2 : 2 * G <= half + (longclick - click).

Definition tight (t' : Z) (s : phase) : Prop :=
  match s with Down p => t' <= p + click | Clicked p _ => t' <= p + longclick \/ t' < p + click + G | _ => True end.

Lemma tight_step : forall s t t' d s' e, tight t' s -> t' <= t < t' + G -> kstep click longclick period s t d = (s', e) -> tight t s'.
Proof.
  intros s t t' d s' e Hti Ht E. destruct s as [|p|p m|m|r]; destruct d; cbn [kstep tight] in *;
    repeat match type of E with context [if ?c then _ else _] => destruct c eqn:? end; injection E as <- <-; cbn [tight]; lia.
Qed.

Lemma exact_l : forall u z rest, bitvalue z = 0 -> (forall t, u t <> b) -> forall h k s t',
  rel t' s k -> tight t' s -> match h with [] => True | (t, _) :: _ => t' <= t < t' + G end -> advancing G h ->
  exists k' outs, krun I w (k :: z :: rest) (calls click longclick period b u h) = Done (k' :: z :: rest, outs) /\
    map (option_map snd) outs = map (fun e => Some (event_code e)) (kevents click longclick period s h) /\
    Forall (fun o => match o with Some (found, c, e) => (found = 0 /\ c = code k) \/ (found = -1 /\ e = KEY_NOTHING) | None => False end) outs.
Proof.
  intros u z rest Hz Hu. induction h as [|[t d] h IH]; intros k s t' Hrel Hti Hn Ha.
  - exists k, []. cbn. repeat split. constructor.
  - cbn [calls map krun fst snd].
    destruct (step_l k s t t' (u t) d z rest Hrel Hz (Hu t)) as (s1 & e & k1 & found & c & E & L & R & Hc & Hf & Hv & Hex); [lia|].
    assert (Hk : kstep click longclick period s t d = (s1, e)).
    { apply Hex. intros p m ->. cbn [tight] in Hti. lia. }
    rewrite E. cbn [obind]. fold (calls click longclick period b u h).
    destruct (IH k1 s1 t R) as (k' & outs & E' & Ho & Hall).
    { now apply (tight_step s t t' d s1 e). }
    { destruct h as [|[t1 d1] h]; [exact Logic.I|]. cbn [advancing] in Ha. tauto. }
    { destruct h as [|[t1 d1] h]; [exact Logic.I|]. cbn [advancing] in Ha. tauto. }
    rewrite E'. cbn [obind]. eexists k', (_ :: outs). split; [reflexivity|]. cbn [map kevents]. rewrite Hk. cbn [map option_map snd].
    split; [now rewrite Ho|]. constructor; [|rewrite Hc in Hall; exact Hall].
    destruct Hf as [[H1 H2]|[H1 H2]]; [left; auto|right; split; [exact H1|]]. now subst e.
Qed.

(** * What runs look like *)

Definition stage_of (s : phase) (g : stage) : Prop :=
  match s with
  | Idle => g = Ready | Down _ => g = Pressed | Clicked _ _ => g = Held | Long _ => g = Heldlong
  | Leaving _ => g = Held \/ g = Heldlong
  end.

Lemma ordered_l : forall h es s s' g, lrun s h es s' -> stage_of s g -> ordered g es.
Proof.
  induction h as [|[t d] h IH]; intros es s s' g H Hg; inversion H as [|? ? ? ? s1 e es' ? L R]; subst; [exact Logic.I|].
  cbn [ordered].
  assert (Hf : exists g', follows g e = Some g' /\ stage_of s1 g').
  { destruct L as [E|(-> & p & m & -> & Hlt & E)].
    - destruct s as [|p|p m|m|r]; destruct d; cbn [kstep stage_of] in *;
        repeat match type of E with context [if ?c then _ else _] => destruct c end; injection E as <- <-; cbn [stage_of];
        repeat match goal with H : _ \/ _ |- _ => destruct H end; subst g; cbn [follows]; eauto.
    - cbn [stage_of] in Hg. subst g. destruct (m + period <? t); injection E as -> ->; cbn; eauto. }
  destruct Hf as (g' & -> & Hg'). now apply (IH es' s1 s').
Qed.

(** Looking back from the phase: the calls of the current press. *)
Definition back (s : phase) (tr : list (Z * bool * kevent)) : Prop :=
  match s with
  | Down p => exists j, nth_error tr j = Some (p, true, Press) /\
      forall i x, (j < i)%nat -> nth_error tr i = Some x -> snd (fst x) = true /\ snd x = Nothing
  | Clicked p m => exists j, nth_error tr j = Some (p, true, Press) /\
      forall i x, (j < i)%nat -> nth_error tr i = Some x -> snd (fst x) = true /\ (snd x = Nothing \/ snd x = Click \/ snd x = Pressing)
  | _ => True
  end.

Local Notation click_ok := (KeypadSpec.click_ok click).
Local Notation longclick_ok := (KeypadSpec.longclick_ok longclick).

Lemma nth_snoc : forall {A} (l : list A) a i x, nth_error (l ++ [a]) i = Some x ->
  nth_error l i = Some x \/ (i = length l /\ x = a).
Proof.
  intros A l a i x H. destruct (Nat.lt_ge_cases i (length l)) as [Hlt|Hge].
  - rewrite nth_error_app1 in H by exact Hlt. now left.
  - rewrite nth_error_app2 in H by exact Hge. destruct (i - length l)%nat as [|n] eqn:E.
    + injection H as <-. right. split; [lia|reflexivity].
    + cbn in H. destruct n; discriminate.
Qed.

Lemma nth_snoc_old : forall {A} (l : list A) a i x, nth_error l i = Some x -> nth_error (l ++ [a]) i = Some x.
Proof. intros A l a i x H. rewrite nth_error_app1; [exact H|]. apply nth_error_Some. congruence. Qed.

Lemma back_step : forall s t d s' e tr, lstep s t d s' e -> back s tr -> click_ok tr -> longclick_ok tr ->
  let tr' := tr ++ [(t, d, e)] in back s' tr' /\ click_ok tr' /\ longclick_ok tr'.
Proof.
  intros s t d s' e tr L Hb0 Hc Hl tr'.
  assert (Hold : forall j p, nth_error tr j = Some p -> (j < length tr)%nat) by (intros j p Hj; apply nth_error_Some; congruence).
  assert (B : back s' tr').
  { assert (New : e = Press -> d = true -> back (Down t) tr').
    { intros -> ->. exists (length tr). unfold tr'. split; [rewrite nth_error_app2, Nat.sub_diag by lia; reflexivity|].
      intros i x Hi Hx. apply nth_snoc in Hx. destruct Hx as [Hx|[-> _]]; [apply Hold in Hx; lia|lia]. }
    assert (Stay : forall p m m', s = Clicked p m -> d = true -> (e = Nothing \/ e = Pressing) -> back (Clicked p m') tr').
    { intros p m m' -> -> He. destruct Hb0 as (j & Hj & Hi). exists j. split; [now apply nth_snoc_old|].
      intros i x Hlt Hx. apply nth_snoc in Hx. destruct Hx as [Hx|[_ ->]]; [now apply (Hi i)|]. cbn. intuition. }
    destruct L as [E|(-> & p & m & -> & Hlt & E)].
    - destruct s as [|p|p m|m|r]; destruct d; cbn [kstep] in E;
        repeat match type of E with context [if ?c then _ else _] => destruct c end; injection E as <- <-; try exact Logic.I; auto.
      + destruct Hb0 as (j & Hj & Hi). exists j. split; [now apply nth_snoc_old|]. intros i x Hlt Hx. apply nth_snoc in Hx.
        destruct Hx as [Hx|[_ ->]]; [|cbn; auto]. destruct (Hi i x Hlt Hx). auto.
      + destruct Hb0 as (j & Hj & Hi). exists j. split; [now apply nth_snoc_old|]. intros i x Hlt Hx. apply nth_snoc in Hx.
        destruct Hx as [Hx|[_ ->]]; [now apply (Hi i)|cbn; auto].
      + apply (Stay p m t); auto.
      + apply (Stay p m m); auto.
    - destruct (m + period <? t); injection E as -> ->; [apply (Stay p m t)|apply (Stay p m m)]; auto. }
  split; [exact B|]. split.
  - intros k t0 d0 Hk. apply nth_snoc in Hk. destruct Hk as [Hk|[-> Hk]].
    + destruct (Hc k t0 d0 Hk) as (Hd & j & p & H1 & H2 & H3 & H4). split; [exact Hd|]. exists j, p. split; [exact H1|].
      split; [now apply nth_snoc_old|]. split; [exact H3|]. intros i x Hi Hx. apply nth_snoc in Hx.
      destruct Hx as [Hx|[-> _]]; [now apply (H4 i)|apply Hold in Hk; lia].
    + injection Hk as -> -> He. subst e. destruct L as [E|(-> & p & m & -> & Hlt & E)].
      * destruct s as [|p|p m|m|r]; destruct d; cbn [kstep] in E;
          repeat match type of E with context [if ?c then _ else _] => destruct c eqn:? end; try discriminate.
        split; [reflexivity|]. destruct Hb0 as (j & Hj & Hi). exists j, p. split; [now apply Hold in Hj|]. split; [now apply nth_snoc_old|].
        split; [lia|]. intros i x Hlt Hx. apply nth_snoc in Hx. destruct Hx as [Hx|[-> _]]; [apply (Hi i); [lia|exact Hx]|lia].
      * destruct (m + period <? t); discriminate.
  - intros k t0 d0 Hk. apply nth_snoc in Hk. destruct Hk as [Hk|[-> Hk]].
    + destruct (Hl k t0 d0 Hk) as (Hd & j & p & H1 & H2 & H3 & H4). split; [exact Hd|]. exists j, p. split; [exact H1|].
      split; [now apply nth_snoc_old|]. split; [exact H3|]. intros i x Hi Hx. apply nth_snoc in Hx.
      destruct Hx as [Hx|[-> _]]; [now apply (H4 i)|apply Hold in Hk; lia].
    + injection Hk as -> -> He. subst e. destruct L as [E|(-> & p & m & -> & Hlt & E)].
      * destruct s as [|p|p m|m|r]; destruct d; cbn [kstep] in E;
          repeat match type of E with context [if ?c then _ else _] => destruct c eqn:? end; try discriminate.
        split; [reflexivity|]. destruct Hb0 as (j & Hj & Hi). exists j, p. split; [now apply Hold in Hj|]. split; [now apply nth_snoc_old|].
        split; [lia|]. intros i x Hlt Hx. apply nth_snoc in Hx. destruct Hx as [Hx|[-> _]]; [apply (Hi i); [lia|exact Hx]|lia].
      * destruct (m + period <? t); discriminate.
Qed.

Lemma back_run : forall h es s s' tr, lrun s h es s' -> back s tr -> click_ok tr -> longclick_ok tr ->
  click_ok (tr ++ trace h es) /\ longclick_ok (tr ++ trace h es).
Proof.
  induction h as [|[t d] h IH]; intros es s s' tr H B C L; inversion H as [|? ? ? ? s1 e es' ? Hs R]; subst.
  - cbn. rewrite app_nil_r. auto.
  - destruct (back_step _ _ _ _ _ _ Hs B C L) as (B' & C' & L'). cbv zeta in *.
    destruct (IH es' s1 s' _ R B' C' L') as [F1 F2]. unfold trace in *. cbn [combine]. rewrite <- app_assoc in F1, F2. auto.
Qed.

(** Repeats: [m] is a lower bound for the next ones. *)
Definition mark (s : phase) (m : Z) : Prop :=
  match s with Clicked _ m' => m <= m' | Long m' => m <= m' | _ => True end.

(** A repeat at [t] is more than a period after [m], the time of any earlier repeat or click. *)
Lemma repeat_l : forall h es s s' t' m, lrun s h es s' -> mark s m -> m <= t' ->
  match h with [] => True | (t, _) :: _ => t' <= t end -> advancing half h ->
  forall k t d e, nth_error (trace h es) k = Some (t, d, e) -> repeat_event e = true -> m + period < t.
Proof.
  induction h as [|[t d] h IH]; intros es s s' t' m H Hm Hmt Ht Ha k t0 d0 e0 Hk He; inversion H as [|? ? ? ? s1 e es' ? Hs R]; subst.
  - destruct k; discriminate.
  - assert (Hstep : mark s1 m /\ (repeat_event e = true -> m + period < t)).
    { destruct Hs as [E|(-> & p & m0 & -> & Hlt & E)].
      - destruct s as [|p|p m0|m0|r]; destruct d; cbn [kstep mark] in *;
          repeat match type of E with context [if ?c then _ else _] => destruct c eqn:? end; injection E as <- <-; cbn [mark repeat_event];
          (split; [try exact Logic.I; lia|intros Hr; try discriminate Hr; lia]).
      - cbn [mark] in Hm. destruct (m0 + period <? t) eqn:?; injection E as -> ->; cbn [mark repeat_event]; split; lia || (intros; discriminate). }
    destruct Hstep as [M1 R1]. destruct k as [|k].
    + unfold trace in Hk. cbn in Hk. injection Hk as <- <- <-. now apply R1.
    + unfold trace in Hk. cbn [combine nth_error] in Hk. apply (IH es' s1 s' t m R M1) with (k := k) (d := d0) (e := e0); try assumption.
      * lia.
      * destruct h as [|[t1 d1] h]; [exact Logic.I|]. cbn [advancing] in Ha. lia.
      * destruct h as [|[t1 d1] h]; [exact Logic.I|]. cbn [advancing] in Ha. tauto.
Qed.

Lemma repeats_l : forall h es s s' t', lrun s h es s' -> match h with [] => True | (t, _) :: _ => t' <= t end -> advancing half h ->
  forall k1 k2 t1 d1 e1 t2 d2 e2, (k1 < k2)%nat -> nth_error (trace h es) k1 = Some (t1, d1, e1) -> nth_error (trace h es) k2 = Some (t2, d2, e2) ->
  (repeat_event e1 = true \/ e1 = Click \/ e1 = Longclick) -> repeat_event e2 = true -> t1 + period < t2.
Proof.
  induction h as [|[t d] h IH]; intros es s s' t' H Ht Ha k1 k2 t1 d1 e1 t2 d2 e2 Hk H1 H2 He1 He2; inversion H as [|? ? ? ? s1 e es' ? Hs R]; subst.
  - destruct k1; discriminate.
  - unfold trace in *. assert (Hadv : match h with [] => True | (t0, _) :: _ => t <= t0 end /\ advancing half h).
    { destruct h as [|[u v] h]; [split; exact Logic.I|]. cbn [advancing] in Ha. split; [lia|tauto]. }
    destruct Hadv as [Hh Ha']. destruct k2 as [|k2]; [lia|]. cbn [combine nth_error] in H2. destruct k1 as [|k1].
    + cbn in H1. injection H1 as <- <- <-.
      apply (repeat_l h es' s1 s' t t R) with (k := k2) (d := d2) (e := e2); try assumption; [|lia].
      destruct Hs as [E|(-> & p & m0 & -> & Hlt & E)].
      * destruct s as [|p|p m0|m0|r]; destruct d; cbn [kstep] in *;
          repeat match type of E with context [if ?c then _ else _] => destruct c eqn:? end; injection E as <- <-; cbn [mark]; try exact Logic.I; try lia;
          cbn in He1; intuition discriminate.
      * destruct (m0 + period <? t) eqn:?; injection E as -> ->; cbn [mark]; [lia|]. cbn in He1. intuition discriminate.
    + cbn [combine nth_error] in H1. apply (IH es' s1 s' t R Hh Ha' k1 k2 t1 d1 e1 t2 d2 e2); try assumption. lia.
Qed.

End Single.

(** * Tables of keys *)

Definition act (k : key) : Prop := oldvalue k <> 0 \/ (lastevent k <> KEY_RELEASE /\ lastevent k <> KEY_NOTHING).

Definition actb (k : key) : bool := negb (oldvalue k =? 0) || (negb (lastevent k =? KEY_RELEASE) && negb (lastevent k =? KEY_NOTHING)).

Lemma actb_spec : forall k, actb k = true <-> act k.
Proof. intros k. unfold actb, act. lia. Qed.

(** What the scan does to a table. *)
Definition scanned (bits : Z) (ws ws' : list key) (j : nat) (k : key) : Prop :=
  nth_error ws j = Some k /\
  ((bitvalue k = bits /\ nth_error ws' j = Some (set_value k 1) /\
      forall j' k', (j < j')%nat -> nth_error ws j' = Some k' -> bitvalue k' <> bits /\ ~ act k') \/
   (bitvalue k <> bits /\ oldvalue k <> 0 /\ nth_error ws' j = Some (set_value k 0)) \/
   (bitvalue k <> bits /\ oldvalue k = 0 /\ act k /\ nth_error ws' j = Some k)) /\
  (forall j' k', j' <> j -> nth_error ws j' = Some k' ->
     nth_error ws' j' = Some k' \/ (bitvalue k' = bits /\ nth_error ws' j' = Some (set_value k' 1))) /\
  (forall j' k', (j' < j)%nat -> nth_error ws j' = Some k' -> bitvalue k' <> bits -> ~ act k').

Lemma scan_l : forall z rest bits, bitvalue z = 0 -> forall ws i f0 c0, Forall (fun k => bitvalue k <> 0) ws ->
  exists ws' f c, scan (ws ++ z :: rest) bits i f0 c0 = Done (ws' ++ z :: rest, f, c) /\ length ws' = length ws /\
    ((f = f0 /\ c = c0 /\ ws' = ws /\ Forall (fun k => bitvalue k <> bits /\ ~ act k) ws) \/
     (exists j k, f = i + Z.of_nat j /\ c = code k /\ scanned bits ws ws' j k)).
Proof.
  intros z rest bits Hz. induction ws as [|k ws IH]; intros i f0 c0 Hn.
  - exists [], f0, c0. cbn [app scan]. rewrite Hz. cbn [Z.eqb]. split; [reflexivity|]. split; [reflexivity|]. left. repeat split. constructor.
  - inversion Hn as [|? ? Hk Hn0]; subst. cbn [app scan]. destruct (Z.eqb_spec (bitvalue k) 0); [contradiction|].
    destruct (Z.eqb_spec (bitvalue k) bits) as [Hm|Hm].
    + destruct (IH (i + 1) i (code k) Hn0) as (ws' & f & c & E & Hl & Hd). rewrite E. cbn [obind].
      exists (set_value k 1 :: ws'), f, c. split; [reflexivity|]. split; [cbn [length]; lia|]. right.
      destruct Hd as [(-> & -> & -> & Hall)|(j & k0 & -> & -> & H1 & H2 & H3 & H4)].
      * exists O, k. split; [lia|]. split; [reflexivity|]. split; [reflexivity|]. split; [|split].
        -- left. split; [exact Hm|]. split; [reflexivity|]. intros [|j'] k' Hj Hk'; [lia|]. cbn in Hk'. rewrite Forall_forall in Hall.
           apply Hall. now apply nth_error_In in Hk'.
        -- intros [|j'] k' Hj Hk'; [contradiction|]. left. exact Hk'.
        -- intros j' k' Hj. lia.
      * exists (S j), k0. split; [lia|]. split; [reflexivity|]. split; [exact H1|]. split; [|split].
        -- destruct H2 as [(A & B & C)|[H2|H2]]; [left|right; left; exact H2|right; right; exact H2]. split; [exact A|]. split; [exact B|].
           intros [|j'] k' Hj Hk'; [lia|]. apply (C j'); [lia|exact Hk'].
        -- intros [|j'] k' Hj Hk'; cbn [nth_error] in *; [|apply H3; [congruence|exact Hk']]. injection Hk' as <-. right. auto.
        -- intros [|j'] k' Hj Hk' Hb; cbn [nth_error] in *; [injection Hk' as <-; contradiction|]. apply (H4 j'); [lia|exact Hk'|exact Hb].
    + cbn [negb]. rewrite andb_true_r. destruct (Z.eqb_spec (oldvalue k) 0) as [Ho|Ho]; cbn [negb].
      * destruct (negb (lastevent k =? KEY_RELEASE) && negb (lastevent k =? KEY_NOTHING)) eqn:Ep.
        -- exists (k :: ws), i, (code k). split; [reflexivity|]. split; [reflexivity|]. right. exists O, k. split; [lia|]. split; [reflexivity|].
           split; [reflexivity|]. split; [|split].
           ++ right. right. repeat split; try assumption. right. lia.
           ++ intros j' k' _ Hk'. now left.
           ++ intros; lia.
        -- destruct (IH (i + 1) f0 c0 Hn0) as (ws' & f & c & E & Hl & Hd). rewrite E. cbn [obind].
           exists (k :: ws'), f, c. split; [reflexivity|]. split; [cbn [length]; lia|].
           assert (Hna : ~ act k) by (unfold act; lia).
           destruct Hd as [(-> & -> & -> & Hall)|(j & k0 & -> & -> & H1 & H2 & H3 & H4)]; [left|right].
           ++ repeat split. constructor; [split; assumption|exact Hall].
           ++ exists (S j), k0. split; [lia|]. split; [reflexivity|]. split; [exact H1|]. split; [|split].
              ** destruct H2 as [(A & B & C)|[H2|H2]]; [left|right; left; exact H2|right; right; exact H2]. split; [exact A|]. split; [exact B|].
                 intros [|j'] k' Hj Hk'; [lia|]. apply (C j'); [lia|exact Hk'].
              ** intros [|j'] k' Hj Hk'; cbn [nth_error] in *; [|apply H3; [congruence|exact Hk']]. injection Hk' as <-. now left.
              ** intros [|j'] k' Hj Hk' Hb; cbn [nth_error] in *; [injection Hk' as <-; exact Hna|]. apply (H4 j'); [lia|exact Hk'|exact Hb].
      * exists (set_value k 0 :: ws), i, (code k). split; [reflexivity|]. split; [reflexivity|]. right. exists O, k. split; [lia|]. split; [reflexivity|].
        split; [reflexivity|]. split; [|split].
        -- right. left. repeat split; assumption.
        -- intros [|j'] k' Hj Hk'; [contradiction|]. left. exact Hk'.
        -- intros; lia.
Qed.

(** What handling does to the fields. *)
Lemma handle_l : forall I w k click lc per now k' e, handle I w k click lc per now = (k', e) ->
  bitvalue k' = bitvalue k /\ code k' = code k /\ value k' = value k /\ oldvalue k' = value k /\
  (e = KEY_PRESS <-> value k <> oldvalue k /\ value k <> 0).
Proof.
  intros I w k click lc per now k' e H. unfold handle in H.
  destruct (Z.eqb_spec (value k) (oldvalue k)) as [Hv|Hv]; cbn [andb negb] in H.
  - assert (G : e <> KEY_PRESS -> bitvalue k' = bitvalue k /\ code k' = code k /\ value k' = value k /\ oldvalue k' = oldvalue k ->
                 bitvalue k' = bitvalue k /\ code k' = code k /\ value k' = value k /\ oldvalue k' = value k /\ (e = KEY_PRESS <-> value k <> oldvalue k /\ value k <> 0)).
    { intros He (A & B & C & D). repeat split; try assumption; try congruence; try contradiction. intros [F _]. contradiction. }
    repeat match type of H with context [if ?c then _ else _] => destruct c end; injection H as <- <-; (apply G; [discriminate|repeat split]).
  - destruct (Z.eqb_spec (value k) 0) as [Hz|Hz]; cbn [set_time_state set_oldvalue set_ignore value lastevent] in H;
      [rewrite Hz in H; cbn [Z.eqb negb] in H|destruct (Z.eqb_spec (value k) 0); [contradiction|]; cbn [negb] in H].
    + destruct (lastevent k =? KEY_PRESS); injection H as <- <-; repeat split; try discriminate; try (cbn; congruence); intros [_ F]; contradiction.
    + injection H as <- <-. repeat split; assumption.
Qed.

Definition tinv (ws : list key) : Prop :=
  (forall i j k k', nth_error ws i = Some k -> nth_error ws j = Some k' -> act k -> act k' -> i = j) /\
  (forall i k, nth_error ws i = Some k -> (act k -> value k = oldvalue k) /\ (oldvalue k = 0 \/ oldvalue k = 1)) /\
  (forall i j k k', (i < j)%nat -> nth_error ws i = Some k -> nth_error ws j = Some k' -> act k -> bitvalue k' <> bitvalue k).

Definition same_id (k k' : key) : Prop := bitvalue k' = bitvalue k /\ code k' = code k.

(** One call on a table. *)
Lemma routine_l : forall I w z rest ws click lc per now bits, bitvalue z = 0 -> Forall (fun k => bitvalue k <> 0) ws -> tinv ws ->
  exists ws' f c e, keypad_routine I w (ws ++ z :: rest) click lc per now bits = Done (ws' ++ z :: rest, f, c, e) /\
    tinv ws' /\ Forall2 same_id ws ws' /\
    ((f = -1 /\ c = 0 /\ e = KEY_NOTHING /\ ws' = ws /\ Forall (fun k => bitvalue k <> bits /\ ~ act k) ws) \/
     (exists j k k', f = Z.of_nat j /\ c = code k /\ nth_error ws j = Some k /\ nth_error ws' j = Some k' /\
        value k' = b2z (bits =? bitvalue k) /\ oldvalue k' = value k' /\
        (e = KEY_PRESS <-> bitvalue k = bits /\ oldvalue k = 0) /\
        (forall i ki, nth_error ws i = Some ki -> oldvalue ki = 1 -> j = i) /\
        (forall i ki, i <> j -> nth_error ws i = Some ki -> ~ act ki) /\
        (forall i ki, i <> j -> nth_error ws' i = Some ki -> ~ act ki) /\ (bitvalue k <> bits -> act k) /\
        exists k1, handle I w k1 click lc per now = (k', e) /\ lastevent k1 = lastevent k /\ oldvalue k1 = oldvalue k /\
          value k1 = b2z (bits =? bitvalue k))).
Proof.
  intros I w z rest ws click lc per now bits Hz Hn (T1 & T2 & T3). unfold keypad_routine.
  destruct (scan_l z rest bits Hz ws 0 (-1) 0 Hn) as (ws1 & f & c & E & Hlen & Hd). rewrite E. cbn [obind].
  destruct Hd as [(-> & -> & -> & Hall)|(j & k & -> & -> & Hj & Hcase & Hoth & Hbef)].
  - cbn [Z.eqb Pos.eqb]. exists ws, (-1), 0, KEY_NOTHING. split; [reflexivity|]. split; [split; [exact T1|split; [exact T2|exact T3]]|].
    split; [clear; induction ws; constructor; [split; reflexivity|assumption]|]. left. auto.
  - rewrite Z.add_0_l. destruct (Z.eqb_spec (Z.of_nat j) (-1)); [lia|].
    assert (Hlt : (j < length ws)%nat) by (apply nth_error_Some; congruence).
    assert (Hk1 : exists k1, nth_error ws1 j = Some k1 /\ bitvalue k1 = bitvalue k /\ code k1 = code k /\ oldvalue k1 = oldvalue k /\
               value k1 = b2z (bits =? bitvalue k) /\ ((value k1 <> oldvalue k /\ value k1 <> 0) <-> (bitvalue k = bits /\ oldvalue k = 0)) /\
               (bitvalue k <> bits -> act k) /\ lastevent k1 = lastevent k).
    { destruct (T2 j k Hj) as [Hv Ho]. destruct Hcase as [(A & B & C)|[(A & B & C)|(A & B & C & D)]].
      - exists (set_value k 1). rewrite A, Z.eqb_refl. cbn [set_value bitvalue code oldvalue value b2z]. repeat split; try assumption; try lia; try contradiction.
      - exists (set_value k 0). destruct (Z.eqb_spec bits (bitvalue k)); [congruence|]. cbn [set_value bitvalue code oldvalue value b2z].
        repeat split; try assumption; try lia. intros _. now left.
      - exists k. destruct (Z.eqb_spec bits (bitvalue k)); [congruence|]. cbn [b2z]. specialize (Hv C). repeat split; try assumption; try lia. auto. }
    destruct Hk1 as (k1 & Hk1 & Kb & Kc & Ko & Kv & Kp & Ka & Kl).
    rewrite (zget_ok _ _ _ k1) by (unfold zlen; rewrite app_length; cbn [length]; lia). rewrite Nat2Z.id, app_nth1 by lia.
    rewrite (nth_error_nth _ _ _ Hk1). cbn [obind].
    destruct (handle I w k1 click lc per now) as [k' e] eqn:Eh.
    destruct (handle_l _ _ _ _ _ _ _ _ _ Eh) as (Hb' & Hc' & Hv' & Ho' & Hp').
    rewrite zset_ok by (unfold zlen; rewrite app_length; cbn [length]; lia). cbn [obind]. rewrite Nat2Z.id.
    assert (Eu : upd (ws1 ++ z :: rest) j k' = upd ws1 j k' ++ z :: rest).
    { clear - Hlen Hlt. rewrite <- Hlen in Hlt. clear Hlen. revert j Hlt. induction ws1 as [|a ws1 IH]; intros j Hlt; [cbn in Hlt; lia|].
      destruct j; cbn [app upd]; [reflexivity|]. rewrite IH by (cbn in Hlt; lia). reflexivity. }
    rewrite Eu. exists (upd ws1 j k'), (Z.of_nat j), (code k), e. split; [reflexivity|].
    assert (Hnth : forall i ki, nth_error (upd ws1 j k') i = Some ki -> (i = j /\ ki = k') \/
              (i <> j /\ exists k0, nth_error ws i = Some k0 /\ (ki = k0 \/ (bitvalue k0 = bits /\ ki = set_value k0 1)))).
    { intros i ki Hi. destruct (Nat.eq_dec i j) as [->|Hne].
      - rewrite nth_error_upd_eq in Hi by lia. injection Hi as <-. now left.
      - rewrite nth_error_upd_neq in Hi by congruence. right. split; [exact Hne|].
        assert (Hil : (i < length ws)%nat) by (rewrite <- Hlen; apply nth_error_Some; congruence).
        destruct (nth_error ws i) as [k0|] eqn:E0; [|apply nth_error_None in E0; lia]. exists k0. split; [reflexivity|].
        destruct (Hoth i k0 Hne E0) as [H|[H1 H]]; rewrite H in Hi; injection Hi as <-; auto. }
    assert (Hact_others : forall i ki, i <> j -> nth_error ws i = Some ki -> ~ act ki).
    { intros i ki Hne Hi Ha. destruct (Z.eq_dec (bitvalue k) bits) as [Hm|Hm].
      - destruct (Nat.lt_ge_cases i j) as [Hl|Hg].
        + destruct (Z.eq_dec (bitvalue ki) bits) as [Hmi|Hmi]; [|now apply (Hbef i ki Hl Hi Hmi)].
          apply (T3 i j ki k Hl Hi Hj Ha). congruence.
        + destruct Hcase as [(_ & _ & C)|[(A & _)|(A & _)]]; try contradiction. destruct (C i ki) as [_ F]; [lia|exact Hi|contradiction].
      - apply Hne. apply (T1 i j ki k Hi Hj Ha); exact (Ka Hm). }
    assert (Hact' : forall i ki, nth_error (upd ws1 j k') i = Some ki -> act ki -> i = j).
    { intros i ki Hi Ha. destruct (Hnth i ki Hi) as [[-> _]|(Hne & k0 & H0 & Hk0)]; [reflexivity|]. exfalso.
      apply (Hact_others i k0 Hne H0). destruct Hk0 as [->|[_ ->]]; exact Ha. }
    split; [|split].
    + split; [|split].
      * intros i i' ki ki' Hi Hi' Ha Ha'. rewrite (Hact' i ki Hi Ha), (Hact' i' ki' Hi' Ha'). reflexivity.
      * intros i ki Hi. destruct (Hnth i ki Hi) as [[-> ->]|(Hne & k0 & H0 & Hk0)].
        -- split; [intros _; congruence|]. rewrite Ho', Kv. destruct (bits =? bitvalue k); cbn; lia.
        -- pose proof (Hact_others i k0 Hne H0) as Hna. destruct (T2 i k0 H0) as [_ Ho]. split.
           ++ intros Ha. exfalso. apply Hna. destruct Hk0 as [->|[_ ->]]; exact Ha.
           ++ destruct Hk0 as [->|[_ ->]]; exact Ho.
      * intros i i' ki ki' Hlt' Hi Hi' Ha. pose proof (Hact' i ki Hi Ha) as ->.
        destruct (Hnth j ki Hi) as [[_ ->]|(F & _)]; [|contradiction].
        destruct (Hnth i' ki' Hi') as [[-> _]|(Hne & k0 & H0 & Hk0)]; [lia|].
        assert (Hb0 : bitvalue ki' = bitvalue k0) by (destruct Hk0 as [->|[_ ->]]; reflexivity). rewrite Hb0, Hb', Kb.
        destruct (Z.eq_dec (bitvalue k) bits) as [Hm|Hm].
        -- destruct Hcase as [(_ & _ & C)|[(A & _)|(A & _)]]; try contradiction. destruct (C i' k0 Hlt' H0) as [F _]. congruence.
        -- apply (T3 j i' k k0 Hlt' Hj H0). now apply Ka.
    + assert (G : forall l l', length l' = length l -> (forall i a, nth_error l' i = Some a -> exists b, nth_error l i = Some b /\ same_id b a) -> Forall2 same_id l l').
      { clear. induction l as [|b l IH]; intros [|a l'] Hl H; try discriminate; constructor.
        - destruct (H O a eq_refl) as (b' & Hb & Hs). injection Hb as ->. exact Hs.
        - apply IH; [cbn in Hl; lia|]. intros i x Hx. exact (H (S i) x Hx). }
      apply G; [rewrite upd_length; exact Hlen|]. intros i ki Hi. destruct (Hnth i ki Hi) as [[-> ->]|(Hne & k0 & H0 & Hk0)].
      * exists k. split; [exact Hj|]. split; congruence.
      * exists k0. split; [exact H0|]. destruct Hk0 as [->|[_ ->]]; split; reflexivity.
    + right. exists j, k, k'. split; [reflexivity|]. split; [reflexivity|]. split; [exact Hj|].
      split; [apply nth_error_upd_eq; lia|]. split; [congruence|]. split; [congruence|]. split.
      * rewrite Hp', Ko. exact Kp.
      * split; [|split; [exact Hact_others|split; [|split; [exact Ka|exists k1; auto]]]].
        -- intros i ki Hi Ho. destruct (Nat.eq_dec j i) as [|Hne]; [assumption|]. exfalso.
           apply (Hact_others i ki); [congruence|exact Hi|]. left. lia.
        -- intros i ki Hne Hi Ha. apply Hne. apply (Hact' i ki Hi Ha).
Qed.

Lemma reset_l : forall z rest ws, bitvalue z = 0 -> Forall (fun k => bitvalue k <> 0) ws ->
  exists ws', keypad_reset_keys (ws ++ z :: rest) = Done (ws' ++ z :: rest) /\ Forall2 same_id ws ws' /\
    Forall (fun k => idle k /\ time_state k = 0 /\ time_period k = 0) ws'.
Proof.
  intros z rest ws Hz. induction ws as [|k ws IH]; intros Hn.
  - exists []. cbn [app keypad_reset_keys]. rewrite Hz. split; [reflexivity|]. split; constructor.
  - inversion Hn as [|? ? Hk Hn0]; subst. cbn [app keypad_reset_keys]. destruct (Z.eqb_spec (bitvalue k) 0); [contradiction|].
    destruct (IH Hn0) as (ws' & E & H1 & H2). rewrite E. cbn [obind]. eexists (_ :: ws'). split; [reflexivity|].
    split; (constructor; [|assumption]); [split; reflexivity|]. unfold idle. cbn. auto.
Qed.

Lemma idle_tinv : forall ws, Forall idle ws -> tinv ws.
Proof.
  intros ws H. assert (Hn : forall i k, nth_error ws i = Some k -> idle k /\ ~ act k).
  { intros i k Hi. rewrite Forall_forall in H. assert (Hk : idle k) by (apply H; now apply nth_error_In in Hi). split; [exact Hk|].
    destruct Hk as (A & B & C). unfold act. lia. }
  split; [|split].
  - intros i j k k' Hi _ Ha _. now destruct (Hn i k Hi).
  - intros i k Hi. destruct (Hn i k Hi) as [(A & B & C) D]. split; [intros; contradiction|now left].
  - intros i j k k' _ Hi _ Ha. now destruct (Hn i k Hi).
Qed.

Lemma same_id_nonzero : forall ws ws', Forall2 same_id ws ws' -> Forall (fun k => bitvalue k <> 0) ws -> Forall (fun k => bitvalue k <> 0) ws'.
Proof. intros ws ws' H. induction H as [|k k' ws ws' [H1 H2] H IH]; intros Hn; constructor; inversion Hn; subst; [congruence|auto]. Qed.

Lemma same_id_trans : forall a b c, Forall2 same_id a b -> Forall2 same_id b c -> Forall2 same_id a c.
Proof.
  intros a b c H. revert c. induction H as [|x y a b [H1 H2] H IH]; intros c Hc; inversion Hc as [|? zz ? c' [H3 H4] Hc']; subst; constructor; [|auto].
  split; congruence.
Qed.

Lemma Forall2_nth : forall {A B} (R : A -> B -> Prop) l l' i x, Forall2 R l l' -> nth_error l i = Some x -> exists y, nth_error l' i = Some y /\ R x y.
Proof.
  intros A B R l l' i x H. revert i. induction H as [|a b l l' H0 H IH]; intros [|i] Hi; try discriminate; cbn in *.
  - injection Hi as <-. eauto.
  - eauto.
Qed.

(** A press of the key [i] in a history whose operations before it do not interrupt: the key was up. *)
Lemma table_run_l : forall I w z rest, bitvalue z = 0 -> forall ops ws, Forall (fun k => bitvalue k <> 0) ws -> tinv ws ->
  exists ws' outs, krun I w (ws ++ z :: rest) ops = Done (ws' ++ z :: rest, outs) /\ length outs = length ops /\ tinv ws' /\ Forall2 same_id ws ws' /\
    forall n f c, nth_error outs n = Some (Some (f, c, KEY_PRESS)) ->
      exists i k click lc per t, f = Z.of_nat i /\ nth_error ws i = Some k /\ c = code k /\ nth_error ops n = Some (KCall click lc per t (bitvalue k)) /\
        (oldvalue k = 1 -> exists m o, (m < n)%nat /\ nth_error ops m = Some o /\ interrupts (bitvalue k) o) /\
        (forall n' c', (n' < n)%nat -> nth_error outs n' = Some (Some (f, c', KEY_PRESS)) ->
           exists m o, (n' < m < n)%nat /\ nth_error ops m = Some o /\ interrupts (bitvalue k) o).
Proof.
  intros I w z rest Hz. induction ops as [|o ops IH]; intros ws Hn Ht.
  - exists ws, []. cbn. split; [reflexivity|]. split; [reflexivity|]. split; [exact Ht|]. split; [clear; induction ws; constructor; [split; reflexivity|assumption]|].
    intros [|n] f c H; discriminate.
  - destruct o as [click lc per t bits|].
    + cbn [krun]. destruct (routine_l I w z rest ws click lc per (counter w t) bits Hz Hn Ht) as (ws1 & f1 & c1 & e1 & E & T1 & S1 & Hd).
      rewrite E. cbn [obind]. destruct (IH ws1 (same_id_nonzero _ _ S1 Hn) T1) as (ws' & outs & E' & Hl & T' & S' & HP). rewrite E'. cbn [obind].
      exists ws', (Some (f1, c1, e1) :: outs). split; [reflexivity|]. split; [cbn [length]; lia|]. split; [exact T'|].
      split; [now apply (same_id_trans ws ws1)|].
      (* keys of ws and ws1 *)
      assert (Hid : forall i k1, nth_error ws1 i = Some k1 -> exists k, nth_error ws i = Some k /\ same_id k k1).
      { clear - S1. intros i k1. revert i. induction S1 as [|a b l l' H0 H IH]; intros [|i] Hi; try discriminate; cbn in *; [injection Hi as <-; eauto|eauto]. }
      (* a press in this call *)
      assert (Hnow : forall c, e1 = KEY_PRESS -> Some (f1, c1, e1) = Some (f1, c, KEY_PRESS) ->
                exists i k k1, f1 = Z.of_nat i /\ nth_error ws i = Some k /\ nth_error ws1 i = Some k1 /\ c = code k /\ bits = bitvalue k /\ oldvalue k = 0 /\ oldvalue k1 = 1).
      { intros c He Hc. injection Hc as <- _. destruct Hd as [(_ & _ & F & _)|(j & k & k' & Hf & Hc & Hj & Hj' & Hv & Ho & Hp & _)]; [rewrite F in He; discriminate|].
        destruct Hp as [Hp _]. destruct (Hp He) as [Hb Ho0]. exists j, k, k'. repeat split; try assumption; [congruence|]. rewrite Ho, Hv, Hb, Z.eqb_refl. reflexivity. }
      intros [|n] f c H; cbn [nth_error] in H.
      * injection H as <- <- He. destruct (Hnow c1 He) as (i & k & k1 & Hf & Hi & _ & Hc & Hb & Ho & _); [congruence|].
        exists i, k, click, lc, per, t. cbn [nth_error]. subst bits. split; [exact Hf|]. split; [exact Hi|]. split; [exact Hc|]. split; [reflexivity|].
        split; [lia|]. intros n' c' Hlt. lia.
      * destruct (HP n f c H) as (i & k1 & click' & lc' & per' & t' & Hf & Hi & Hc & Ho & Hold & Hprev).
        destruct (Hid i k1 Hi) as (k & Hik & Hsb & Hsc). exists i, k, click', lc', per', t'. rewrite Hsb, Hsc in *.
        split; [exact Hf|]. split; [exact Hik|]. split; [exact Hc|]. split; [exact Ho|]. split.
        -- intros Hko. destruct (Z.eq_dec bits (bitvalue k)) as [Eb|Nb].
           ++ (* still down *)
              assert (Hk1o : oldvalue k1 = 1).
              { destruct Hd as [(_ & _ & _ & _ & Hall)|(j & kj & kj' & Hfj & _ & Hj & Hj' & Hv & Hoj & _ & Huniq & _)].
                - rewrite Forall_forall in Hall. destruct (Hall k) as [F _]; [now apply nth_error_In in Hik|]. congruence.
                - pose proof (Huniq i k Hik Hko) as ->. rewrite Hj in Hik. injection Hik as ->. rewrite Hj' in Hi. injection Hi as ->.
                  rewrite Hoj, Hv, Eb, Z.eqb_refl. reflexivity. }
              destruct (Hold Hk1o) as (m & o & Hm & Hmo & Hint). exists (S m), o. split; [lia|]. split; [exact Hmo|exact Hint].
           ++ exists O, (KCall click lc per t bits). split; [lia|]. split; [reflexivity|exact Nb].
        -- intros [|n'] c' Hlt Hn'; cbn [nth_error] in Hn'.
           ++ injection Hn' as Hf1 Hc1 He. destruct (Hnow c1 He) as (i' & k' & k1' & Hf' & Hi' & Hi1' & _ & _ & _ & Ho1); [congruence|].
              assert (i' = i) by lia. subst i'. rewrite Hi in Hi1'. injection Hi1' as <-.
              destruct (Hold Ho1) as (m & o & Hm & Hmo & Hint). exists (S m), o. split; [lia|]. split; [exact Hmo|exact Hint].
           ++ destruct (Hprev n' c') as (m & o & Hm & Hmo & Hint); [lia|exact Hn'|]. exists (S m), o. split; [lia|]. split; [exact Hmo|exact Hint].
    + cbn [krun]. destruct (reset_l z rest ws Hz Hn) as (ws1 & E & S1 & Hi1). rewrite E. cbn [obind].
      assert (T1 : tinv ws1) by (apply idle_tinv; eapply Forall_impl; [|exact Hi1]; cbv beta; tauto).
      destruct (IH ws1 (same_id_nonzero _ _ S1 Hn) T1) as (ws' & outs & E' & Hl & T' & S' & HP). rewrite E'. cbn [obind].
      exists ws', (None :: outs). split; [reflexivity|]. split; [cbn [length]; lia|]. split; [exact T'|]. split; [now apply (same_id_trans ws ws1)|].
      assert (Hid : forall i k1, nth_error ws1 i = Some k1 -> exists k, nth_error ws i = Some k /\ same_id k k1).
      { clear - S1. intros i k1. revert i. induction S1 as [|a b l l' H0 H IH]; intros [|i] Hi; try discriminate; cbn in *; [injection Hi as <-; eauto|eauto]. }
      intros [|n] f c H; cbn [nth_error] in H; [discriminate|].
      destruct (HP n f c H) as (i & k1 & click' & lc' & per' & t' & Hf & Hi & Hc & Ho & Hold & Hprev).
      destruct (Hid i k1 Hi) as (k & Hik & Hsb & Hsc). exists i, k, click', lc', per', t'. rewrite Hsb, Hsc in *.
      split; [exact Hf|]. split; [exact Hik|]. split; [exact Hc|]. split; [exact Ho|]. split.
      * intros _. exists O, KReset. split; [lia|]. split; [reflexivity|exact Logic.I].
      * intros [|n'] c' Hlt Hn'; cbn [nth_error] in Hn'; [discriminate|].
        destruct (Hprev n' c') as (m & o & Hm & Hmo & Hint); [lia|exact Hn'|]. exists (S m), o. split; [lia|]. split; [exact Hmo|exact Hint].
Qed.

(** Tables of one key, any times. *)
Lemma single_l : forall I w z rest k click lc per now bits, bitvalue z = 0 -> bitvalue k <> 0 -> tinv [k] -> value k = oldvalue k ->
  exists k' f c e, keypad_routine I w (k :: z :: rest) click lc per now bits = Done (k' :: z :: rest, f, c, e) /\
    tinv [k'] /\ same_id k k' /\ value k' = oldvalue k' /\ value k' = b2z (bits =? bitvalue k) /\
    (e = KEY_PRESS <-> bits = bitvalue k /\ value k = 0) /\ (e = KEY_PRESS -> c = code k).
Proof.
  intros I w z rest k click lc per now bits Hz Hk Ht Hv.
  destruct (routine_l I w z rest [k] click lc per now bits Hz) as (ws' & f & c & e & E & T & S & Hd); [constructor; [exact Hk|constructor]|exact Ht|].
  inversion S as [|? k' ? ? Hid S0]; subst. inversion S0; subst. cbn [app] in E. exists k', f, c, e. split; [exact E|]. split; [exact T|]. split; [exact Hid|].
  destruct Hd as [(-> & -> & -> & Hw & Hall)|(j & k0 & k1 & Hf & Hc & Hj & Hj' & Hv' & Ho & Hp & _)].
  - injection Hw as ->. inversion Hall as [|? ? [Hb Hna] _]; subst.
    assert (Ho : oldvalue k = 0) by (destruct (Z.eq_dec (oldvalue k) 0); [assumption|]; exfalso; apply Hna; now left).
    split; [exact Hv|]. destruct (Z.eqb_spec bits (bitvalue k)); [congruence|]. cbn [b2z]. split; [congruence|]. split; [split; [discriminate|intros [F _]; contradiction]|]. discriminate.
  - destruct j as [|j]; [|destruct j; discriminate]. injection Hj as <-. injection Hj' as <-. split; [congruence|]. split; [exact Hv'|]. split; [|auto].
    rewrite Hp, Hv. split; intros [A B]; split; congruence.
Qed.

Lemma single_run_l : forall I w z rest, bitvalue z = 0 -> forall ops k, bitvalue k <> 0 -> tinv [k] -> value k = oldvalue k ->
  exists k' outs, krun I w (k :: z :: rest) ops = Done (k' :: z :: rest, outs) /\ length outs = length ops /\
    tinv [k'] /\ same_id k k' /\ value k' = oldvalue k' /\
    (forall click lc per t bits, last ops KReset = KCall click lc per t bits -> value k' = b2z (bits =? bitvalue k)) /\
    (forall n click lc per t bits f c e, nth_error ops n = Some (KCall click lc per t bits) -> nth_error outs n = Some (Some (f, c, e)) ->
       (e = KEY_PRESS -> c = code k) /\
       (e = KEY_PRESS <-> bits = bitvalue k /\
          match n with O => value k = 0 | S m => exists o, nth_error ops m = Some o /\ interrupts (bitvalue k) o end)).
Proof.
  intros I w z rest Hz. induction ops as [|o ops IH]; intros k Hk Ht Hv.
  - exists k, []. split; [reflexivity|]. split; [reflexivity|]. split; [exact Ht|]. split; [split; reflexivity|]. split; [exact Hv|].
    split; [intros; discriminate|]. intros [|n] ? ? ? ? ? ? ? ? F; discriminate.
  - destruct o as [click lc per t bits|]; cbn [krun].
    + destruct (single_l I w z rest k click lc per (counter w t) bits Hz Hk Ht Hv) as (k1 & f1 & c1 & e1 & E & T1 & [S1 S2] & V1 & V2 & P1 & P2).
      rewrite E. cbn [obind].
      destruct (IH k1) as (k' & outs & E' & Hl & T' & [S3 S4] & V' & HL & HP); [congruence|exact T1|exact V1|].
      rewrite E'. cbn [obind]. exists k', (Some (f1, c1, e1) :: outs). split; [reflexivity|]. split; [cbn [length]; lia|]. split; [exact T'|].
      split; [split; congruence|]. split; [exact V'|]. split.
      * intros a1 a2 a3 a4 bits' Hlast. rewrite S1 in HL. destruct ops as [|o ops]; [|exact (HL a1 a2 a3 a4 bits' Hlast)].
        cbn in Hlast. injection Hlast as <- <- <- <- <-. cbn in E'. injection E' as <- _. exact V2.
      * intros [|n] a1 a2 a3 a4 bits' f c e Ho Hout; cbn [nth_error] in Ho, Hout.
        -- injection Ho as <- <- <- <- <-. injection Hout as <- <- <-. split; [exact P2|exact P1].
        -- destruct (HP n a1 a2 a3 a4 bits' f c e Ho Hout) as [Q1 Q2]. rewrite S1 in Q2. rewrite S2 in Q1. split; [exact Q1|]. rewrite Q2.
           destruct n as [|n]; [|reflexivity]. cbn [nth_error]. split.
           ++ intros [A B]. split; [exact A|]. eexists. split; [reflexivity|]. cbn [interrupts]. rewrite V2 in B. destruct (Z.eqb_spec bits (bitvalue k)); [discriminate|assumption].
           ++ intros [A (o & B & C)]. split; [exact A|]. injection B as <-. cbn [interrupts] in C. rewrite V2. destruct (Z.eqb_spec bits (bitvalue k)); [contradiction|reflexivity].
    + destruct (reset_l z rest [k] Hz) as (ws1 & E & S1 & Hi1); [constructor; [exact Hk|constructor]|]. cbn [app] in E. rewrite E. cbn [obind].
      inversion S1 as [|? k1 ? ? [Sb Sc] S0]; subst. inversion S0; subst. inversion Hi1 as [|? ? [Hid _] _]; subst. cbn [app].
      destruct (IH k1) as (k' & outs & E' & Hl & T' & [S3 S4] & V' & HL & HP); [congruence|apply idle_tinv; constructor; [exact Hid|constructor]|destruct Hid; lia|].
      rewrite E'. cbn [obind]. exists k', (None :: outs). split; [reflexivity|]. split; [cbn [length]; lia|]. split; [exact T'|].
      split; [split; congruence|]. split; [exact V'|]. split.
      * intros a1 a2 a3 a4 bits' Hlast. rewrite Sb in HL. destruct ops as [|o ops]; [cbn in Hlast; discriminate|exact (HL a1 a2 a3 a4 bits' Hlast)].
      * intros [|n] a1 a2 a3 a4 bits' f c e Ho Hout; cbn [nth_error] in Ho, Hout; [discriminate|].
        destruct (HP n a1 a2 a3 a4 bits' f c e Ho Hout) as [Q1 Q2]. rewrite Sb in Q2. rewrite Sc in Q1. split; [exact Q1|]. rewrite Q2.
        destruct n as [|n]; [|reflexivity]. cbn [nth_error]. split.
        -- intros [A _]. split; [exact A|]. exists KReset. split; [reflexivity|exact Logic.I].
        -- intros [A _]. split; [exact A|]. destruct Hid. lia.
Qed.

(** * The statements *)

Lemma press_l : forall I w ks z rest ops, table ks z -> Forall idle ks ->
  exists keys outs, krun I w (ks ++ z :: rest) ops = Done (keys, outs) /\ length outs = length ops /\
    forall n f c, nth_error outs n = Some (Some (f, c, KEY_PRESS)) ->
      exists i k click longclick period t, f = Z.of_nat i /\ nth_error ks i = Some k /\ c = code k /\
        nth_error ops n = Some (KCall click longclick period t (bitvalue k)) /\
        forall n' c', (n' < n)%nat -> nth_error outs n' = Some (Some (f, c', KEY_PRESS)) ->
          exists m o, (n' < m < n)%nat /\ nth_error ops m = Some o /\ interrupts (bitvalue k) o.
Proof.
  intros I w ks z rest ops [Hn Hz] Hi. destruct (table_run_l I w z rest Hz ops ks Hn (idle_tinv ks Hi)) as (ws' & outs & E & Hl & _ & _ & HP).
  exists (ws' ++ z :: rest), outs. split; [exact E|]. split; [exact Hl|]. intros n f c H.
  destruct (HP n f c H) as (i & k & a1 & a2 & a3 & a4 & A & B & C & D & _ & F). exists i, k, a1, a2, a3, a4. repeat (split; [assumption|]). exact F.
Qed.

Lemma press_single_l : forall I w k z rest ops, table [k] z -> idle k ->
  exists keys outs, krun I w (k :: z :: rest) ops = Done (keys, outs) /\ length outs = length ops /\
    forall n click longclick period t bits f c e, nth_error ops n = Some (KCall click longclick period t bits) ->
      nth_error outs n = Some (Some (f, c, e)) ->
      (e = KEY_PRESS <-> bits = bitvalue k /\
        match n with O => True | S m => exists o, nth_error ops m = Some o /\ interrupts (bitvalue k) o end) /\
      (e = KEY_PRESS -> c = code k).
Proof.
  intros I w k z rest ops [Hn Hz] Hi. inversion Hn as [|? ? Hk _]; subst.
  destruct (single_run_l I w z rest Hz ops k Hk) as (k' & outs & E & Hl & _ & _ & _ & _ & HP);
    [apply idle_tinv; constructor; [exact Hi|constructor]|destruct Hi; lia|].
  exists (k' :: z :: rest), outs. split; [exact E|]. split; [exact Hl|]. intros n a1 a2 a3 a4 bits f c e Ho Hout.
  destruct (HP n a1 a2 a3 a4 bits f c e Ho Hout) as [Q1 Q2]. split; [|exact Q1]. rewrite Q2. destruct n; [|reflexivity]. destruct Hi. intuition lia.
Qed.

Lemma state_single_l : forall I w k z rest ops click longclick period t bits, table [k] z -> idle k ->
  exists k' outs, krun I w (k :: z :: rest) (ops ++ [KCall click longclick period t bits]) = Done (k' :: z :: rest, outs) /\
    keypad_get_key_state k' = if bits =? bitvalue k then 1 else 0.
Proof.
  intros I w k z rest ops click lc per t bits [Hn Hz] Hi. inversion Hn as [|? ? Hk _]; subst.
  destruct (single_run_l I w z rest Hz (ops ++ [KCall click lc per t bits]) k Hk) as (k' & outs & E & Hl & _ & _ & _ & HL & HP);
    [apply idle_tinv; constructor; [exact Hi|constructor]|destruct Hi; lia|].
  exists k', outs. split; [exact E|]. unfold keypad_get_key_state. rewrite (HL click lc per t bits).
  - destruct (bits =? bitvalue k); reflexivity.
  - apply last_last.
Qed.

Lemma krun_app : forall I w ops1 ops2 keys, krun I w keys (ops1 ++ ops2) =
  (do (keys, o1) <- krun I w keys ops1; do (keys, o2) <- krun I w keys ops2; Done (keys, o1 ++ o2)).
Proof.
  intros I w. induction ops1 as [|o ops1 IH]; intros ops2 keys.
  - cbn [app krun obind]. destruct (krun I w keys ops2) as [[a b]| | |]; reflexivity.
  - cbn [app krun]. destruct o as [click lc per t bits|].
    + destruct (keypad_routine I w keys click lc per (counter w t) bits) as [[[[a b] c] d]| | |]; cbn [obind]; try reflexivity. rewrite IH.
      destruct (krun I w a ops1) as [[a' b']| | |]; cbn [obind]; try reflexivity. destruct (krun I w a' ops2) as [[a'' b'']| | |]; reflexivity.
    + destruct (keypad_reset_keys keys) as [a| | |]; cbn [obind]; try reflexivity. rewrite IH.
      destruct (krun I w a ops1) as [[a' b']| | |]; cbn [obind]; try reflexivity. destruct (krun I w a' ops2) as [[a'' b'']| | |]; reflexivity.
Qed.

Lemma state_found_l : forall I w ks z rest ops click longclick period t bits, table ks z -> Forall idle ks ->
  exists ks' outs f c e, krun I w (ks ++ z :: rest) (ops ++ [KCall click longclick period t bits]) = Done (ks' ++ z :: rest, outs ++ [Some (f, c, e)]) /\
    length ks' = length ks /\
    (f = -1 -> Forall (fun k => bitvalue k <> bits) ks) /\
    (f <> -1 -> exists k k', nth_error ks (Z.to_nat f) = Some k /\ nth_error ks' (Z.to_nat f) = Some k' /\
       keypad_get_key_state k' = if bits =? bitvalue k then 1 else 0).
Proof.
  intros I w ks z rest ops click lc per t bits [Hn Hz] Hi.
  destruct (table_run_l I w z rest Hz ops ks Hn (idle_tinv ks Hi)) as (ws1 & outs & E & _ & T1 & S1 & _).
  destruct (routine_l I w z rest ws1 click lc per (counter w t) bits Hz (same_id_nonzero _ _ S1 Hn) T1) as (ws2 & f & c & e & E2 & _ & S2 & Hd).
  exists ws2, outs, f, c, e. rewrite krun_app, E. cbn [obind krun]. rewrite E2. cbn [obind]. split; [reflexivity|].
  assert (Hlen : forall a b, Forall2 same_id a b -> length b = length a) by (intros a b H; induction H; cbn; congruence).
  split; [rewrite (Hlen _ _ S2); now apply Hlen|].
  assert (Hid : forall i k1, nth_error ws1 i = Some k1 -> exists k, nth_error ks i = Some k /\ same_id k k1).
  { clear - S1. intros i k1. revert i. induction S1 as [|a b l l' H0 H IH]; intros [|i] Hi; try discriminate; cbn in *; [injection Hi as <-; eauto|eauto]. }
  destruct Hd as [(-> & _ & _ & _ & Hall)|(j & k1 & k2 & -> & _ & Hj & Hj' & Hv & _)].
  - split; [intros _|congruence]. clear - S1 Hall. induction S1 as [|a b l l' [H0 _] H IH]; [constructor|]. inversion Hall as [|? ? [F _] Hall']; subst.
    constructor; [congruence|auto].
  - split; [lia|intros _]. rewrite Nat2Z.id. destruct (Hid j k1 Hj) as (k & Hk & Hb & _). exists k, k2. split; [exact Hk|]. split; [exact Hj'|].
    unfold keypad_get_key_state. rewrite Hv, Hb. destruct (bits =? bitvalue k); reflexivity.
Qed.

Lemma reset_call_l : forall I w ks z rest, table ks z ->
  exists ks', keypad_reset_keys (ks ++ z :: rest) = Done (ks' ++ z :: rest) /\ length ks' = length ks /\
    Forall (fun k => keypad_get_key_state k = 0) ks' /\
    map (fun k => (bitvalue k, code k)) ks' = map (fun k => (bitvalue k, code k)) ks /\
    forall click longclick period now bits, Forall (fun k => bitvalue k <> bits) ks ->
      keypad_routine I w (ks' ++ z :: rest) click longclick period now bits = Done (ks' ++ z :: rest, -1, 0, KEY_NOTHING).
Proof.
  intros I w ks z rest [Hn Hz]. destruct (reset_l z rest ks Hz Hn) as (ws' & E & S & Hi). exists ws'. split; [exact E|].
  split; [clear - S; induction S; cbn; congruence|]. split; [eapply Forall_impl; [|exact Hi]; cbv beta; intros a [(_ & H & _) _]; exact H|].
  split; [clear - S; induction S as [|? ? ? ? [A B]]; cbn; congruence|].
  intros click lc per now bits Hb.
  assert (Hi' : Forall idle ws') by (eapply Forall_impl; [|exact Hi]; cbv beta; tauto).
  destruct (routine_l I w z rest ws' click lc per now bits Hz (same_id_nonzero _ _ S Hn) (idle_tinv _ Hi')) as (ws2 & f & c & e & E2 & _ & S2 & Hd).
  rewrite E2. destruct Hd as [(-> & -> & -> & -> & _)|(j & k1 & k2 & -> & _ & Hj & Hj' & Hv & Ho & Hp & _)]; [reflexivity|]. exfalso.
  assert (G : Forall (fun k => bitvalue k <> bits) ws').
  { clear - S Hb. induction S as [|a b l l' [H0 _] H IH]; [constructor|]. inversion Hb; subst. constructor; [congruence|auto]. }
  unfold keypad_routine in E2.
  destruct (scan_l z rest bits Hz ws' 0 (-1) 0 (same_id_nonzero _ _ S Hn)) as (ws3 & f3 & c3 & E3 & _ & D3). rewrite E3 in E2. cbn [obind] in E2.
  destruct D3 as [(-> & _)|(j3 & k3 & _ & _ & Hj3 & Hc3 & _)]; [cbn in E2; injection E2 as _ F; lia|].
  rewrite Forall_forall in G, Hi'. pose proof (nth_error_In _ _ Hj3) as Hin. specialize (G _ Hin). specialize (Hi' _ Hin). destruct Hi' as (A & B & C).
  destruct Hc3 as [(F & _)|[(_ & F & _)|(_ & _ & F & _)]]; [contradiction|contradiction|]. unfold act in F. lia.
Qed.

Section Statements.
Variables I w click longclick period : Z.
Hypothesis Hw : 0 < w.
Hypothesis HI : I <= w.
Hypothesis Hclick : 0 <= click <= longclick.
Hypothesis Hlong : longclick < 2 ^ (w - 1).
Hypothesis Hperiod : 0 <= period < 2 ^ (w - 1).
Variables (k z : key) (rest : list key) (u : Z -> Z).
Hypothesis Htab : table [k] z.
Hypothesis Hidle : idle k.
Hypothesis Hu : forall t, u t <> bitvalue k.

Lemma loose_l : forall h, advancing (2 ^ (w - 1)) h ->
  exists es s', reports I w (k :: z :: rest) (calls click longclick period (bitvalue k) u h) es /\ length es = length h /\
    lrun click longclick period Idle h es s'.
Proof using Hw HI Hclick Hlong Hperiod Htab Hidle Hu.
  intros h Ha. destruct Htab as [Hn Hz]. inversion Hn as [|? ? Hk _]; subst.
  destruct (run_l I w Hw HI click longclick period Hclick Hlong Hperiod (bitvalue k) Hk u z rest Hz Hu h k Idle (match h with [] => 0 | (t, _) :: _ => t end))
    as (k' & es & s' & outs & E & Ho & L & Hl & _).
  - split; [reflexivity|exact Hidle].
  - unfold next_time, half. destruct h as [|[t d] h]; [exact Logic.I|]. assert (0 < 2 ^ (w - 1)) by (apply Z.pow_pos_nonneg; lia). lia.
  - exact Ha.
  - exists es, s'. split; [exists (k' :: z :: rest), outs; auto|]. auto.
Qed.

Lemma clicks_l : forall h, advancing (2 ^ (w - 1)) h ->
  exists es, reports I w (k :: z :: rest) (calls click longclick period (bitvalue k) u h) es /\ length es = length h /\
    click_ok click (trace h es) /\ longclick_ok longclick (trace h es).
Proof using Hw HI Hclick Hlong Hperiod Htab Hidle Hu.
  intros h Ha. destruct (loose_l h Ha) as (es & s' & R & Hl & L). exists es. split; [exact R|]. split; [exact Hl|].
  apply (back_run w click longclick period Hclick Hperiod) with (tr := []) (s := Idle) (s' := s') in L.
  - exact L.
  - exact Logic.I.
  - intros [|n] t d F; discriminate.
  - intros [|n] t d F; discriminate.
Qed.

Lemma order_l : forall h, advancing (2 ^ (w - 1)) h ->
  exists es, reports I w (k :: z :: rest) (calls click longclick period (bitvalue k) u h) es /\ length es = length h /\ ordered Ready es.
Proof using Hw HI Hclick Hlong Hperiod Htab Hidle Hu.
  intros h Ha. destruct (loose_l h Ha) as (es & s' & R & Hl & L). exists es. split; [exact R|]. split; [exact Hl|].
  eapply ordered_l; [exact L|reflexivity].
Qed.

Lemma repeat_period_l : forall h, advancing (2 ^ (w - 1)) h ->
  exists es, reports I w (k :: z :: rest) (calls click longclick period (bitvalue k) u h) es /\ length es = length h /\
    forall k1 k2 t1 d1 e1 t2 d2 e2, (k1 < k2)%nat ->
      nth_error (trace h es) k1 = Some (t1, d1, e1) -> nth_error (trace h es) k2 = Some (t2, d2, e2) ->
      (repeat_event e1 = true \/ e1 = Click \/ e1 = Longclick) -> repeat_event e2 = true -> t1 + period < t2.
Proof using Hw HI Hclick Hlong Hperiod Htab Hidle Hu.
  intros h Ha. destruct (loose_l h Ha) as (es & s' & R & Hl & L). exists es. split; [exact R|]. split; [exact Hl|].
  intros. eapply (repeats_l w click longclick period) with (t' := match h with [] => 0 | (t, _) :: _ => t end); try eassumption.
  destruct h as [|[t d] h]; [exact Logic.I|lia].
Qed.

Lemma automaton_l : forall G h, 0 < G -> 2 * G <= 2 ^ (w - 1) + (longclick - click) -> advancing G h ->
  exists keys outs, krun I w (k :: z :: rest) (calls click longclick period (bitvalue k) u h) = Done (keys, outs) /\
    map (option_map snd) outs = map (fun e => Some (event_code e)) (kevents click longclick period Idle h) /\
    Forall (fun o => match o with Some (_, c, e) => c = code k \/ e = KEY_NOTHING | None => False end) outs.
Proof using Hw HI Hclick Hlong Hperiod Htab Hidle Hu.
  intros G h HG HG2 Ha. destruct Htab as [Hn Hz]. inversion Hn as [|? ? Hk _]; subst.
  destruct (exact_l I w Hw HI click longclick period Hclick Hlong Hperiod (bitvalue k) Hk G HG2 u z rest Hz Hu h k Idle (match h with [] => 0 | (t, _) :: _ => t end))
    as (k' & outs & E & Ho & Hall).
  - split; [reflexivity|exact Hidle].
  - exact Logic.I.
  - destruct h as [|[t d] h]; [exact Logic.I|]. lia.
  - exact Ha.
  - exists (k' :: z :: rest), outs. split; [exact E|]. split; [exact Ho|]. eapply Forall_impl; [|exact Hall]. cbv beta.
    intros [[[f c] e]|] H; [|contradiction]. intuition.
Qed.

End Statements.

(** * Unused keys *)

Definition quiet (bits : Z) (k : key) : Prop := bitvalue k <> 0 /\ bitvalue k <> bits /\ idle k.

Lemma scan_quiet : forall tl bits ks i f c, Forall (quiet bits) ks ->
  scan (ks ++ tl) bits i f c = do (tl', f', c') <- scan tl bits (i + zlen ks) f c; Done (ks ++ tl', f', c').
Proof.
  intros tl bits ks. induction ks as [|k ks IH]; intros i f c H; cbn [app].
  - unfold zlen. cbn [length]. rewrite Z.add_0_r. destruct (scan tl bits i f c) as [[[? ?] ?]| | |]; reflexivity.
  - inversion H as [|? ? (Q1 & Q2 & Q3 & Q4 & Q5) H2]; subst. cbn [scan].
    destruct (Z.eqb_spec (bitvalue k) 0); [contradiction|]. destruct (Z.eqb_spec (bitvalue k) bits); [contradiction|].
    rewrite Q3. cbn [Z.eqb negb andb].
    replace (negb (lastevent k =? KEY_RELEASE) && negb (lastevent k =? KEY_NOTHING)) with false by (destruct Q5 as [-> | ->]; reflexivity).
    rewrite IH by exact H2. replace (i + 1 + zlen ks) with (i + zlen (k :: ks)) by (unfold zlen; cbn [length]; lia).
    destruct (scan tl bits (i + zlen (k :: ks)) f c) as [[[? ?] ?]| | |]; reflexivity.
Qed.

Lemma scan_end : forall z rest bits ks i f c, bitvalue z = 0 -> Forall (quiet bits) ks ->
  scan (ks ++ z :: rest) bits i f c = Done (ks ++ z :: rest, f, c).
Proof. intros z rest bits ks i f c Hz H. rewrite scan_quiet by exact H. cbn [scan]. rewrite Hz. reflexivity. Qed.

Lemma handle_id : forall I w k click lc per now k' e, handle I w k click lc per now = (k', e) ->
  bitvalue k' = bitvalue k /\ code k' = code k.
Proof.
  intros I w k click lc per now k' e H. unfold handle in H.
  repeat match type of H with context [if ?c then _ else _] => destruct c end; injection H as <- _; split; reflexivity.
Qed.

Lemma zget_mid : forall A (l : list A) x r, zget (l ++ x :: r) (zlen l) = Done x.
Proof.
  intros A l x r. unfold zget, zlen. destruct (Z.ltb_spec (Z.of_nat (length l)) 0); [lia|].
  rewrite Nat2Z.id, nth_error_app2, Nat.sub_diag by lia. reflexivity.
Qed.

Lemma zset_mid : forall A (l : list A) x y r, zset (l ++ x :: r) (zlen l) y = Done (l ++ y :: r).
Proof.
  intros A l x y r. rewrite zset_ok by (unfold zlen; rewrite app_length; cbn [length]; lia). f_equal. unfold zlen. rewrite Nat2Z.id.
  induction l as [|a l IH]; [reflexivity|]. cbn [app length upd]. now rewrite IH.
Qed.

Lemma routine_quiet : forall I w z rest ks1 k ks2 click lc per now bits, bitvalue z = 0 -> bitvalue k <> 0 ->
  Forall (quiet bits) ks1 -> Forall (quiet bits) ks2 ->
  exists k' f c e, keypad_routine I w [k; z] click lc per now bits = Done ([k'; z], f, c, e) /\
    bitvalue k' = bitvalue k /\ code k' = code k /\
    keypad_routine I w (ks1 ++ k :: ks2 ++ z :: rest) click lc per now bits =
      Done (ks1 ++ k' :: ks2 ++ z :: rest, if f =? -1 then -1 else f + zlen ks1, c, e).
Proof.
  intros I w z rest ks1 k ks2 click lc per now bits Hz Hk Q1 Q2. unfold keypad_routine.
  rewrite (scan_quiet _ _ _ _ _ _ Q1). rewrite Z.add_0_l.
  assert (N : zlen ks1 =? -1 = false) by (unfold zlen; lia).
  assert (S : exists k1, bitvalue k1 = bitvalue k /\ code k1 = code k /\
    ((scan [k; z] bits 0 (-1) 0 = Done ([k1; z], 0, code k) /\ scan (k :: ks2 ++ z :: rest) bits (zlen ks1) (-1) 0 = Done (k1 :: ks2 ++ z :: rest, zlen ks1, code k)) \/
     (scan [k; z] bits 0 (-1) 0 = Done ([k1; z], -1, 0) /\ scan (k :: ks2 ++ z :: rest) bits (zlen ks1) (-1) 0 = Done (k1 :: ks2 ++ z :: rest, -1, 0)))).
  { cbn [scan]. destruct (Z.eqb_spec (bitvalue k) 0); [contradiction|]. rewrite Hz. cbn [Z.eqb obind].
    destruct (bitvalue k =? bits).
    - exists (set_value k 1). split; [reflexivity|]. split; [reflexivity|]. left. split; [reflexivity|].
      rewrite scan_end by assumption. reflexivity.
    - destruct (negb (oldvalue k =? 0) && negb false).
      + exists (set_value k 0). split; [reflexivity|]. split; [reflexivity|]. left. split; reflexivity.
      + destruct (negb (lastevent k =? KEY_RELEASE) && negb (lastevent k =? KEY_NOTHING)).
        * exists k. split; [reflexivity|]. split; [reflexivity|]. left. split; reflexivity.
        * exists k. split; [reflexivity|]. split; [reflexivity|]. right. split; [reflexivity|].
          rewrite scan_end by assumption. reflexivity. }
  destruct S as (k1 & B & C & [[E1 E2]|[E1 E2]]); rewrite E1, E2; cbn [obind].
  - rewrite N. cbn [Z.eqb]. rewrite zget_mid. change (zget [k1; z] 0) with (@Done key k1). cbn [obind].
    destruct (handle I w k1 click lc per now) as [k' e] eqn:Eh. rewrite zset_mid. change (zset [k1; z] 0 k') with (Done [k'; z]). cbn [obind].
    destruct (handle_id _ _ _ _ _ _ _ _ _ Eh) as [B' C']. exists k', 0, (code k), e. split; [reflexivity|]. split; [congruence|]. split; [congruence|].
    cbn [Z.eqb]. rewrite Z.add_0_l. reflexivity.
  - cbn [Z.eqb Pos.eqb]. exists k1, (-1), 0, KEY_NOTHING. repeat split; assumption.
Qed.

Definition ident (ks ks' : list key) : Prop := map (fun k => (bitvalue k, code k)) ks' = map (fun k => (bitvalue k, code k)) ks.

Lemma reset_quiet : forall z rest ks, bitvalue z = 0 -> Forall (fun k => bitvalue k <> 0) ks ->
  exists ks', keypad_reset_keys (ks ++ z :: rest) = Done (ks' ++ z :: rest) /\ ident ks ks' /\ Forall idle ks' /\
    (forall tl, keypad_reset_keys (ks ++ tl) = do tl <- keypad_reset_keys tl; Done (ks' ++ tl)).
Proof.
  intros z rest ks Hz. induction ks as [|k ks IH]; intros H.
  - exists []. cbn [app keypad_reset_keys]. rewrite Hz. repeat split; [constructor|]. intros tl. destruct (keypad_reset_keys tl); reflexivity.
  - inversion H; subst. destruct (IH H3) as (ks' & E1 & E2 & E3 & E4).
    exists (mkKey (bitvalue k) (code k) 0 0 0 0 1 KEY_NOTHING :: ks'). cbn [app keypad_reset_keys].
    destruct (Z.eqb_spec (bitvalue k) 0); [contradiction|]. rewrite E1. cbn [obind app]. split; [reflexivity|].
    split; [unfold ident in *; cbn [map]; rewrite E2; reflexivity|]. split; [constructor; [repeat split; left; reflexivity|exact E3]|].
    intros tl. rewrite E4. destruct (keypad_reset_keys tl); reflexivity.
Qed.

Lemma ident_forall : forall (P : Z -> Prop) ks ks', ident ks ks' -> Forall (fun k => P (bitvalue k)) ks -> Forall (fun k => P (bitvalue k)) ks'.
Proof.
  intros P ks. induction ks as [|k ks IH]; intros [|k' ks'] E F; try discriminate E; [constructor|].
  unfold ident in E. cbn [map] in E. injection E as E1 _ E2. inversion F; subst. constructor; [rewrite E1; assumption|apply IH; assumption].
Qed.

Lemma never_ident : forall ops ks ks', ident ks ks' -> never_seen ks ops -> never_seen ks' ops.
Proof.
  intros ops ks ks' E. apply Forall_impl. intros [? ? ? ? bits|]; [|tauto].
  apply (ident_forall (fun b => b <> bits)). exact E.
Qed.

Lemma unused_l : forall I w z rest ops ks1 k ks2, bitvalue z = 0 -> Forall (fun k => bitvalue k <> 0) ks1 -> bitvalue k <> 0 ->
  Forall (fun k => bitvalue k <> 0) ks2 -> Forall idle ks1 -> Forall idle ks2 -> never_seen ks1 ops -> never_seen ks2 ops ->
  exists k' outs ks1' ks2', krun I w [k; z] ops = Done ([k'; z], outs) /\
    krun I w (ks1 ++ k :: ks2 ++ z :: rest) ops = Done (ks1' ++ k' :: ks2' ++ z :: rest, map (moved_by (zlen ks1)) outs) /\
    ident ks1 ks1' /\ ident ks2 ks2' /\ Forall idle ks1' /\ Forall idle ks2' /\
    (Forall no_reset ops -> ks1' = ks1 /\ ks2' = ks2).
Proof.
  intros I w z rest ops. induction ops as [|[click lc per t bits|] ops IH]; intros ks1 k ks2 Hz N1 Nk N2 I1 I2 S1 S2.
  - exists k, [], ks1, ks2. cbn [krun map]. repeat split; assumption.
  - inversion S1 as [|? ? A1 B1]; subst. inversion S2 as [|? ? A2 B2]; subst. cbn [krun].
    assert (Q : forall l, Forall (fun k => bitvalue k <> 0) l -> Forall idle l -> Forall (fun k => bitvalue k <> bits) l -> Forall (quiet bits) l).
    { intros l X Y Z. rewrite Forall_forall in *. intros x Hx. repeat split; try apply (Y x Hx); auto. }
    destruct (routine_quiet I w z rest ks1 k ks2 click lc per (counter w t) bits Hz Nk (Q _ N1 I1 A1) (Q _ N2 I2 A2)) as (k' & f & c & e & R1 & Bk & Ck & R2).
    rewrite R1, R2. cbn [obind].
    destruct (IH ks1 k' ks2 Hz N1 ltac:(congruence) N2 I1 I2 B1 B2) as (k2 & outs & ks1' & ks2' & E1 & E2 & X1 & X2 & X3 & X4 & X5).
    rewrite E1, E2. cbn [obind]. exists k2, (Some (f, c, e) :: outs), ks1', ks2'. repeat split; try assumption.
    + apply X5. inversion H; assumption.
    + apply X5. inversion H; assumption.
  - inversion S1 as [|? ? A1 B1]; subst. inversion S2 as [|? ? A2 B2]; subst. cbn [krun].
    destruct (reset_quiet z rest ks1 Hz N1) as (r1 & _ & D1 & F1 & G1). destruct (reset_quiet z rest ks2 Hz N2) as (r2 & G2 & D2 & F2 & _).
    rewrite G1. cbn [keypad_reset_keys]. destruct (Z.eqb_spec (bitvalue k) 0); [contradiction|]. rewrite Hz, G2. cbn [Z.eqb obind].
    destruct (IH r1 (mkKey (bitvalue k) (code k) 0 0 0 0 1 KEY_NOTHING) r2 Hz (ident_forall (fun b => b <> 0) _ _ D1 N1) Nk (ident_forall (fun b => b <> 0) _ _ D2 N2) F1 F2
      (never_ident _ _ _ D1 B1) (never_ident _ _ _ D2 B2)) as (k2 & outs & ks1' & ks2' & E1 & E2 & X1 & X2 & X3 & X4 & X5).
    rewrite E1, E2. cbn [obind]. exists k2, (None :: outs), ks1', ks2'.
    assert (L : zlen r1 = zlen ks1) by (unfold ident in D1; apply (f_equal (@length _)) in D1; rewrite !map_length in D1; unfold zlen; lia).
    rewrite L. split; [reflexivity|]. split; [reflexivity|].
    split; [unfold ident in *; congruence|]. split; [unfold ident in *; congruence|]. split; [assumption|]. split; [assumption|].
    intros F. inversion F; contradiction.
Qed.

Lemma unused_keys_l : forall I w ks1 k ks2 z rest ops, table (ks1 ++ k :: ks2) z -> Forall idle (ks1 ++ ks2) -> never_seen (ks1 ++ ks2) ops ->
  exists k' outs ks1' ks2', krun I w [k; z] ops = Done ([k'; z], outs) /\
    krun I w (ks1 ++ k :: ks2 ++ z :: rest) ops = Done (ks1' ++ k' :: ks2' ++ z :: rest, map (moved_by (zlen ks1)) outs) /\
    map (fun k => (bitvalue k, code k)) (ks1' ++ ks2') = map (fun k => (bitvalue k, code k)) (ks1 ++ ks2) /\ Forall idle (ks1' ++ ks2') /\
    (Forall no_reset ops -> ks1' = ks1 /\ ks2' = ks2).
Proof.
  intros I w ks1 k ks2 z rest ops [N Hz] Hi Hs. apply Forall_app in N. destruct N as [N1 N2]. inversion N2 as [|? ? Nk N3]; subst.
  apply Forall_app in Hi. destruct Hi as [I1 I2].
  assert (S : never_seen ks1 ops /\ never_seen ks2 ops).
  { split; (eapply Forall_impl; [|exact Hs]); intros [? ? ? ? bits|]; try tauto; intros F; apply Forall_app in F; apply F. }
  destruct S as [S1 S2].
  destruct (unused_l I w z rest ops ks1 k ks2 Hz N1 Nk N3 I1 I2 S1 S2) as (k2 & outs & ks1' & ks2' & E1 & E2 & X1 & X2 & X3 & X4 & X5).
  exists k2, outs, ks1', ks2'. split; [exact E1|]. split; [exact E2|].
  split; [rewrite !map_app; unfold ident in *; congruence|]. split; [apply Forall_app; split; assumption|exact X5].
Qed.

(** * One key at a time *)

Definition evs (k : key) : Prop := lastevent k <> KEY_RELEASE /\ lastevent k <> KEY_NOTHING.

Lemma handle_evs : forall I w k click lc per now k' e, handle I w k click lc per now = (k', e) ->
  (value k = 0 \/ value k = 1) -> (oldvalue k = 0 \/ oldvalue k = 1) -> (oldvalue k = 1 -> evs k) ->
  (oldvalue k' = 1 -> evs k') /\ (e = KEY_RELEASE -> ~ act k') /\ (e <> KEY_RELEASE -> evs k -> evs k') /\
  (~ act k -> value k = 1 -> e = KEY_PRESS /\ evs k').
Proof.
  intros I w k click lc per now k' e H V O A. unfold act, evs, KEY_RELEASE, KEY_NOTHING, KEY_PRESS in *. unfold handle in H.
  destruct (Z.eqb_spec (value k) (oldvalue k)) as [E|E]; cbn [andb negb] in H.
  - destruct (ignore k =? 0).
    + repeat match type of H with context [if ?c then _ else _] => let X := fresh "X" in destruct c eqn:X end; injection H as <- <-;
        cbn [lastevent oldvalue set_lastevent set_time_period set_time_state] in *;
        unfold KEY_RELEASE, KEY_NOTHING, KEY_PRESS, KEY_CLICK, KEY_LONGCLICK, KEY_LONGPRESS, KEY_PRESSING in *; lia.
    + injection H as <- <-. unfold KEY_NOTHING. lia.
  - cbn [value lastevent set_time_state set_oldvalue set_ignore] in H.
    repeat match type of H with context [if ?c then _ else _] => let X := fresh "X" in destruct c eqn:X end; injection H as <- <-;
        cbn [lastevent oldvalue set_lastevent set_time_period set_time_state set_oldvalue set_ignore] in *;
        unfold KEY_RELEASE, KEY_NOTHING, KEY_PRESS, KEY_CLICK, KEY_LONGCLICK in *; lia.
Qed.

Definition xinv (ws : list key) (a : option Z) : Prop :=
  (forall i k, nth_error ws i = Some k -> oldvalue k = 1 -> evs k) /\
  (forall i k, nth_error ws i = Some k -> (act k <-> a = Some (Z.of_nat i))) /\
  (a = None \/ exists i k, a = Some (Z.of_nat i) /\ nth_error ws i = Some k).

Lemma xinv_idle : forall ws, Forall idle ws -> xinv ws None.
Proof.
  intros ws H. assert (Hn : forall i k, nth_error ws i = Some k -> idle k).
  { intros i k Hi. rewrite Forall_forall in H. apply H. now apply nth_error_In in Hi. }
  split; [|split; [|now left]]; intros i k Hi.
  - destruct (Hn i k Hi) as (A & _). lia.
  - destruct (Hn i k Hi) as (A & B & C). split; [|discriminate]. unfold act. lia.
Qed.

Lemma handle_code : forall I w k click lc per now k' e, handle I w k click lc per now = (k', e) -> exists v, e = event_code v.
Proof.
  intros I w k click lc per now k' e H. unfold handle in H.
  repeat match type of H with context [if ?c then _ else _] => destruct c end; injection H as _ <-;
    first [now exists Nothing | now exists Press | now exists Pressing | now exists Click | now exists Longclick | now exists Longpress | now exists Release].
Qed.

Lemma one_l : forall I w z rest, bitvalue z = 0 -> forall ops ws a, Forall (fun k => bitvalue k <> 0) ws -> tinv ws -> xinv ws a ->
  exists keys es, krun I w (ws ++ z :: rest) ops = Done (keys, map (option_map (fun '(f, c, e) => (f, c, event_code e))) es) /\ one_at_a_time a es.
Proof.
  intros I w z rest Hz ops. induction ops as [|[click lc per t bits|] ops IH]; intros ws a Hn T X.
  - exists (ws ++ z :: rest), []. split; [reflexivity|exact Logic.I].
  - cbn [krun]. destruct (routine_l I w z rest ws click lc per (counter w t) bits Hz Hn T) as (ws' & f & c & e & E & T' & S' & D).
    rewrite E. cbn [obind]. pose proof (same_id_nonzero _ _ S' Hn) as Hn'.
    destruct D as [(-> & -> & -> & -> & D)|(j & k & k' & -> & -> & Hj & Hj' & Hv' & Ho' & _ & _ & Hoth & Hoth' & Ka & k1 & Hh & L1 & O1 & V1)].
    + destruct (IH ws a Hn T X) as (keys & es & Er & Hes). rewrite Er. cbn [obind].
      exists keys, (Some (-1, 0, Nothing) :: es). split; [reflexivity|exact Hes].
    + destruct X as (X1 & X2 & X3). destruct (handle_code _ _ _ _ _ _ _ _ _ Hh) as [v ->].
      destruct T as (T1 & T2 & T3). destruct (T2 j k Hj) as [_ Ho].
      destruct (handle_evs _ _ _ _ _ _ _ _ _ Hh) as (H1 & H2 & H3 & H4).
      { rewrite V1. destruct (bits =? bitvalue k); cbn; lia. }
      { rewrite O1. exact Ho. }
      { rewrite O1. unfold evs. rewrite L1. apply (X1 j k Hj). }
      assert (A1 : act k1 <-> act k) by (unfold act; rewrite L1, O1; apply iff_refl).
      assert (E1 : act k -> evs k1).
      { intros [A|A]; [unfold evs; rewrite L1; apply (X1 j k Hj); lia|unfold evs; now rewrite L1]. }
      assert (HX : forall a', (act k' <-> a' = Some (Z.of_nat j)) -> (a' = None \/ a' = Some (Z.of_nat j)) -> xinv ws' a').
      { intros a' P1 P2. split; [|split].
        - intros i ki Hi Hio. destruct (Nat.eq_dec i j) as [->|Hne].
          + rewrite Hj' in Hi. injection Hi as <-. auto.
          + exfalso. apply (Hoth' i ki Hne Hi). left. lia.
        - intros i ki Hi. destruct (Nat.eq_dec i j) as [->|Hne].
          + rewrite Hj' in Hi. injection Hi as <-. exact P1.
          + split; [intros Ha; exfalso; exact (Hoth' i ki Hne Hi Ha)|]. intros ->. destruct P2 as [P2|P2]; [discriminate|injection P2 as P2; lia].
        - destruct P2 as [->|P2]; [now left|]. right. exists j, k'. auto. }
      assert (Hact : forall v', event_code v <> KEY_RELEASE -> act k -> v' = Some (Z.of_nat j) -> (act k' <-> v' = Some (Z.of_nat j))).
      { intros v' Q1 Q2 Q3. split; [auto|]. intros _. right. apply (H3 Q1). auto. }
      assert (Hk : act k \/ ~ act k) by (rewrite <- actb_spec; destruct (actb k); [now left|now right]).
      destruct Hk as [Hk|Hk].
      * assert (Ea : a = Some (Z.of_nat j)) by now apply (X2 j k Hj).
        destruct v; (destruct (IH ws' (Some (Z.of_nat j)) Hn' T') as (keys & es & Er & Hes);
          [apply HX; [apply Hact; [cbv; discriminate|exact Hk|reflexivity]|now right]|]) || (destruct (IH ws' None Hn' T') as (keys & es & Er & Hes);
          [apply HX; [split; [intros Q; exfalso; now apply H2|discriminate]|now left]|]);
          rewrite Er; cbn [obind].
        -- exists keys, (Some (Z.of_nat j, code k, Nothing) :: es). split; [reflexivity|]. cbn. now rewrite Ea.
        -- exists keys, (Some (Z.of_nat j, code k, Press) :: es). split; [reflexivity|]. cbn. auto.
        -- exists keys, (Some (Z.of_nat j, code k, Pressing) :: es). split; [reflexivity|]. cbn. rewrite Ea. auto.
        -- exists keys, (Some (Z.of_nat j, code k, Click) :: es). split; [reflexivity|]. cbn. rewrite Ea. auto.
        -- exists keys, (Some (Z.of_nat j, code k, Longclick) :: es). split; [reflexivity|]. cbn. rewrite Ea. auto.
        -- exists keys, (Some (Z.of_nat j, code k, Longpress) :: es). split; [reflexivity|]. cbn. rewrite Ea. auto.
        -- exists keys, (Some (Z.of_nat j, code k, Release) :: es). split; [reflexivity|]. cbn. auto.
      * destruct H4 as [Ev Hev]; [now rewrite A1| |].
        { rewrite V1. destruct (Z.eqb_spec bits (bitvalue k)) as [|Hne]; [reflexivity|]. exfalso. apply Hk. apply Ka. congruence. }
        assert (v = Press) by (destruct v; cbv in Ev; congruence). subst v.
        destruct (IH ws' (Some (Z.of_nat j)) Hn' T') as (keys & es & Er & Hes).
        { apply HX; [|now right]. split; [reflexivity|]. intros _. right. exact Hev. }
        rewrite Er. cbn [obind]. exists keys, (Some (Z.of_nat j, code k, Press) :: es). split; [reflexivity|]. cbn. split; [|exact Hes].
        left. destruct X3 as [->|(i & ki & -> & Hi)]; [reflexivity|]. exfalso.
        destruct (Nat.eq_dec i j) as [->|Hne]; [apply Hk; now apply (X2 j k Hj)|]. apply (Hoth i ki Hne Hi). now apply (X2 i ki Hi).
  - cbn [krun]. destruct (reset_quiet z rest ws Hz Hn) as (ws' & E & I1 & I2 & _). rewrite E. cbn [obind].
    destruct (IH ws' None) as (keys & es & Er & Hes).
    + exact (ident_forall (fun b => b <> 0) _ _ I1 Hn).
    + now apply idle_tinv.
    + now apply xinv_idle.
    + rewrite Er. cbn [obind]. exists keys, (None :: es). split; [reflexivity|exact Hes].
Qed.

Lemma one_at_a_time_l : forall I w ks z rest ops, table ks z -> Forall idle ks ->
  exists keys es, krun I w (ks ++ z :: rest) ops = Done (keys, map (option_map (fun '(f, c, e) => (f, c, event_code e))) es) /\ one_at_a_time None es.
Proof.
  intros I w ks z rest ops (Hn & Hz) Hi. apply one_l; auto using idle_tinv, xinv_idle.
Qed.
