From Coq Require Import ZifyBool.
From Verif Require Import Base BaseLemmas TimeModel TimeSpec TimeProofs KeypadModel KeypadSpec KeypadSystem KeypadProofs.

Definition seen (bits : Z) (k : key) : key := if bitvalue k =? bits then set_value k 1 else k.

Lemma scan_inactive : forall tl bits ks i f c, Forall (fun k => bitvalue k <> 0) ks -> Forall (fun k => ~ act k) ks ->
  exists f1 c1, scan (ks ++ tl) bits i f c = do (tl', f', c') <- scan tl bits (i + zlen ks) f1 c1; Done (map (seen bits) ks ++ tl', f', c').
Proof.
  intros tl bits ks. induction ks as [|k ks IH]; intros i f c Hn Ha; cbn [app].
  - exists f, c. unfold zlen. cbn [length]. rewrite Z.add_0_r. destruct (scan tl bits i f c) as [[[? ?] ?]| | |]; reflexivity.
  - inversion Hn; inversion Ha as [|? ? Hk]; subst. cbn [scan map]. unfold seen at 1. destruct (Z.eqb_spec (bitvalue k) 0); [contradiction|].
    destruct (bitvalue k =? bits).
    + destruct (IH (i + 1) i (code k)) as (f1 & c1 & E); try assumption. exists f1, c1. rewrite E.
      replace (i + 1 + zlen ks) with (i + zlen (k :: ks)) by (unfold zlen; cbn [length]; lia).
      destruct (scan tl bits (i + zlen (k :: ks)) f1 c1) as [[[? ?] ?]| | |]; reflexivity.
    + destruct (IH (i + 1) f c) as (f1 & c1 & E); try assumption. exists f1, c1.
      replace (negb (oldvalue k =? 0) && negb false) with false by (unfold act in Hk; lia).
      replace (negb (lastevent k =? KEY_RELEASE) && negb (lastevent k =? KEY_NOTHING)) with false by (unfold act in Hk; lia).
      rewrite E. replace (i + 1 + zlen ks) with (i + zlen (k :: ks)) by (unfold zlen; cbn [length]; lia).
      destruct (scan tl bits (i + zlen (k :: ks)) f1 c1) as [[[? ?] ?]| | |]; reflexivity.
Qed.

Lemma scan_unmatched : forall z rest bits ks i f c, bitvalue z = 0 -> Forall (fun k => bitvalue k <> 0) ks -> Forall (fun k => ~ act k) ks ->
  Forall (fun k => bitvalue k <> bits) ks -> scan (ks ++ z :: rest) bits i f c = Done (ks ++ z :: rest, f, c).
Proof.
  intros z rest bits ks i f c Hz. revert i f c. induction ks as [|k ks IH]; intros i f c Hn Ha Hb; cbn [app scan].
  - rewrite Hz. reflexivity.
  - inversion Hn; inversion Ha as [|? ? Hk]; inversion Hb; subst. destruct (Z.eqb_spec (bitvalue k) 0); [contradiction|].
    destruct (Z.eqb_spec (bitvalue k) bits); [contradiction|].
    replace (negb (oldvalue k =? 0) && negb false) with false by (unfold act in Hk; lia).
    replace (negb (lastevent k =? KEY_RELEASE) && negb (lastevent k =? KEY_NOTHING)) with false by (unfold act in Hk; lia).
    rewrite IH by assumption. reflexivity.
Qed.

Lemma routine_concerned : forall I w z rest ks1 k ks2 click lc per now bits, bitvalue z = 0 -> bitvalue k <> 0 ->
  Forall (fun k => bitvalue k <> 0) ks1 -> Forall (fun k => ~ act k) ks1 ->
  Forall (fun k => bitvalue k <> 0) ks2 -> Forall (fun k => ~ act k) ks2 ->
  (bitvalue k = bits -> Forall (fun k => bitvalue k <> bits) ks2) -> (bitvalue k = bits \/ act k) ->
  exists k' e, keypad_routine I w [k; z] click lc per now bits = Done ([k'; z], 0, code k, e) /\
    bitvalue k' = bitvalue k /\ code k' = code k /\
    keypad_routine I w (ks1 ++ k :: ks2 ++ z :: rest) click lc per now bits =
      Done (map (seen bits) ks1 ++ k' :: ks2 ++ z :: rest, zlen ks1, code k, e).
Proof.
  intros I w z rest ks1 k ks2 click lc per now bits Hz Hk N1 A1 N2 A2 M2 Hc. unfold keypad_routine.
  destruct (scan_inactive (k :: ks2 ++ z :: rest) bits ks1 0 (-1) 0 N1 A1) as (f1 & c1 & E). rewrite E. clear E. rewrite Z.add_0_l.
  assert (N : zlen ks1 =? -1 = false) by (unfold zlen; lia).
  assert (NL : zlen ks1 = zlen (map (seen bits) ks1)) by (unfold zlen; now rewrite map_length).
  assert (S : exists k1, bitvalue k1 = bitvalue k /\ code k1 = code k /\
    scan [k; z] bits 0 (-1) 0 = Done ([k1; z], 0, code k) /\ scan (k :: ks2 ++ z :: rest) bits (zlen ks1) f1 c1 = Done (k1 :: ks2 ++ z :: rest, zlen ks1, code k)).
  { cbn [scan]. destruct (Z.eqb_spec (bitvalue k) 0); [contradiction|]. rewrite Hz. cbn [Z.eqb obind].
    destruct (Z.eqb_spec (bitvalue k) bits) as [Eb|Eb].
    - exists (set_value k 1). split; [reflexivity|]. split; [reflexivity|]. split; [reflexivity|].
      rewrite scan_unmatched by auto. reflexivity.
    - destruct (negb (oldvalue k =? 0) && negb false) eqn:Eo.
      + exists (set_value k 0). repeat split.
      + destruct (negb (lastevent k =? KEY_RELEASE) && negb (lastevent k =? KEY_NOTHING)) eqn:El.
        * exists k. repeat split.
        * exfalso. destruct Hc as [Hc|Hc]; [contradiction|]. unfold act in Hc. lia. }
  destruct S as (k1 & B & C & E1 & E2). rewrite E1, E2. cbn [obind]. rewrite N. change (0 =? -1) with false. cbv iota.
  replace (zget (map (seen bits) ks1 ++ k1 :: ks2 ++ z :: rest) (zlen ks1)) with (@Done key k1) by (rewrite NL; symmetry; apply zget_mid).
  change (zget [k1; z] 0) with (@Done key k1). cbn [obind].
  destruct (handle I w k1 click lc per now) as [k' e] eqn:Eh.
  replace (zset (map (seen bits) ks1 ++ k1 :: ks2 ++ z :: rest) (zlen ks1) k') with (Done (map (seen bits) ks1 ++ k' :: ks2 ++ z :: rest))
    by (rewrite NL; symmetry; apply zset_mid).
  change (zset [k1; z] 0 k') with (Done [k'; z]). cbn [obind].
  destruct (handle_id _ _ _ _ _ _ _ _ _ Eh) as [B' C']. exists k', e. split; [reflexivity|]. split; [congruence|]. split; [congruence|]. reflexivity.
Qed.

(** The old state does not matter when an inactive key is seen. *)
Lemma routine_stale : forall I w z k click lc per now, bitvalue k <> 0 ->
  keypad_routine I w [k; z] click lc per now (bitvalue k) = keypad_routine I w [set_value k 0; z] click lc per now (bitvalue k).
Proof. intros I w z k click lc per now Hk. unfold keypad_routine. cbn [scan set_value bitvalue code]. destruct (Z.eqb_spec (bitvalue k) 0); [contradiction|]. rewrite Z.eqb_refl. reflexivity. Qed.

Lemma last_key_none : forall bits bs, last_key bits bs = None <-> Forall (fun b => b <> bits) bs.
Proof.
  intros bits. induction bs as [|b bs IH]; cbn [last_key]; [split; [constructor|reflexivity]|].
  destruct (last_key bits bs) as [i|]; [|destruct (Z.eqb_spec b bits)].
  - split; [discriminate|]. intros H. inversion H; subst. apply IH in H3. discriminate.
  - split; [discriminate|]. intros H. inversion H; contradiction.
  - split; [|reflexivity]. intros _. constructor; [assumption|]. now apply IH.
Qed.

Lemma last_key_some : forall bits ks i, last_key bits (map bitvalue ks) = Some i ->
  exists ks1 k ks2, ks = ks1 ++ k :: ks2 /\ length ks1 = i /\ bitvalue k = bits /\ Forall (fun k => bitvalue k <> bits) ks2.
Proof.
  intros bits. induction ks as [|k ks IH]; intros i E; cbn [map last_key] in E; [discriminate|].
  destruct (last_key bits (map bitvalue ks)) as [i'|] eqn:El.
  - injection E as <-. destruct (IH i' eq_refl) as (ks1 & k0 & ks2 & -> & Hl & Hb & Hf). exists (k :: ks1), k0, ks2.
    cbn [app length]. repeat split; auto.
  - destruct (Z.eqb_spec (bitvalue k) bits); [|discriminate]. injection E as <-. exists [], k, ks. repeat split; [assumption|].
    apply last_key_none in El. rewrite Forall_map in El. exact El.
Qed.

Section Table.
Variables I w : Z.
Hypothesis Hw : 0 < w.
Hypothesis HI : I <= w.
Variables click longclick period : Z.
Hypothesis Hclick : 0 <= click <= longclick.
Hypothesis Hlong : longclick < half w.
Hypothesis Hperiod : 0 <= period < half w.
Variable G : Z.
Hypothesis HG0 : 0 < G.
Hypothesis HG2 : 2 * G <= half w + (longclick - click).
Variables (z : key) (rest : list key).
Hypothesis Hz : bitvalue z = 0.

Definition ids (ks ws : list key) : Prop := map bitvalue ws = map bitvalue ks /\ map code ws = map code ks.

Definition cur_rel (last : option Z) (p : pad) (ws : list key) : Prop :=
  match current p with
  | None => Forall (fun k => ~ act k) ws
  | Some (i, s) => exists ks1 k ks2 t', last = Some t' /\ ws = ks1 ++ k :: ks2 /\ length ks1 = i /\
      Forall (fun k => ~ act k) ks1 /\ Forall (fun k => ~ act k) ks2 /\ Forall (fun k2 => bitvalue k2 <> bitvalue k) ks2 /\
      rel w click period (bitvalue k) t' s k /\ s <> Idle /\ tight click longclick G t' s
  end.

Definition shown_rel (p : pad) (ws : list key) : Prop := forall j k, nth_error ws j = Some k -> value k = b2z (shown p j).

Lemma rel_active : forall b t' s k, rel w click period b t' s k -> s <> Idle -> act k.
Proof.
  intros b t' s k [_ H] Hs. unfold act. destruct s; [contradiction| | | |]; cbn in H; unfold KEY_CLICK, KEY_LONGCLICK, KEY_RELEASE, KEY_NOTHING in *; lia.
Qed.

Lemma seen_inactive : forall bits ks, Forall (fun k => ~ act k) ks -> Forall (fun k => ~ act k) (map (seen bits) ks).
Proof.
  intros bits ks H. rewrite Forall_map. eapply Forall_impl; [|exact H]. cbv beta. intros k Hk. unfold seen. destruct (bitvalue k =? bits); exact Hk.
Qed.

Lemma seen_ids : forall bits ks, map bitvalue (map (seen bits) ks) = map bitvalue ks /\ map code (map (seen bits) ks) = map code ks.
Proof.
  intros bits ks. rewrite !map_map. split; apply map_ext; intros k; unfold seen; destruct (bitvalue k =? bits); reflexivity.
Qed.

(** One call concerning [k]. *)
Lemma concerned_step : forall p ws ks1 k ks2 t t' s bits,
  ws = ks1 ++ k :: ks2 -> bitvalue k <> 0 ->
  Forall (fun k => bitvalue k <> 0) ws -> Forall (fun k => ~ act k) ks1 -> Forall (fun k => ~ act k) ks2 -> Forall (fun k2 => bitvalue k2 <> bitvalue k) ks2 ->
  concerned (map bitvalue ws) p bits = Some (length ks1, s) ->
  (s <> Idle /\ rel w click period (bitvalue k) t' s k \/ s = Idle /\ ~ act k /\ bitvalue k = bits) ->
  tight click longclick G t' s -> t' <= t < t' + G -> shown_rel p ws ->
  exists ws' o e, keypad_routine I w (ws ++ z :: rest) click longclick period (counter w t) bits =
      Done (ws' ++ z :: rest, zlen ks1, nth (length ks1) (map code ws) 0, event_code e) /\
    pad_call click longclick period (map bitvalue ws) p t bits = (o, Some (length ks1, e)) /\
    ids ws ws' /\ cur_rel (Some t) o ws' /\ shown_rel o ws'.
Proof using Hw HI Hclick Hlong Hperiod HG0 HG2 Hz.
  intros p ws ks1 k ks2 t t' s bits -> Hk Hn A1 A2 M2 Hcon Hs Hti Ht Hsh.
  apply Forall_app in Hn. destruct Hn as [N1 N2']. inversion N2' as [|? ? _ N2]; subst. clear N2'.
  set (k0 := if (match s with Idle => true | _ => false end) then set_value k 0 else k).
  assert (Hk0 : bitvalue k0 = bitvalue k /\ code k0 = code k) by (unfold k0; destruct s; split; reflexivity).
  assert (Hrel : rel w click period (bitvalue k) t' s k0).
  { destruct Hs as [[Hs Hr]|(-> & Ha & _)]; [unfold k0; destruct s; [contradiction| | | |]; exact Hr|].
    split; [reflexivity|]. unfold k0. cbn. unfold act in Ha. unfold idle. cbn. split; [lia|]. split; [reflexivity|]. lia. }
  destruct (routine_concerned I w z rest ks1 k ks2 click longclick period (counter w t) bits Hz Hk N1 A1 N2 A2) as (k' & e & E1 & B' & C' & E2).
  { intros <-. exact M2. }
  { destruct Hs as [[Hs Hr]|(_ & _ & Hb)]; [right; now apply (rel_active _ _ _ _ Hr)|left; exact Hb]. }
  set (d := bitvalue k =? bits).
  destruct (step_l I w Hw HI click longclick period Hclick Hlong Hperiod (bitvalue k) Hk k0 s t t' (if d then bitvalue k + 1 else bits) d z [] Hrel Hz)
    as (s' & v & k1 & found & c & E & _ & R & Hc & Hf & Hv & Hex).
  { unfold d. destruct (Z.eqb_spec (bitvalue k) bits); lia. }
  { unfold half in *. lia. }
  assert (Hks : kstep click longclick period s t d = (s', v)).
  { apply Hex. intros q m ->. cbn [tight] in Hti. unfold half in *. lia. }
  replace (if d then bitvalue k else if d then bitvalue k + 1 else bits) with bits in E
    by (unfold d; destruct (Z.eqb_spec (bitvalue k) bits); congruence).
  assert (E3 : keypad_routine I w [k0; z] click longclick period (counter w t) bits = keypad_routine I w [k; z] click longclick period (counter w t) bits).
  { destruct Hs as [[Hs _]|(-> & _ & <-)]; [unfold k0; destruct s; [contradiction| | | |]; reflexivity|]. symmetry. now apply routine_stale. }
  rewrite E3, E1 in E. injection E as E4 E5 E6 E7. subst k1 found c e.
  assert (Hnth : forall A (f : key -> A) dflt, nth (length ks1) (map f (ks1 ++ k :: ks2)) dflt = f k).
  { intros A f dflt. rewrite map_app, app_nth2; rewrite map_length; [|lia]. rewrite Nat.sub_diag. reflexivity. }
  exists (map (seen bits) ks1 ++ k' :: ks2). rewrite <- !app_assoc. cbn [app]. rewrite E2, Hnth.
  unfold pad_call. rewrite Hcon, Hnth. fold d. rewrite Hks.
  eexists. exists v. split; [reflexivity|]. split; [reflexivity|]. split; [|split].
  - unfold ids. rewrite !map_app. cbn [map]. destruct (seen_ids bits ks1) as [-> ->]. now rewrite B', C'.
  - assert (Hsplit : s' = Idle \/ s' <> Idle) by (destruct s'; [left; reflexivity|right; discriminate..]). unfold cur_rel. cbn [current].
    destruct Hsplit as [-> | Hni].
    + apply Forall_app. split; [now apply seen_inactive|]. constructor; [|exact A2]. destruct R as [_ R]. cbn in R. unfold idle in R. unfold act. lia.
    + replace (match s' with Idle => None | _ => Some (length ks1, s') end) with (Some (length ks1, s')) by (destruct s'; [contradiction| | | |]; reflexivity).
      exists (map (seen bits) ks1), k', ks2, t. split; [reflexivity|]. split; [reflexivity|]. split; [apply map_length|].
      split; [now apply seen_inactive|]. split; [exact A2|]. split; [rewrite B'; exact M2|]. split; [rewrite B'; exact R|].
      split; [exact Hni|]. apply (tight_step click longclick period Hclick G s t t' d s' v Hti Ht Hks).
  - intros j kj Hj. cbn [shown]. destruct (Nat.eqb_spec j (length ks1)) as [->|Hne].
    + rewrite nth_error_app2 in Hj by (rewrite map_length; lia). rewrite map_length, Nat.sub_diag in Hj. cbn in Hj. injection Hj as <-. exact Hv.
    + destruct (Nat.ltb_spec j (length ks1)) as [Hlt|Hge].
      * rewrite nth_error_app1 in Hj by (rewrite map_length; exact Hlt). rewrite nth_error_map in Hj.
        destruct (nth_error ks1 j) as [kj0|] eqn:Ej; [|discriminate]. cbn [option_map] in Hj. injection Hj as <-.
        assert (Hnj : nth j (map bitvalue (ks1 ++ k :: ks2)) 0 = bitvalue kj0).
        { rewrite map_app, app_nth1 by (rewrite map_length; exact Hlt). apply nth_error_nth. rewrite nth_error_map, Ej. reflexivity. }
        rewrite Hnj. unfold seen. cbn [andb]. destruct (bitvalue kj0 =? bits); [reflexivity|].
        apply Hsh. rewrite nth_error_app1 by exact Hlt. exact Ej.
      * cbn [andb]. apply Hsh. rewrite nth_error_app2 in * by (rewrite ?map_length; lia). rewrite map_length in Hj.
        destruct (j - length ks1)%nat as [|m] eqn:Em; [lia|]. exact Hj.
Qed.

Definition next (last : option Z) (t : Z) : Prop := match last with Some t' => t' <= t < t' + G | None => True end.

Lemma call_step : forall p ws last t bits, Forall (fun k => bitvalue k <> 0) ws -> cur_rel last p ws -> shown_rel p ws -> next last t ->
  exists ws' p' o f c e, keypad_routine I w (ws ++ z :: rest) click longclick period (counter w t) bits = Done (ws' ++ z :: rest, f, c, e) /\
    pad_call click longclick period (map bitvalue ws) p t bits = (p', o) /\
    pad_output (map code ws) (Some o) = Some (f, c, e) /\
    ids ws ws' /\ cur_rel (Some t) p' ws' /\ shown_rel p' ws'.
Proof using Hw HI Hclick Hlong Hperiod HG0 HG2 Hz.
  intros p ws last t bits Hn Hc Hsh Ht. pose proof Hc as Hc0. unfold cur_rel in Hc. destruct (current p) as [[i s]|] eqn:Ecur.
  - destruct Hc as (ks1 & k & ks2 & t' & -> & -> & <- & A1 & A2 & M2 & R & Hni & Hti). cbn [next] in Ht.
    assert (Hk : bitvalue k <> 0) by (apply Forall_app in Hn; destruct Hn as [_ Hn]; inversion Hn; assumption).
    destruct (concerned_step p _ ks1 k ks2 t t' s bits eq_refl Hk Hn A1 A2 M2) as (ws' & o & e & E1 & E2 & E3 & E4 & E5); auto.
    { unfold concerned. now rewrite Ecur. }
    exists ws', o, (Some (length ks1, e)). do 3 eexists. split; [exact E1|]. split; [exact E2|]. split; [reflexivity|]. auto.
  - destruct (last_key bits (map bitvalue ws)) as [i|] eqn:El.
    + pose proof (last_key_some _ _ _ El) as (ks1 & k & ks2 & -> & <- & Hb & M2).
      apply Forall_app in Hc. destruct Hc as [A1 A2']. inversion A2' as [|? ? Ak A2]; subst. clear A2'.
      assert (Hk : bitvalue k <> 0) by (apply Forall_app in Hn; destruct Hn as [_ Hn]; inversion Hn; assumption).
      destruct (concerned_step p _ ks1 k ks2 t t Idle (bitvalue k) eq_refl Hk Hn A1 A2 M2) as (ws' & o & e & E1 & E2 & E3 & E4 & E5); auto.
      { unfold concerned. now rewrite Ecur, El. }
      { exact Logic.I. }
      { lia. }
      exists ws', o, (Some (length ks1, e)). do 3 eexists. split; [exact E1|]. split; [exact E2|]. split; [reflexivity|]. auto.
    + exists ws, p, None, (-1), 0, KEY_NOTHING. apply last_key_none in El as El'. rewrite Forall_map in El'.
      unfold keypad_routine. rewrite scan_unmatched by assumption. cbn [obind]. split; [reflexivity|].
      unfold pad_call, concerned. rewrite Ecur, El. split; [reflexivity|]. split; [reflexivity|]. split; [split; reflexivity|].
      split; [|exact Hsh]. unfold cur_rel. rewrite Ecur. exact Hc.
Qed.

Lemma nonzero_ids : forall ws ws', ids ws ws' -> Forall (fun k => bitvalue k <> 0) ws -> Forall (fun k => bitvalue k <> 0) ws'.
Proof. intros ws ws' [H _] Hn. rewrite <- (Forall_map bitvalue (fun b => b <> 0)) in *. now rewrite H. Qed.

Lemma reset_step : forall last ws, Forall (fun k => bitvalue k <> 0) ws ->
  exists ws', keypad_reset_keys (ws ++ z :: rest) = Done (ws' ++ z :: rest) /\ ids ws ws' /\ cur_rel last pad0 ws' /\ shown_rel pad0 ws'.
Proof using Hz.
  intros last ws Hn. destruct (reset_quiet z rest ws Hz Hn) as (ws' & E & Hid & Hidle & _). exists ws'. split; [exact E|]. split; [|split].
  - unfold ident in Hid. split.
    + apply (f_equal (map fst)) in Hid. rewrite !map_map in Hid. exact Hid.
    + apply (f_equal (map snd)) in Hid. rewrite !map_map in Hid. exact Hid.
  - unfold cur_rel. cbn. eapply Forall_impl; [|exact Hidle]. cbv beta. intros k (A & B & C). unfold act. lia.
  - intros j k Hj. cbn. apply nth_error_In in Hj. rewrite Forall_forall in Hidle. destruct (Hidle k Hj) as (_ & B & _). exact B.
Qed.

Lemma run_table : forall h p ws last, Forall (fun k => bitvalue k <> 0) ws -> cur_rel last p ws -> shown_rel p ws -> paced G last h ->
  exists ws' p' os, krun I w (ws ++ z :: rest) (pad_ops click longclick period h) = Done (ws' ++ z :: rest, map (pad_output (map code ws)) os) /\
    pad_run click longclick period (map bitvalue ws) p h = (p', os) /\ ids ws ws' /\ shown_rel p' ws'.
Proof using Hw HI Hclick Hlong Hperiod HG0 HG2 Hz.
  induction h as [|[[t bits]|] h IH]; intros p ws last Hn Hc Hsh Hp.
  - exists ws, p, []. cbn. repeat split. exact Hsh.
  - cbn [paced] in Hp. destruct Hp as [Ht Hp].
    destruct (call_step p ws last t bits Hn Hc Hsh Ht) as (ws1 & p1 & o & f & c & e & E1 & E2 & E3 & E4 & E5 & E6).
    destruct (IH p1 ws1 (Some t) (nonzero_ids _ _ E4 Hn) E5 E6 Hp) as (ws' & p' & os & F1 & F2 & F3 & F4).
    exists ws', p', (Some o :: os). cbn [pad_ops map krun]. rewrite E1. cbn [obind]. fold (pad_ops click longclick period h). rewrite F1. cbn [obind].
    destruct E4 as [I1 I2]. destruct F3 as [J1 J2]. cbn [pad_run]. rewrite E2. rewrite <- I1, F2. cbn [map]. rewrite E3, I2.
    repeat split; try congruence. exact F4.
  - cbn [paced] in Hp. destruct (reset_step last ws Hn) as (ws1 & E1 & E4 & E5 & E6).
    destruct (IH pad0 ws1 last (nonzero_ids _ _ E4 Hn) E5 E6 Hp) as (ws' & p' & os & F1 & F2 & F3 & F4).
    exists ws', p', (None :: os). cbn [pad_ops map krun]. rewrite E1. cbn [obind]. fold (pad_ops click longclick period h). rewrite F1. cbn [obind].
    destruct E4 as [I1 I2]. destruct F3 as [J1 J2]. cbn [pad_run]. rewrite <- I1, F2. cbn [map pad_output]. rewrite I2.
    repeat split; try congruence. exact F4.
Qed.

Lemma pad_l : forall ks h, table ks z -> Forall idle ks -> paced G None h ->
  exists ks', krun I w (ks ++ z :: rest) (pad_ops click longclick period h) =
      Done (ks' ++ z :: rest, map (pad_output (map code ks)) (snd (pad_run click longclick period (map bitvalue ks) pad0 h))) /\
    length ks' = length ks /\ map bitvalue ks' = map bitvalue ks /\ map code ks' = map code ks /\
    forall j k, nth_error ks' j = Some k -> keypad_get_key_state k = b2z (shown (fst (pad_run click longclick period (map bitvalue ks) pad0 h)) j).
Proof using Hw HI Hclick Hlong Hperiod HG0 HG2 Hz.
  intros ks h [Hn _] Hi Hp. destruct (run_table h pad0 ks None Hn) as (ks' & p' & os & E1 & E2 & [I1 I2] & Hsh); auto.
  - unfold cur_rel. cbn. eapply Forall_impl; [|exact Hi]. cbv beta. intros k (A & B & C). unfold act. lia.
  - intros j k Hj. cbn. apply nth_error_In in Hj. rewrite Forall_forall in Hi. destruct (Hi k Hj) as (_ & B & _). exact B.
  - exists ks'. rewrite E2. cbn [fst snd]. split; [exact E1|]. split; [|split; [exact I1|]; split; [exact I2|exact Hsh]].
    apply (f_equal (@length Z)) in I1. now rewrite !map_length in I1.
Qed.

End Table.
