(** Properties C202 and C203: pulses of a bouncing signal are counted exactly; the count is bounded by the samples. *)
From Verif Require Import Base BaseLemmas PulseModel PulseSystem PulseSpec PulseProps PulseRateSpec PulseRateProofs.

(** C202: an input whose signal changes level [length stretches] times, bouncing as it likes within each stretch as long
    as the new level is there for [d]+1 samples in a row once and the old one never is: its pulses are counted once
    each, and its level is the one of the last stretch.  The other inputs are arbitrary. *)
Theorem pulse_bouncing : forall W d high p init i words stretches, 0 <= d < 2 ^ Z.of_nat W ->
  mem_ok W p -> Forall (fun c => c = 0) (filters p) ->
  0 <= init < 2 ^ Z.of_nat W -> 0 <= i < Z.of_nat W ->
  map (fun x => Z.testbit x i) words = concat stretches -> bouncing d (Z.testbit init i) stretches ->
  exists p', phistory W d p high init (map PFilter words) = Done p' /\
    pulse_level W p' i =
      b2z (if Nat.even (length stretches) then Z.testbit init i else negb (Z.testbit init i)) /\
    pulse_count W p' i =
      Done (swrap (Z.of_nat W) (pulses high (Z.testbit init i) (length stretches))).
Proof.
  intros W d high p init i words stretches Hd Hm Hz Hin Hi Hw Hb.
  destruct (pulse_counts_edges W d Hd high p init (map PFilter words) i Hm Hz Hin Hi) as (p' & E & R).
  exists p'. split; [exact E|]. cbv zeta in R. rewrite ref_samples, Hw in R.
  destruct (bouncing_l d high ltac:(lia) stretches (Z.testbit init i) 0 0 ltac:(lia) Hb) as (lv & run & EQ & EL).
  rewrite EQ in R. cbn [fst snd] in R. rewrite <- EL. exact R.
Qed.
Print Assumptions pulse_bouncing.

(** Two high pulses on input 1, each edge bouncing, with [d] = 2. *)
Example pulse_bouncing_case :
  let w := map (fun b : bool => if b then 2 else 0) in
  let up := [true; false; true; true; false; false; true; true; true; false] in
  let down := [false; true; false; false; false; true; true; false] in
  bouncing 2 false [up; down; up; down] /\ pulses true false 4 = 2 /\
  (do p <- phistory 32 2 (mkPf COUNT_LOW_PULSE 0 (repeat 0 32) (repeat 7 32)) true 0
             (map PFilter (w (up ++ down ++ up ++ down)));
   pulse_count 32 p 1) = Done 2.
Proof.
  cbv zeta. split; [|vm_compute; auto].
  assert (A : has_run 2 true [true; false; true; true; false; false; true; true; true; false])
    by (exists [true; false; true; true; false; false], [false]; reflexivity).
  assert (B : has_run 2 false [false; true; false; false; false; true; true; false])
    by (exists [false; true], [true; true; false]; reflexivity).
  assert (N : forall l b, (forall n, (n <= length l)%nat -> firstn 3 (skipn n l) <> [b; b; b]) -> ~ has_run 2 b l).
  { intros l b H (x & y & E). apply (H (length x)); rewrite E.
    - rewrite app_length. lia.
    - rewrite skipn_app, skipn_all, Nat.sub_diag. reflexivity. }
  assert (A' : ~ has_run 2 false [true; false; true; true; false; false; true; true; true; false])
    by (apply N; intros n Hn; do 11 (destruct n as [|n]; [discriminate|]); cbn in Hn; lia).
  assert (B' : ~ has_run 2 true [false; true; false; false; false; true; true; false])
    by (apply N; intros n Hn; do 9 (destruct n as [|n]; [discriminate|]); cbn in Hn; lia).
  cbn [bouncing negb]. repeat split; assumption.
Qed.

(** C203: whatever the samples are, [c] counted pulses of an input take at least [2 * c * (d + 1)] of them, or [d + 1] less if
    the counter was started inside a pulse.  (So few samples that the int counter cannot wrap.) *)
Theorem pulse_rate : forall W d high p init i words, 0 <= d < 2 ^ Z.of_nat W ->
  mem_ok W p -> Forall (fun c => c = 0) (filters p) ->
  0 <= init < 2 ^ Z.of_nat W -> 0 <= i < Z.of_nat W ->
  Z.of_nat (length words) < 2 ^ (Z.of_nat W - 1) ->
  exists p' c, phistory W d p high init (map PFilter words) = Done p' /\
    pulse_count W p' i = Done c /\ 0 <= c /\
    2 * c * (d + 1) <= Z.of_nat (length words) + (if eqb (Z.testbit init i) high then d + 1 else 0).
Proof.
  intros W d high p init i words Hd Hm Hz Hin Hi Hl.
  destruct (pulse_counts_edges W d Hd high p init (map PFilter words) i Hm Hz Hin Hi) as (p' & E & R).
  cbv zeta in R. rewrite ref_samples in R. destruct R as [_ R].
  destruct (rate_l d high ltac:(lia) (map (fun x => Z.testbit x i) words) (Z.testbit init i) (Z.testbit init i) 0 0 0)
    as (lv & run & n & T & EQ & H1 & H2 & H3); try lia; [reflexivity|destruct (eqb _ _); cbn; lia|].
  pose proof (count_grows d high (map (fun x => Z.testbit x i) words) (Z.testbit init i, 0, 0)) as HG.
  rewrite EQ in R, HG. cbn [fst snd] in R, HG. rewrite map_length in H2.
  assert (HB : 2 * n * (d + 1) <= Z.of_nat (length words) + (if eqb (Z.testbit init i) high then d + 1 else 0)).
  { destruct (eqb (Z.testbit init i) high); nia. }
  assert (Hn : n <= Z.of_nat (length words)).
  { destruct (eqb (Z.testbit init i) high); destruct (Z_le_gt_dec n (Z.of_nat (length words))); try assumption; nia. }
  exists p', n. split; [exact E|]. split; [|split; [lia|exact HB]]. rewrite R. f_equal.
  apply swrap_small; lia.
Qed.
Print Assumptions pulse_rate.

(** The bound is reached: with [d] = 1, two low pulses in 8 samples, and three in 10 when started inside one. *)
Example pulse_rate_case :
  let p := mkPf COUNT_HIGH_PULSE 0 (repeat 0 32) (repeat 7 32) in
  (do p' <- phistory 32 1 p false 1 (map PFilter [0; 0; 1; 1; 0; 0; 1; 1]); pulse_count 32 p' 0) = Done 2 /\
  (do p' <- phistory 32 1 p false 0 (map PFilter [1; 1; 0; 0; 1; 1; 0; 0; 1; 1]); pulse_count 32 p' 0) = Done 3.
Proof. vm_compute. auto. Qed.
