(** Steps of floating point parameters: theorems. *)
From Verif Require Import Base FloatSpec ParameterModel ParameterSpec ParamStepSpec ParamStepProofs.
From Coq Require Import Floats.SpecFloat.

Local Ltac by_bytes := intros i Hi; cbn in Hi; assert (K : i = 0 \/ i = 1 \/ i = 2 \/ i = 3) by lia; destruct K as [->|[->|[->| ->]]]; reflexivity.

(** * C180: steps of a parameter with a step that is not negative go in the direction of the modification, or round to
      the other limit; larger values and modifications give larger results unless one of the two went round. *)
Theorem parameter_step_direction : forall h m d lo hi v s, INT_MIN <= d <= INT_MAX ->
  flimit m (pmin h) (minv h) (ptype_of h) lo -> flimit m (pmax h) (maxv h) (ptype_of h) hi -> lo <> S754_nan -> hi <> S754_nan ->
  fholds m (pointer h) (ptype_of h) v -> union_fholds (step h) (ptype_of h) s -> finite v -> finite s -> upward s ->
  exists m' y, parameter_operator (Some h) m d = Done (m', 0) /\ fholds m' (pointer h) (ptype_of h) y /\
    (0 <= d -> SFleb v y = true \/ 0 < d /\ y = lo) /\ (d <= 0 -> SFleb y v = true \/ d < 0 /\ y = hi).
Proof. exact step_direction_l. Qed.
Print Assumptions parameter_step_direction.

Theorem parameter_step_monotone : forall h m1 m2 d1 d2 lo hi v1 v2 s, INT_MIN <= d1 -> d1 <= d2 -> d2 <= INT_MAX ->
  flimit m1 (pmin h) (minv h) (ptype_of h) lo -> flimit m1 (pmax h) (maxv h) (ptype_of h) hi ->
  flimit m2 (pmin h) (minv h) (ptype_of h) lo -> flimit m2 (pmax h) (maxv h) (ptype_of h) hi ->
  SFleb lo hi = true ->
  fholds m1 (pointer h) (ptype_of h) v1 -> fholds m2 (pointer h) (ptype_of h) v2 -> union_fholds (step h) (ptype_of h) s ->
  finite v1 -> finite v2 -> finite s -> upward s -> SFleb v1 v2 = true ->
  within lo v1 hi = true -> within lo v2 hi = true ->
  exists m1' m2' y1 y2, parameter_operator (Some h) m1 d1 = Done (m1', 0) /\ parameter_operator (Some h) m2 d2 = Done (m2', 0) /\
    fholds m1' (pointer h) (ptype_of h) y1 /\ fholds m2' (pointer h) (ptype_of h) y2 /\
    (SFleb y1 y2 = true \/ 0 < d2 /\ y2 = lo \/ d1 < 0 /\ y1 = hi).
Proof. exact step_monotone_l. Qed.
Print Assumptions parameter_step_monotone.

(** 0.25 and 0.5 in [0, 1], with a step of 0.25; one and two steps. *)
Example parameter_step_monotone_case :
  let p := mkHandle FLOAT 0 None None 0 1065353216 0 1048576000 0 0 None in
  let q x := S754_finite false 8388608 x in
  flimit [0; 0; 128; 62] (pmin p) (minv p) FLOAT (S754_zero false) /\ flimit [0; 0; 128; 62] (pmax p) (maxv p) FLOAT (q (-23)) /\
  SFleb (S754_zero false) (q (-23)) = true /\
  fholds [0; 0; 128; 62] 0 FLOAT (q (-25)) /\ fholds [0; 0; 0; 63] 0 FLOAT (q (-24)) /\ union_fholds (step p) FLOAT (q (-25)) /\
  upward (q (-25)) /\ SFleb (q (-25)) (q (-24)) = true /\
  within (S754_zero false) (q (-25)) (q (-23)) = true /\ within (S754_zero false) (q (-24)) (q (-23)) = true /\
  parameter_operator (Some p) [0; 0; 128; 62] 1 = Done ([0; 0; 0; 63], 0) /\
  parameter_operator (Some p) [0; 0; 0; 63] 2 = Done ([0; 0; 128; 63], 0) /\ SFleb (q (-24)) (q (-23)) = true.
Proof.
  cbv zeta. split; [apply (ieee_zero 23 8 (-149) false)|]. split; [apply (ieee_normal 23 8 (-149) false 127 8388608); cbn; lia|].
  split; [reflexivity|].
  split; [exists 1048576000; split; [apply (ieee_normal 23 8 (-149) false 125 8388608); cbn; lia|split; [lia|by_bytes]]|].
  split; [exists 1056964608; split; [apply (ieee_normal 23 8 (-149) false 126 8388608); cbn; lia|split; [lia|by_bytes]]|].
  split; [apply (ieee_normal 23 8 (-149) false 125 8388608); cbn; lia|].
  repeat split; vm_compute; reflexivity.
Qed.

(** * C181: a positive step changes the value.  Refuted: 2^24 in [0, 2^25] with a step of 1 stays 2^24. *)
Theorem parameter_step_progress_refuted : exists h m lo hi v s,
  flimit m (pmin h) (minv h) (ptype_of h) lo /\ flimit m (pmax h) (maxv h) (ptype_of h) hi /\
  fholds m (pointer h) (ptype_of h) v /\ union_fholds (step h) (ptype_of h) s /\
  worth lo 0 0 /\ worth v (2 ^ 24) 0 /\ worth hi (2 ^ 25) 0 /\ worth s 1 0 /\
  parameter_operator (Some h) m 1 = Done (m, 0).
Proof.
  exists (mkHandle FLOAT 0 None None 0 1275068416 0 1065353216 0 0 None), [0; 0; 128; 75].
  exists (S754_zero false), (S754_finite false 8388608 2), (S754_finite false 8388608 1), (S754_finite false 8388608 (-23)).
  split; [apply (ieee_zero 23 8 (-149) false)|].
  split; [apply (ieee_normal 23 8 (-149) false 152 8388608); cbn; lia|].
  split; [exists 1266679808; split; [apply (ieee_normal 23 8 (-149) false 151 8388608); cbn; lia|split; [cbn; lia|by_bytes]]|].
  split; [apply (ieee_normal 23 8 (-149) false 127 8388608); cbn; lia|].
  repeat split; vm_compute; reflexivity.
Qed.
Print Assumptions parameter_step_progress_refuted.

(** Missing from C181: steps smaller than a unit in the last place of the value.  Larger ones: *)
Theorem parameter_step_progress_partial : forall h m d lo hi v s b j, INT_MIN <= d <= INT_MAX ->
  flimit m (pmin h) (minv h) (ptype_of h) lo -> flimit m (pmax h) (maxv h) (ptype_of h) hi -> lo <> S754_nan -> hi <> S754_nan ->
  fholds m (pointer h) (ptype_of h) v -> union_fholds (step h) (ptype_of h) s -> finite v -> finite s ->
  worth (increment (ptype_of h) s d) b j ->
  exists m' y, parameter_operator (Some h) m d = Done (m', 0) /\ fholds m' (pointer h) (ptype_of h) y /\
    (0 < d -> le_number 1 (last_place (ptype_of h) v) b j -> SFltb v y = true \/ y = lo) /\
    (d < 0 -> le_number 1 (last_place (ptype_of h) v) (- b) j -> SFltb y v = true \/ y = hi).
Proof. exact step_progress_l. Qed.
Print Assumptions parameter_step_progress_partial.

(** Less than a quarter of the unit in the last place never changes the value, however often. *)
Theorem parameter_step_lost_partial : forall n h m d lo hi v s b j, limits_elsewhere [h] -> INT_MIN <= d <= INT_MAX ->
  flimit m (pmin h) (minv h) (ptype_of h) lo -> flimit m (pmax h) (maxv h) (ptype_of h) hi -> within lo v hi = true ->
  fholds m (pointer h) (ptype_of h) v -> union_fholds (step h) (ptype_of h) s -> nonzero v -> finite s ->
  worth (increment (ptype_of h) s d) b j -> ~ le_number 1 (last_place (ptype_of h) v - 2) (Z.abs b) j ->
  after n h m d v.
Proof. exact absorbed_l. Qed.
Print Assumptions parameter_step_lost_partial.

(** 0.25 grows by 0.25 = 1 * 2^-2; 2^24 does not. *)
Example parameter_step_progress_case :
  let q x := S754_finite false 8388608 x in
  worth (increment FLOAT (q (-25)) 1) 1 (-2) /\ worth (increment FLOAT (q (-25)) (-1)) (-1) (-2) /\
  le_number 1 (last_place FLOAT (q (-25))) 1 (-2) /\ ~ le_number 1 (last_place FLOAT (q 1) - 2) (Z.abs 1) (-2) /\
  ~ le_number 1 (last_place FLOAT (q 1) - 2) (Z.abs (-1)) (-2) /\
  within (S754_zero false) (q 1) (q 2) = true /\
  parameter_operator (Some (mkHandle FLOAT 0 None None 0 1275068416 0 1048576000 0 0 None)) [0; 0; 128; 75] 1 = Done ([0; 0; 128; 75], 0).
Proof. cbv zeta. repeat split; try (vm_compute; reflexivity); unfold le_number; cbn; lia. Qed.

(** * C182: steps of at least a unit in the last place of both limits go through growing values within the limits and
      then round to the other limit. *)
Theorem parameter_step_wraps : forall h m d lo hi v s b j P, limits_elsewhere [h] -> INT_MIN <= d <= INT_MAX ->
  flimit m (pmin h) (minv h) (ptype_of h) lo -> flimit m (pmax h) (maxv h) (ptype_of h) hi -> finite lo -> finite hi -> within lo v hi = true ->
  fholds m (pointer h) (ptype_of h) v -> union_fholds (step h) (ptype_of h) s -> finite s ->
  worth (increment (ptype_of h) s d) b j -> last_place (ptype_of h) lo <= P -> last_place (ptype_of h) hi <= P ->
  (0 < d -> le_number 1 P b j ->
     exists n, after (S n) h m d lo /\
       forall i, (i < n)%nat -> exists y z, after i h m d y /\ after (S i) h m d z /\ SFltb y z = true /\ within lo z hi = true) /\
  (d < 0 -> le_number 1 P (- b) j ->
     exists n, after (S n) h m d hi /\
       forall i, (i < n)%nat -> exists y z, after i h m d y /\ after (S i) h m d z /\ SFltb z y = true /\ within lo z hi = true).
Proof. exact wraps_l. Qed.
Print Assumptions parameter_step_wraps.

(** 0.25 in [0, 1] with a step of 0.25: four steps up give 0. *)
Example parameter_step_wraps_case :
  let q x := S754_finite false 8388608 x in
  let p := mkHandle FLOAT 0 None None 0 1065353216 0 1048576000 0 0 None in
  limits_elsewhere [p] /\ last_place FLOAT (S754_zero false) <= -23 /\ last_place FLOAT (q (-23)) <= -23 /\
  le_number 1 (-23) 1 (-2) /\ operations 3 p [0; 0; 128; 62] 1 = Done [0; 0; 128; 63] /\
  operations 4 p [0; 0; 128; 62] 1 = Done [0; 0; 0; 0] /\ operations 2 p [0; 0; 128; 62] (-1) = Done [0; 0; 128; 63].
Proof.
  cbv zeta. split. { intros i j h h' q Hi _ E. destruct i as [|[|i]]; try discriminate Hi. injection Hi as <-. destruct E as [E|E]; discriminate E. }
  split; [cbn; lia|]. split; [cbn; lia|]. split; [unfold le_number; cbn; lia|]. repeat split; vm_compute; reflexivity.
Qed.
