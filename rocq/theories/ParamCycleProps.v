(** Integer parameters stepped again and again: theorems for C184 and C185. *)
From Verif Require Import Base BaseLemmas ParameterModel ParameterSpec ParameterProps ParamCycleSpec ParamCycleProofs.

(** * C184: the value after any number of equal steps. *)
Theorem parameter_cycle : forall n h m d lo hi v s, limits_elsewhere [h] ->
  limit m (pmin h) (minv h) (ptype_of h) lo -> limit m (pmax h) (maxv h) (ptype_of h) hi ->
  holds m (pointer h) (ptype_of h) v -> union_holds (step h) (ptype_of h) s -> computable (ptype_of h) (s * d) ->
  lo <= v <= hi -> 0 < s ->
  (0 < d -> representable (ptype_of h) (hi + s * d) ->
     exists m', operations n h m d = Done m' /\ holds m' (pointer h) (ptype_of h) (up_cycle lo hi (s * d) v (Z.of_nat n))) /\
  (d < 0 -> representable (ptype_of h) (lo + s * d) ->
     exists m', operations n h m d = Done m' /\ holds m' (pointer h) (ptype_of h) (down_cycle lo hi (s * - d) v (Z.of_nat n))).
Proof. exact cycle_l. Qed.
Print Assumptions parameter_cycle.

(** A 16 bit parameter in [-10, 100], the upper limit in memory, stepping 3 by 3: from -3 there are 34 steps to 99,
    the next one goes to -10, and every 37 steps it is -10 again. *)
Example parameter_cycle_case :
  limits_elsewhere [p16] /\ limit m0 (pmin p16) (minv p16) INT16 (-10) /\ limit m0 (pmax p16) (maxv p16) INT16 100 /\
  holds m0 (pointer p16) INT16 (-3) /\ union_holds (step p16) INT16 3 /\ computable INT16 (3 * 1) /\ computable INT16 (3 * -1) /\
  representable INT16 (100 + 3 * 1) /\ representable INT16 (-10 + 3 * -1) /\
  up_cycle (-10) 100 3 (-3) 34 = 99 /\ up_cycle (-10) 100 3 (-3) 35 = -10 /\ up_cycle (-10) 100 3 (-3) 71 = 98 /\
  up_cycle (-10) 100 3 (-3) 72 = -10 /\ down_cycle (-10) 100 3 (-3) 2 = -9 /\ down_cycle (-10) 100 3 (-3) 3 = 100 /\
  operations 35 p16 m0 1 = Done [200; 0; 246; 255; 0; 0; 0; 64; 100; 0] /\
  operations 3 p16 m0 (-1) = Done [200; 0; 100; 0; 0; 0; 0; 64; 100; 0].
Proof.
  split. { intros i j h h' q Hi Hj E. destruct i as [|[|i]]; try discriminate Hi. destruct j as [|[|j]]; try discriminate Hj.
    injection Hi as <-. injection Hj as <-. destruct E as [E|E]; [discriminate E|]. injection E as <-. vm_compute. right. discriminate. }
  split; [by_union|]. split; [by_holds|]. split; [by_holds|]. split; [by_union|].
  do 4 (split; [vm_compute; split; discriminate|]). repeat split; vm_compute; reflexivity.
Qed.

(** * C185: a step and the opposite step leave the value as it was.  Refuted: 9 in [0, 10] with steps of 2 goes up to 0
      and down to 10. *)
Theorem parameter_there_and_back_refuted : exists h m d lo hi v s m1 m2, limits_elsewhere [h] /\
  limit m (pmin h) (minv h) (ptype_of h) lo /\ limit m (pmax h) (maxv h) (ptype_of h) hi /\
  holds m (pointer h) (ptype_of h) v /\ union_holds (step h) (ptype_of h) s /\ lo <= v <= hi /\
  0 < s /\ 0 < d /\ representable (ptype_of h) (hi + s * d) /\ representable (ptype_of h) (lo - s * d) /\
  parameter_operator (Some h) m d = Done (m1, 0) /\ parameter_operator (Some h) m1 (- d) = Done (m2, 0) /\
  ~ holds m2 (pointer h) (ptype_of h) v.
Proof.
  exists (mkHandle INT16 0 None None 0 10 5 2 0 0 None), [9; 0], 1, 0, 10, 9, 2, [0; 0], [10; 0].
  split. { intros i j h h' q Hi Hj E. destruct i as [|[|i]]; try discriminate Hi. injection Hi as <-. destruct E as [E|E]; discriminate E. }
  split; [by_union|]. split; [by_union|]. split; [by_holds|]. split; [by_union|]. split; [lia|]. split; [lia|]. split; [lia|].
  do 2 (split; [vm_compute; split; discriminate|]). split; [vm_compute; reflexivity|]. split; [vm_compute; reflexivity|].
  intros (_ & _ & _ & H). specialize (H 0). assert (A : 0 <= 0 < 2) by lia. specialize (H A). vm_compute in H. discriminate H.
Qed.
Print Assumptions parameter_there_and_back_refuted.

(** Missing: values from which the step goes round; those end at the upper limit. *)
Theorem parameter_there_and_back_partial : forall h m d lo hi v s, limits_elsewhere [h] ->
  limit m (pmin h) (minv h) (ptype_of h) lo -> limit m (pmax h) (maxv h) (ptype_of h) hi ->
  holds m (pointer h) (ptype_of h) v -> union_holds (step h) (ptype_of h) s -> computable (ptype_of h) (s * d) -> computable (ptype_of h) (s * - d) ->
  lo <= v <= hi -> 0 < s -> 0 < d -> representable (ptype_of h) (hi + s * d) -> representable (ptype_of h) (lo - s * d) ->
  exists m1 m2, parameter_operator (Some h) m d = Done (m1, 0) /\ parameter_operator (Some h) m1 (- d) = Done (m2, 0) /\
    holds m2 (pointer h) (ptype_of h) (if v + s * d <=? hi then v else hi).
Proof. exact back_l. Qed.
Print Assumptions parameter_there_and_back_partial.

Example parameter_there_and_back_case :
  representable INT16 (100 + 3 * 2) /\ representable INT16 (-10 - 3 * 2) /\ (-3 + 3 * 2 <=? 100) = true /\
  parameter_operator (Some p16) m0 2 = Done ([200; 0; 3; 0; 0; 0; 0; 64; 100; 0], 0) /\
  parameter_operator (Some p16) [200; 0; 3; 0; 0; 0; 0; 64; 100; 0] (-2) = Done (m0, 0).
Proof. do 2 (split; [vm_compute; split; discriminate|]). repeat split; vm_compute; reflexivity. Qed.
