(** The accuracy of the controller configured with float, for any gains. *)
From Verif Require Import Base Float FloatSpec PidSpec PidSystem PidFltModel PidFltSpec PidFltSystem PidFltErrSpec PidFltErrProofs.
From Coq Require Import Floats.SpecFloat.

(** C211. *)
Theorem pid_float_accurate : forall N D, (0 < N)%nat -> (0 < D)%nat -> forall k, -149 <= k <= 0 -> forall B, 0 <= B -> 4 * B < 2 ^ 24 ->
  forall H h P I K q, -149 <= k - q -> Z.of_nat N * (2 * B) < 2 ^ 24 ->
  Forall2 (alike k) H h -> Forall (within B) h -> scaled (gain_p h) P q -> scaled (gain_i h) I q -> scaled (gain_d h) K q ->
  let e := P * error h in let i := I * sum (firstn N (contributions N h)) in let d := K * difference D h in
  Z.abs e + Z.abs i + Z.abs d < 2 ^ (126 - (k - q)) ->
  exists f fi fd r, frun N D H = Done f /\ fpid_compute_i N f = Done fi /\ fpid_compute_d D f = Done fd /\ fpid_compute N D f = Done r /\
  exists e' i' d' r', worth (fpid_compute_p f) e' (k - q) /\ near e' e /\ worth fi i' (k - q) /\ near i' i /\ worth fd d' (k - q) /\ near d' d /\
    worth r r' (k - q) /\ 2 ^ 24 * Z.abs (r' - (e + i + d)) <= 4 * (Z.abs e + Z.abs i + Z.abs d).
Proof. exact error_l. Qed.
Print Assumptions pid_float_accurate.

(** Gains of one tenth, as near as a float gets to it, readings in halves: every product is rounded, and the output is not exact. *)
Definition tenth : spec_float := S754_finite false 13421773 (-27).
Definition half : spec_float := S754_finite false 8388608 (-24).
Definition pe_float : list fop := [FInput (F32 (of_int 5)); FInput half; FInput (F32 (of_int 2)); FSetpoint (F32 (of_int 3)); FTune tenth tenth tenth].
Definition pe_int : list pop := [Input 10; Input 1; Input 4; Setpoint 6; Tune tenth tenth tenth].

Example pid_float_accurate_applies :
  Forall2 (alike (-1)) pe_float pe_int /\ Forall (within 10) pe_int /\ scaled (gain_p pe_int) 13421773 27 /\ scaled (gain_i pe_int) 13421773 27 /\
  scaled (gain_d pe_int) 13421773 27 /\ error pe_int = -4 /\ sum (firstn 4 (contributions 4 pe_int)) = 3 /\ difference 3 pe_int = -6 /\
  13421773 * 4 + 13421773 * 3 + 13421773 * 6 < 2 ^ (126 - (-1 - 27)) /\
  (do f <- frun 4 3 pe_float; fpid_compute 4 3 f) = Done (S754_finite true 11744052 (-25)) /\
  worth (S754_finite true 11744052 (-25)) (-93952416) (-1 - 27) /\ 13421773 * -4 + 13421773 * 3 + 13421773 * -6 = -93952411.
Proof.
  split; [repeat (apply Forall2_cons || apply Forall2_nil); cbn; repeat split; try lia; vm_compute; reflexivity|].
  split; [repeat (apply Forall_cons || apply Forall_nil); cbn; lia || exact Logic.I|].
  assert (S : scaled tenth 13421773 27) by (split; [reflexivity|]; split; [reflexivity|lia]).
  split; [exact S|]. split; [exact S|]. split; [exact S|]. repeat split; vm_compute; reflexivity.
Qed.
