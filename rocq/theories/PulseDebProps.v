(** Property C198: a pulse counter counts the trailing edges a debounce filter reports for the
    same samples. *)
From Verif Require Import Base DebounceModel DebounceSystem PulseModel PulseSystem PulseDebSystem PulseDebProofs.

(** Both are started at the word [v] and get the same words and debounce arguments (one per
    call); the filter cells of the pulse counter are zero (see C22).  A call of pulse_filter
    returns 1 iff the mask of debounce_filter shows an input that has just gone to the level
    ending a pulse; levels and readings agree; the counts are the numbers of these reports. *)
Theorem pulse_counts_debounced : forall W high f p v h, length (debounce_count f) = W -> mem_ok W p ->
  Forall (fun c => c = 0) (filters p) -> 0 <= v < 2 ^ Z.of_nat W -> words_ok W h ->
  exists f0 p0 f' rs p' cs,
    dstart W f v = Done f0 /\ pulse_filter_init W p (type_of high) v = Done p0 /\
    dreports W f0 h = Done (f', rs) /\ panswers W p0 h = Done (p', cs) /\
    cs = map (fun r => b2z (negb (pulse_ends high r =? 0))) rs /\
    forall i, 0 <= i < Z.of_nat W ->
      pulse_level W p' i = debounce_read W f' i /\
      pulse_count W p' i = Done (swrap (Z.of_nat W) (pulses_of high i rs)).
Proof. exact pulse_deb_l. Qed.
Print Assumptions pulse_counts_debounced.

(** Input 0 bounces and ends a high pulse, input 2 ends one that the start made. *)
Example pulse_counts_debounced_case :
  let f := mkDf 77 12 (repeat 5 32) in
  let p := mkPf COUNT_LOW_PULSE 3 (repeat 0 32) (repeat 9 32) in
  let h := [(1, 1); (1, 1); (0, 1); (1, 1); (0, 1); (0, 1)] in
  words_ok 32 h /\
  (do f0 <- dstart 32 f 4; do (_, rs) <- dreports 32 f0 h;
   Done (map (pulse_ends true) rs, map (fun i => pulses_of true i rs) [0; 1; 2])) =
    Done ([0; 4; 0; 0; 0; 1], [1; 0; 1]) /\
  (do p0 <- pulse_filter_init 32 p (type_of true) 4; do (p', cs) <- panswers 32 p0 h;
   do c0 <- pulse_count 32 p' 0; do c2 <- pulse_count 32 p' 2; Done (cs, c0, c2)) =
    Done ([0; 1; 0; 0; 0; 1], 1, 1).
Proof. cbv zeta. split; [repeat constructor; cbn; lia|]. vm_compute. auto. Qed.
