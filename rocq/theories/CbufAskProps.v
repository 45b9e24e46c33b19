(** Property C208: what the circular buffer answers to its producer or consumer holds for the thread's next calls. *)
From Verif Require Import Base CbufModel CbufSpec SpscModel SpscSpec ObserverModel ObserverSpec ObserverProofs CbufAskSpec CbufAskProofs.

(** C208, consumer: the query begins at [s], between two calls of getc; the producer runs through [l] meanwhile and the
    loads happen at any of these moments; then both run through [l2].  After "not empty" the next getc succeeds, after a
    size [r] the next [r] do (bufsize - 1 if [r] is bufsize, the answer of a full buffer, C02). *)
Theorem cbuf_ask_getc : forall (A : Type) (region : list A) c0 s l, 1 <= zlen region <= INT_MAX ->
  circular_buf_init region (zlen region) = Some c0 -> reachable c0 s -> cp s = CIdle -> run_of (@pstep A) s l ->
  forall l2 z, run_of both (last l s) l2 -> In z (last l s :: l2) ->
  (forall x y, In x (s :: l) -> In y (s :: l) ->
     observed_empty (head (sh x)) (tail (sh y)) = false -> next_succeed 1 (cret s) (cret z)) /\
  (forall a b c d, In a (s :: l) -> In b (s :: l) -> In c (s :: l) -> In d (s :: l) ->
     let r := observed_size (zlen region) (tail (sh a)) (head (sh b)) (head (sh c)) (tail (sh d)) in
     next_succeed (Z.min r (zlen region - 1)) (cret s) (cret z)).
Proof.
  intros A region c0 s l Hn Hi R Hc Hr l2 z Hr2 Hz. assert (HN : 1 <= zlen region < 2 ^ 64) by (unfold INT_MAX in Hn; lia). split.
  - intros x y Hx Hy E. apply (getc_l region c0 HN Hi s l l2 z 1 R Hc Hr Hr2 Hz). exists x. split; [exact Hx|].
    destruct (consumer_l region c0 HN Hi s l R Hr x y Hx Hy) as [F _]. rewrite F in E. apply Z.eqb_neq in E.
    assert (Rx : reachable c0 x) by (apply (run_reach c0 pstep l s); auto; now left).
    destruct (where_l region c0 HN Hi x Rx) as (_ & W & _). lia.
  - intros a b c d Ha Hb Hcc Hd r. apply (getc_l region c0 HN Hi s l l2 z _ R Hc Hr Hr2 Hz).
    destruct (consumer_size_l region c0 HN Hi s l R (proj2 Hn) Hr a b c d Ha Hb Hcc Hd) as [E|[E F]]; fold r in E;
      [exists b|exists c]; split; auto; lia.
Qed.
Print Assumptions cbuf_ask_getc.

(** C208, producer: after "not full" the next putc succeeds, after a size [r] the next bufsize - 1 - [r] do. *)
Theorem cbuf_ask_putc : forall (A : Type) (region : list A) c0 s l, 1 <= zlen region <= INT_MAX ->
  circular_buf_init region (zlen region) = Some c0 -> reachable c0 s -> pp s = PIdle -> run_of (@cstep A) s l ->
  forall l2 z, run_of both (last l s) l2 -> In z (last l s :: l2) ->
  (forall x y, In x (s :: l) -> In y (s :: l) ->
     observed_full (zlen region) (head (sh x)) (tail (sh y)) = false -> next_succeed 1 (pret s) (pret z)) /\
  (forall a b c d, In a (s :: l) -> In b (s :: l) -> In c (s :: l) -> In d (s :: l) ->
     let r := observed_size (zlen region) (tail (sh a)) (head (sh b)) (head (sh c)) (tail (sh d)) in
     next_succeed (zlen region - 1 - r) (pret s) (pret z)).
Proof.
  intros A region c0 s l Hn Hi R Hc Hr l2 z Hr2 Hz. assert (HN : 1 <= zlen region < 2 ^ 64) by (unfold INT_MAX in Hn; lia). split.
  - intros x y Hx Hy E. apply (putc_l region c0 HN Hi s l l2 z 1 R Hr Hr2 Hz). exists y. split; [exact Hy|].
    destruct (producer_l region c0 HN Hi s l R Hr x y Hx Hy) as [_ F]. rewrite F in E. apply Z.eqb_neq in E.
    assert (Ry : reachable c0 y) by (apply (run_reach c0 cstep l s); auto; now right).
    destruct (where_l region c0 HN Hi y Ry) as (_ & W & _). lia.
  - intros a b c d Ha Hb Hcc Hd r. apply (putc_l region c0 HN Hi s l l2 z _ R Hr Hr2 Hz).
    destruct (producer_size_l region c0 HN Hi s l R (proj2 Hn) Hr a b c d Ha Hb Hcc Hd) as [E|[E F]]; fold r in E;
      [exists a|exists d]; split; auto; lia.
Qed.
Print Assumptions cbuf_ask_putc.

Definition put (a : Z) : list (option Z) := repeat (Some a) 9.
Definition get : list (option Z) := repeat None 7.
Definition get_none : list (option Z) := repeat None 3.
Definition after (s : sys Z) (sched : list (option Z)) : sys Z := last (states s sched) s.
Definition start (n : nat) : sys Z := init_sys (mkCbuf (repeat 0 n) (Z.of_nat n) 0 0).

(** Four cells, one element, and the producer puts two more while the consumer asks: the answers 1, 2 and 3 are all
    possible; three calls of getc succeed, the fourth does not. *)
Example cbuf_ask_case :
  let s := after (start 4) (put 5) in let l := states s (put 6) in let z := after (last l s) (put 7 ++ get ++ get ++ get ++ get_none) in
  cp s = CIdle /\
  observed_size 4 (tail (sh s)) (head (sh s)) (head (sh s)) (tail (sh s)) = 1 /\
  observed_size 4 (tail (sh s)) (head (sh (last l s))) (head (sh s)) (tail (sh s)) = 2 /\
  cret z = [(Getc, (0, [5])); (Getc, (0, [6])); (Getc, (0, [7])); (Getc, (-1, []))].
Proof. vm_compute. auto. Qed.

(** A full buffer answers bufsize, and that many calls of getc do not succeed: the bound bufsize - 1 is needed. *)
Example cbuf_ask_full :
  let s := after (start 3) (put 5 ++ put 6) in
  observed_size 3 (tail (sh s)) (head (sh s)) (head (sh s)) (tail (sh s)) = 3 /\
  cret (after s (get ++ get ++ get_none)) = [(Getc, (0, [5])); (Getc, (0, [6])); (Getc, (-1, []))].
Proof. vm_compute. auto. Qed.
