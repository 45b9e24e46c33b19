(** Properties C01-C05: the circular buffer used from one thread. *)
From Verif Require Import Base CbufModel CbufSpec CbufSystem CbufProofs.

(** C01: single-element operations are a bounded FIFO of capacity n-1. *)
Theorem cbuf_single_ops_fifo : forall (A : Type) (region : list A) (ops : list (op A)),
  1 <= zlen region <= INT_MAX -> forallb single ops = true ->
  exists c0 c', circular_buf_init region (zlen region) = Some c0 /\
    cbuf_run c0 ops = Done (c', fifo_run (zlen region - 1) [] ops).
Proof. exact @single_ops_fifo_l. Qed.
Print Assumptions cbuf_single_ops_fifo.

(** The hypotheses hold for a region of 3 cells; full, wrap-around and empty occur. *)
Example cbuf_single_ops_fifo_example :
  (1 <= zlen [7; 7; 7] <= INT_MAX) /\
  fifo_run (zlen [7; 7; 7] - 1) [] [Putc 1; Putc 2; Putc 3; IsFull; Getc; Putc 4; Getc; Getc; Getc; IsEmpty; Capacity]
  = [(0, []); (0, []); (-1, []); (1, []); (0, [1]); (0, []); (0, [2]); (0, [4]); (-1, []); (1, []); (2, [])].
Proof. split; [split; discriminate|reflexivity]. Qed.

(** A region of size 0 is rejected. *)
Theorem cbuf_init_rejects_empty : forall (A : Type) (region : list A) (n : Z),
  n <= 0 -> circular_buf_init region n = None.
Proof.
  intros A region n H. unfold circular_buf_init.
  destruct (Z.leb_spec n 0); [reflexivity|lia].
Qed.
Print Assumptions cbuf_init_rejects_empty.

(** C02, C03, C04: in a history of all calls that avoids the three defects below, every
    result is that of the bounded FIFO.  Missing for the full claims: the excluded
    calls ([sane] in CbufSpec), whose exact behaviour is given below. *)
Theorem cbuf_history_fifo_partial : forall (A : Type) (region : list A) (ops : list (op A)),
  1 <= zlen region <= INT_MAX -> all_sane (zlen region - 1) [] ops ->
  exists c0 c', circular_buf_init region (zlen region) = Some c0 /\
    cbuf_run c0 ops = Done (c', fifo_run (zlen region - 1) [] ops).
Proof. exact @history_fifo_l. Qed.
Print Assumptions cbuf_history_fifo_partial.

Example cbuf_history_fifo_example :
  let ops := [Puts [1; 2; 3; 4; 5] 5; Gets 2; Puts [5; 6; 7] 1; Size; Peek 2; Drop 1; Gets (-1)] in
  all_sane (zlen [0; 0; 0; 0] - 1) [] ops /\
  fifo_run (zlen [0; 0; 0; 0] - 1) [] ops
  = [(3, []); (2, [1; 2]); (1, []); (2, []); (2, [3; 5]); (1, []); (1, [5])].
Proof.
  split; [|reflexivity].
  vm_compute. repeat split; try discriminate; try (left; discriminate);
  right; repeat split; discriminate.
Qed.

(** C02 refuted: a full buffer reports one element too many. *)
Theorem cbuf_size_refuted :
  exists (region : list Z) (ops : list (op Z)) c0 c' outs,
    circular_buf_init region (zlen region) = Some c0 /\ Forall legal ops /\
    cbuf_run c0 ops = Done (c', outs) /\
    fifo_run (zlen region - 1) [] ops = [(0, []); (0, []); (2, [])] /\
    outs = [(0, []); (0, []); (3, [])].
Proof.
  exists [0; 0; 0], [Putc 1; Putc 2; Size]. do 3 eexists.
  split; [reflexivity|]. split; [repeat constructor|].
  split; [vm_compute; reflexivity|]. split; reflexivity.
Qed.
Print Assumptions cbuf_size_refuted.

(** C02, exact value: the number of stored elements, except that a full buffer reports
    one more. *)
Theorem cbuf_size_exact_partial : forall (A : Type) (region : list A) (ops : list (op A)),
  1 <= zlen region <= INT_MAX -> all_sane (zlen region - 1) [] ops ->
  let cap := zlen region - 1 in
  let q := fifo_state cap [] ops in
  exists c0 c', circular_buf_init region (zlen region) = Some c0 /\
    cbuf_run c0 (ops ++ [Size]) =
      Done (c', fifo_run cap [] ops ++ [(if stored q =? cap then cap + 1 else stored q, [])]).
Proof. exact @size_exact_l. Qed.
Print Assumptions cbuf_size_exact_partial.

(** C03 refuted: with two cells free, putting three elements "succeeds" and the buffer
    loses everything (the next getc finds it empty). *)
Theorem cbuf_puts_refuted :
  exists (region : list Z) (ops : list (op Z)) c0 c' outs,
    circular_buf_init region (zlen region) = Some c0 /\ Forall legal ops /\
    cbuf_run c0 ops = Done (c', outs) /\
    fifo_run (zlen region - 1) [] ops
      = [(3, []); (2, [1; 2]); (2, []); (0, [3])] /\
    outs = [(3, []); (2, [1; 2]); (3, []); (-1, [])].
Proof.
  exists [0; 0; 0; 0], [Puts [1; 2; 3] 3; Gets 2; Puts [4; 5; 6] 3; Getc]. do 3 eexists.
  split; [reflexivity|].
  split; [repeat constructor; vm_compute; discriminate|].
  split; [vm_compute; reflexivity|]. split; reflexivity.
Qed.
Print Assumptions cbuf_puts_refuted.

(** C03, exact: puts appends what fits, or else it was asked to store exactly one
    element too many, claims to have stored them all and the buffer becomes empty. *)
Theorem cbuf_puts_exact_partial : forall (A : Type) (region : list A) ops (data : list A) len,
  1 <= zlen region <= INT_MAX -> all_sane (zlen region - 1) [] ops ->
  let cap := zlen region - 1 in
  let q := fifo_state cap [] ops in
  0 <= len < 2 ^ 64 -> len <= zlen data ->
  exists c0 r q', circular_buf_init region (zlen region) = Some c0 /\
    ((r = Z.min len (cap - stored q) /\ q' = q ++ firstn (Z.to_nat r) data) \/
     (stored q < cap /\ len = cap - stored q + 1 /\ r = len /\ q' = [])) /\
    forall ops2, all_sane cap q' ops2 -> exists c',
       cbuf_run c0 (ops ++ Puts data len :: ops2) =
        Done (c', fifo_run cap [] ops ++ (r, []) :: fifo_run cap q' ops2).
Proof. exact @puts_one_too_many_l. Qed.
Print Assumptions cbuf_puts_exact_partial.

(** C04 refuted: reading everything from a full buffer delivers one stale element and
    consumes nothing. *)
Theorem cbuf_gets_refuted :
  exists (region : list Z) (ops : list (op Z)) c0 c' outs,
    circular_buf_init region (zlen region) = Some c0 /\ Forall legal ops /\
    cbuf_run c0 ops = Done (c', outs) /\
    fifo_run (zlen region - 1) [] ops
      = [(2, []); (2, [1; 2]); (1, [])] /\
    outs = [(2, []); (3, [1; 2; 9]); (0, [])].
Proof.
  exists [9; 9; 9], [Puts [1; 2] 2; Gets 3; IsEmpty]. do 3 eexists.
  split; [reflexivity|].
  split; [repeat constructor; vm_compute; discriminate|].
  split; [vm_compute; reflexivity|]. split; reflexivity.
Qed.
Print Assumptions cbuf_gets_refuted.

(** C04, exact behaviour of the excluded call: on a full buffer a read of more than
    the capacity delivers the content plus one stale element [x] and removes nothing. *)
Theorem cbuf_gets_full_exact_partial : forall (A : Type) (region : list A) ops len ops2,
  1 <= zlen region <= INT_MAX -> all_sane (zlen region - 1) [] ops ->
  let cap := zlen region - 1 in
  let q := fifo_state cap [] ops in
  stored q = cap -> INT_MIN <= len <= INT_MAX -> len < 0 \/ cap < len ->
  all_sane cap q ops2 ->
  exists c0 c' x, circular_buf_init region (zlen region) = Some c0 /\
    cbuf_run c0 (ops ++ Gets len :: ops2) =
      Done (c', fifo_run cap [] ops ++ (cap + 1, q ++ [x]) :: fifo_run cap q ops2).
Proof. exact @gets_full_exact_l. Qed.
Print Assumptions cbuf_gets_full_exact_partial.

(** C05: no history, however it uses the API, leaves the region ([Done] excludes the
    out-of-bounds outcome [Undef]) or fails to terminate, and no call delivers more
    elements than requested or than the region holds. *)
Theorem cbuf_memory_safe : forall (A : Type) (region : list A) (ops : list (op A)),
  1 <= zlen region <= INT_MAX -> Forall legal ops ->
  exists c0 c' outs, circular_buf_init region (zlen region) = Some c0 /\
    cbuf_run c0 ops = Done (c', outs) /\
    0 <= head c' < zlen region /\ 0 <= tail c' < zlen region /\ zlen (buffer c') = zlen region /\
    Forall2 (fun o r => zlen (snd r) <= delivery_limit (zlen region) o) ops outs.
Proof. exact @memory_safe_l. Qed.
Print Assumptions cbuf_memory_safe.

(** The defective calls are legal, so C05 covers them. *)
Example cbuf_memory_safe_example :
  Forall legal [Puts [1; 2; 3] 3; Gets 2; Puts [4; 5; 6] 3; Gets (-1); Size; Drop 7].
Proof. repeat constructor; vm_compute; discriminate. Qed.
