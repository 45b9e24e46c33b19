(** Property C127: the circular buffer in every history of calls from one thread. *)
From Verif Require Import Base CbufModel CbufSpec CbufSystem CbufProofs CbufExactProofs.

(** C127: what every call returns, in every history, also after one of the calls that C02,
    C03 and C04 except. *)
Theorem cbuf_history_exact : forall (A : Type) (region : list A) (ops : list (op A)),
  1 <= zlen region <= INT_MAX -> Forall legal ops ->
  exists c0 c', circular_buf_init region (zlen region) = Some c0 /\
    cbuf_run c0 ops = Done (c', exact_run (mkRing 0 [] region) ops).
Proof. exact @history_exact_l. Qed.
Print Assumptions cbuf_history_exact.

(** All three defects in one history: size and gets of a full buffer, and a puts of one
    element more than fits, after which the buffer looks empty; the element 4 it wrote
    appears in the last call. *)
Example cbuf_history_exact_example :
  let ops := [Puts [1; 2; 3] 3; Size; Gets (-1); Gets 2; Puts [4; 5; 6] 3; IsEmpty; Peek 4; Getc; Reset;
              Putc 10; Putc 11; Putc 12; Gets 4] in
  Forall legal ops /\
  exact_run (mkRing 0 [] [0; 0; 0; 0]) ops =
    [(3, []); (4, []); (4, [1; 2; 3; 0]); (2, [1; 2]); (3, []); (1, []); (0, []); (-1, []); (0, []);
     (0, []); (0, []); (0, []); (4, [10; 11; 12; 4])].
Proof. split; [repeat constructor; vm_compute; discriminate|vm_compute; reflexivity]. Qed.

(** In histories that avoid the defects this is the bounded FIFO. *)
Theorem cbuf_exact_is_fifo : forall (A : Type) (region : list A) (ops : list (op A)),
  1 <= zlen region <= INT_MAX -> Forall legal ops -> all_sane (zlen region - 1) [] ops ->
  exact_run (mkRing 0 [] region) ops = fifo_run (zlen region - 1) [] ops.
Proof.
  intros A region ops Hn Hl Hs.
  destruct (history_exact_l region ops Hn Hl) as (c0 & c1 & E0 & E1).
  destruct (history_fifo_l region ops Hn Hs) as (c0' & c2 & E0' & E2). congruence.
Qed.
Print Assumptions cbuf_exact_is_fifo.
