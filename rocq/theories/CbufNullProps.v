(** Circular buffer calls with NULL pointers and on structures that were not initialised. *)
From Verif Require Import Base CbufModel CbufSpec CbufSystem CbufNullModel CbufNullSpec CbufNullSystem CbufNullProofs.

(** C170: with a NULL [cbuf] every call answers the constant of [null_answer], and an initialisation with a NULL buffer or a size of 0 answers 1 and changes nothing, whatever the structure. *)
Theorem circbuf_null_pointer : forall (A : Type),
  (forall h : list (nop A), (forall o, In o h -> starts o = false) -> n_run None h = Done (None, map null_reply h)) /\
  (forall (p : option (raw A)) b n, starts (Init b n) = false -> n_step p (Init b n) = Done (p, (1, []))).
Proof. intros A. split; [exact null_run_l|exact bad_init_l]. Qed.
Print Assumptions circbuf_null_pointer.

(** C171: from a zeroed structure, any history of calls and initialisations is one of [life]: constant answers until the first successful initialisation, then those of the buffer of [CbufModel] made by the last successful one. *)
Theorem circbuf_lifecycle_partial : forall (A : Type) (h : list (nop A)),
  (do (_, rs) <- n_run (Some raw_zero) h; Done rs) = life None h /\
  (careful h -> (forall o, In o h -> starts o = false) -> exists rs, life None h = Done rs).
Proof. intros A h. split; [exact (life_l h (Some raw_zero) None eq_refl)|exact (careful_l h)]. Qed.
Print Assumptions circbuf_lifecycle_partial.

(** The rest of C171 fails: the bulk readers, the size and the full test divide by a [bufsize] of 0, the readers before they look at the buffer pointer. *)
Theorem circbuf_uninitialised_refuted :
  exists o : op Z, o = Gets 1 /\ n_step (Some raw_zero) (Call o) = Undef.
Proof. exists (Gets 1). split; reflexivity. Qed.
Print Assumptions circbuf_uninitialised_refuted.

(** Concrete cases. *)
Example null_history :
  let h := [Call (Putc 5); Init None 4; Init (Some [0; 0]) 0; Call (Gets 3); Call Size; Call IsEmpty; Call IsFull] in
  (forall o, In o h -> starts o = false) /\
  n_run (A:=Z) None h = Done (None, [(-1, []); (1, []); (1, []); (-1, []); (0, []); (1, []); (0, [])]).
Proof.
  split; [|reflexivity]. intros o H. repeat (destruct H as [<-|H]; [reflexivity|]). destruct H.
Qed.

Example life_history :
  let h := [Call (Putc 5); Init None 4; Call Getc; Init (Some [9; 9; 9]) 3; Call (Putc 5); Call (Gets 2); Init (Some [7; 7; 7]) 0; Call (Putc 6); Init (Some [8; 8]) 2; Call IsEmpty] in
  careful h /\
  life (A:=Z) None h = Done [(-1, []); (1, []); (-1, []); (0, []); (0, []); (1, [5]); (1, []); (0, []); (0, []); (1, [])].
Proof. split; [repeat split; discriminate|reflexivity]. Qed.

Example careful_history :
  let h := [Call (Putc 5); Init None 4; Call Getc; Call (Puts [1; 2] 2); Call Reset; Call Capacity] in
  careful h /\ (forall o, In o h -> starts o = false) /\
  life (A:=Z) None h = Done [(-1, []); (1, []); (-1, []); (-1, []); (0, []); (2 ^ 64 - 1, [])].
Proof.
  split; [repeat split; discriminate|]. split; [|reflexivity]. intros o H. repeat (destruct H as [<-|H]; [reflexivity|]). destruct H.
Qed.
