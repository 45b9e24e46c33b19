(** Histories of the wear leveled memory with power failures that may damage markers. *)
From Verif Require Import Base WearModel WearSystem WearCutSpec.

(** A device that loses power having stored [g] in the block and [mk] in its marker. *)
Definition cut (g : list Z) (mk : Z) : callbacks device :=
  mkCb dev_rd
    (fun d b _ _ => do ms <- zset (markers d) b mk; do bs <- zset (blocks d) b g; Done (mkDev ms bs (b :: written d), 0))
    dev_rm.

Definition kexec (N : Z) (s : wsys) (o : kop) : outcome wsys :=
  let (d, w) := s in
  match o with
  | KWrite x => do (d', w', r) <- wl_write good d w x; Done (d', w')
  | KRestart => do w' <- wl_init good d N; Done (d, w')
  | KCut x g mk => do (d', _, _) <- wl_write (cut g mk) d w x; do w' <- wl_init good d' N; Done (d', w')
  end.

Fixpoint krun (N : Z) (s : wsys) (h : list kop) : outcome wsys :=
  match h with
  | [] => Done s
  | o :: h' => do s' <- kexec N s o; krun N s' h'
  end.

(** Initialisation, a history, and a read of [B] bytes. *)
Definition kread (B N : Z) (d : device) (h : list kop) : outcome (Z * list Z) :=
  do s <- wstart N d; do (d', w) <- krun N s h; wl_read good d' w B.
