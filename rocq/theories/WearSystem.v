(** The wear leveled memory on a device of [N] blocks of [B] bytes. *)
From Verif Require Import Base WearModel WearSpec.

(** [written] lists the blocks written so far, newest first. *)
Record device := mkDev { markers : list Z; blocks : list (list Z); written : list Z }.

Definition dev_rd (d : device) (b len : Z) : outcome (Z * list Z) :=
  do x <- zget (blocks d) b; do y <- zread x 0 len; Done (0, y).

Definition dev_wr (d : device) (b m : Z) (x : list Z) : outcome (device * Z) :=
  do ms <- zset (markers d) b m;
  do old <- zget (blocks d) b;
  do new <- zwrite old 0 x;
  do bs <- zset (blocks d) b new;
  Done (mkDev ms bs (b :: written d), 0).

Definition dev_rm (d : device) (b : Z) : outcome (Z * Z) :=
  do m <- zget (markers d) b; Done (0, m).

(** A working device; one that stores [g] and loses power; one that refuses the write. *)
Definition good : callbacks device := mkCb dev_rd dev_wr dev_rm.

Definition torn (g : list Z) : callbacks device :=
  mkCb dev_rd (fun d b m x => do bs <- zset (blocks d) b g; Done (mkDev (markers d) bs (b :: written d), 0)) dev_rm.

Definition refusing (code : Z) : callbacks device :=
  mkCb dev_rd (fun d b m x => Done (d, code)) dev_rm.

(** A device whose markers cannot be read from block [k] on. *)
Definition unreadable (k code : Z) : callbacks device :=
  mkCb dev_rd dev_wr (fun d b => if k <=? b then Done (code, 0) else dev_rm d b).

Definition wsys := (device * wlm)%type.

Definition wexec (N : Z) (s : wsys) (o : wop) : outcome wsys :=
  let (d, w) := s in
  match o with
  | WWrite x => do (d', w', r) <- wl_write good d w x; Done (d', w')
  | WRestart => do w' <- wl_init good d N; Done (d, w')
  | WTorn x g => do (d', _, _) <- wl_write (torn g) d w x; do w' <- wl_init good d' N; Done (d', w')
  end.

Fixpoint wrun (N : Z) (s : wsys) (h : list wop) : outcome wsys :=
  match h with
  | [] => Done s
  | o :: h' => do s' <- wexec N s o; wrun N s' h'
  end.

Definition wstart (N : Z) (d : device) : outcome wsys := do w <- wl_init good d N; Done (d, w).

(** Initialisation, a history, and a read of [B] bytes. *)
Definition wread (B N : Z) (d : device) (h : list wop) : outcome (Z * list Z) :=
  do s <- wstart N d; do (d', w) <- wrun N s h; wl_read good d' w B.

Definition dev_ok (N B : Z) (d : device) : Prop :=
  zlen (markers d) = N /\ Forall (fun m => 0 <= m < 256) (markers d) /\
  zlen (blocks d) = N /\ Forall (fun b => zlen b = B) (blocks d).

(** All blocks carry the same marker, as on an erased device. *)
Definition erased (c : Z) (d : device) : Prop := Forall (fun m => m = c) (markers d).

(** The operations of the exact description, with the result of wearleveling_write. *)
Definition xexec (N : Z) (s : wsys) (o : xop) : outcome (wsys * option Z) :=
  let (d, w) := s in
  match o with
  | XWrite x => do (d', w', r) <- wl_write good d w x; Done ((d', w'), Some r)
  | XRefused x e => do (d', w', r) <- wl_write (refusing e) d w x; Done ((d', w'), Some r)
  | XRestart => do w' <- wl_init good d N; Done ((d, w'), None)
  | XTorn x g => do (d', _, _) <- wl_write (torn g) d w x; do w' <- wl_init good d' N; Done ((d', w'), None)
  end.

Fixpoint xrun (N : Z) (s : wsys) (h : list xop) : outcome (wsys * list (option Z)) :=
  match h with
  | [] => Done (s, [])
  | o :: h' => do (s1, r) <- xexec N s o; do (s', rs) <- xrun N s1 h'; Done (s', r :: rs)
  end.
