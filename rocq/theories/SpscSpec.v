(** What lock freedom for one producer and one consumer means. *)
From Verif Require Import Base CbufSpec.

Section SpscSpec.
Context {A : Type}.

Definition is_put (e : op A * out A) : bool := match fst e with Putc _ => true | _ => false end.
Definition is_get (e : op A * out A) : bool := match fst e with Getc => true | _ => false end.

(** Values accepted by successful putc calls / delivered by successful getc calls. *)
Definition accepted (h : list (op A * out A)) : list A :=
  flat_map (fun e => match e with (Putc a, (0, _)) => [a] | _ => [] end) h.
Definition delivered (h : list (op A * out A)) : list A :=
  flat_map (fun e => match e with (Getc, (0, d)) => d | _ => [] end) h.

(** [l] is a legal sequential history of the FIFO of capacity [cap]. *)
Definition legal_history (cap : Z) (l : list (op A * out A)) : Prop :=
  fifo_run cap [] (map fst l) = map snd l.

(** [l] consists of calls of putc and getc only. *)
Definition only_putc_getc (l : list (op A * out A)) : Prop :=
  Forall (fun e => is_put e = true \/ is_get e = true) l.

(** Some total order of these calls, and of no others, is a legal FIFO history that contains the returned
    calls of each thread in program order, plus at most one call of the consumer that
    already took effect but has not returned yet. *)
Definition linearizable (cap : Z) (prod cons : list (op A * out A)) : Prop :=
  exists l extra, legal_history cap l /\ only_putc_getc l /\
    filter is_put l = prod /\ filter is_get l = cons ++ extra /\ (length extra <= 1)%nat.

End SpscSpec.
