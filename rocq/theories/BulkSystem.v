(** The two threads together. *)
From Verif Require Import Base CbufModel CbufSpec BulkModel BulkSpec.

Section BulkSystem.
Context {A : Type}.

(** A thread: its returned calls and the running one with its position, the elements the other thread had
    transferred when it began and the number of steps taken. *)
Record thread (PC : Type) := mkThread {
  returned : list (op A * out A * Z); running : option (op A * PC); began : Z; steps : Z }.
Arguments mkThread {PC}. Arguments returned {PC}. Arguments running {PC}. Arguments began {PC}. Arguments steps {PC}.

Record sys := mkSys { sh : cbuf A; producer : thread (ppc A); consumer : thread (cpc A); bad : bool }.

(** The calls the producer may make: putc, and puts of an array no longer than the room there is. *)
Definition room (c : cbuf A) : Z := (tail c - head c - 1) mod bufsize c.
Definition pcall (c : cbuf A) (o : op A) (pc : ppc A) : Prop :=
  match o with
  | Putc a => pc = PFull0 a
  | Puts data len => pc = UHead0 data len /\ 0 <= len <= room c /\ len <= zlen data
  | _ => False
  end.

(** The calls the consumer may make: getc, and reads of no more than the capacity (circular_buffer.c:202-212). *)
Definition ccall (c : cbuf A) (o : op A) (pc : cpc A) : Prop :=
  match o with
  | Getc => pc = CEmpty0
  | Peek len => pc = GSize0 (wrap 64 len) true false /\ 0 <= len <= bufsize c - 1
  | Gets len => pc = GSize0 (wrap 64 len) true true /\ 0 <= len <= bufsize c - 1
  | Drop len => pc = GSize0 (wrap 64 len) false true /\ 0 <= len <= bufsize c - 1
  | _ => False
  end.

(** A thread after a step of its running call [o]. *)
Definition moved {PC} (t : thread PC) (o : op A) (m : move A PC) : thread PC :=
  match m with
  | Go _ pc => mkThread (returned t) (Some (o, pc)) (began t) (steps t + 1)
  | Ret _ r d => mkThread (returned t ++ [(o, (r, d), began t)]) None (began t) (steps t + 1)
  | Bad => t
  end.
Definition shared {PC} (c : cbuf A) (m : move A PC) : cbuf A := match m with Go c _ | Ret c _ _ => c | Bad => c end.
Definition is_bad {PC} (m : move A PC) : bool := match m with Bad => true | _ => false end.

Inductive step (s : sys) : sys -> Prop :=
| p_call : forall o pc, running (producer s) = None -> pcall (sh s) o pc ->
    step s (mkSys (sh s) (mkThread (returned (producer s)) (Some (o, pc)) (taken (returned (consumer s))) 0) (consumer s) (bad s))
| p_step : forall o pc, running (producer s) = Some (o, pc) ->
    let m := pnext (sh s) pc in step s (mkSys (shared (sh s) m) (moved (producer s) o m) (consumer s) (bad s || is_bad m))
| c_call : forall o pc, running (consumer s) = None -> ccall (sh s) o pc ->
    step s (mkSys (sh s) (producer s) (mkThread (returned (consumer s)) (Some (o, pc)) (zlen (sent (returned (producer s)))) 0) (bad s))
| c_step : forall o pc, running (consumer s) = Some (o, pc) ->
    let m := cnext (sh s) pc in step s (mkSys (shared (sh s) m) (producer s) (moved (consumer s) o m) (bad s || is_bad m)).

Definition idle {PC} : thread PC := mkThread [] None 0 0.
Definition start (c : cbuf A) : sys := mkSys c idle idle false.

Inductive reachable (c : cbuf A) : sys -> Prop :=
| r_start : reachable c (start c)
| r_step : forall s s', reachable c s -> step s s' -> reachable c s'.

(** The elements the running call of the producer may be handing over, the number the running call of the consumer may
    be removing. *)
Definition pending (t : thread (ppc A)) : list A := match running t with Some (o, _) => offered o | None => [] end.
Definition leaving (t : thread (cpc A)) : Z := match running t with Some (o, _) => asked o | None => 0 end.

(** [n] steps of a thread without interruption. *)
Fixpoint prun (n : nat) (c : cbuf A) (pc : ppc A) : move A (ppc A) :=
  match n with O => Go c pc | S n => match pnext c pc with Go c pc => prun n c pc | m => m end end.
Fixpoint crun (n : nat) (c : cbuf A) (pc : cpc A) : move A (cpc A) :=
  match n with O => Go c pc | S n => match cnext c pc with Go c pc => crun n c pc | m => m end end.

(** The calls of the two threads. *)
Definition shared_call (o : op A) : Prop :=
  match o with Putc _ | Puts _ _ | Getc | Peek _ | Gets _ | Drop _ => True | _ => False end.

(** A call taken alone ends in the state and with the result [x]. *)
Definition solo (c : cbuf A) (o : op A) (x : cbuf A * out A) : Prop :=
  match o with
  | Putc a => exists n, prun n c (PFull0 a) = Ret (fst x) (fst (snd x)) (snd (snd x))
  | Puts data len => exists n, prun n c (UHead0 data len) = Ret (fst x) (fst (snd x)) (snd (snd x))
  | Getc => exists n, crun n c CEmpty0 = Ret (fst x) (fst (snd x)) (snd (snd x))
  | Peek len => exists n, crun n c (GSize0 (wrap 64 len) true false) = Ret (fst x) (fst (snd x)) (snd (snd x))
  | Gets len => exists n, crun n c (GSize0 (wrap 64 len) true true) = Ret (fst x) (fst (snd x)) (snd (snd x))
  | Drop len => exists n, crun n c (GSize0 (wrap 64 len) false true) = Ret (fst x) (fst (snd x)) (snd (snd x))
  | _ => False
  end.

End BulkSystem.
Arguments thread : clear implicits.
Arguments sys : clear implicits.
Arguments mkThread {A PC}. Arguments returned {A PC}. Arguments running {A PC}. Arguments began {A PC}. Arguments steps {A PC}.
