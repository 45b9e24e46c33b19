(** What a producer and a consumer sharing a FIFO may observe.

    Each thread has a history of returned calls; an event is the call, its result and the number of
    elements the other thread had finished transferring when the call began. *)
From Verif Require Import Base CbufSpec.

Section BulkSpec.
Context {A : Type}.

Notation event := (op A * out A * Z)%type.

(** The elements a producer call handed over. *)
Definition given (e : event) : list A :=
  match e with
  | (Putc a, (0, _), _) => [a]
  | (Puts data _, (r, _), _) => firstn (Z.to_nat r) data
  | _ => []
  end.
Definition sent (h : list event) : list A := flat_map given h.

(** The number of elements a consumer call removed. *)
Definition removed (e : event) : Z :=
  match e with
  | (Getc, (0, _), _) => 1
  | (Gets _, (r, _), _) | (Drop _, (r, _), _) => r
  | _ => 0
  end.
Definition taken (h : list event) : Z := fold_right (fun e n => removed e + n) 0 h.

(** The results of the producer, [n] elements having been sent before: a putc fails only if the buffer was
    full when it was called, a puts stores everything. *)
Fixpoint produced (cap n : Z) (h : list event) : Prop :=
  match h with
  | [] => True
  | e :: h' =>
      match e with
      | (Putc _, (r, d), before) => d = [] /\ (r = 0 \/ r = -1 /\ cap <= n - before)
      | (Puts data len, (r, d), _) => d = [] /\ r = len /\ len <= Z.of_nat (length data)
      | _ => False
      end /\ produced cap (n + Z.of_nat (length (given e))) h'
  end.

(** [m] elements of the stream from position [n] on. *)
Definition part (stream : list A) (n m : Z) : list A := firstn (Z.to_nat m) (skipn (Z.to_nat n) stream).

(** A bulk read of [len] at position [n] yields [r] elements that are there, at least those that were when it
    was called. *)
Definition amount (stream : list A) (n before len r : Z) : Prop :=
  0 <= r <= len /\ Z.min len (before - n) <= r /\ n + r <= Z.of_nat (length stream).

(** The results of the consumer when the elements of [stream] arrive in this order, the first [n] of them having
    been removed before. *)
Fixpoint consumed (stream : list A) (n : Z) (h : list event) : Prop :=
  match h with
  | [] => True
  | e :: h' =>
      match e with
      | (Getc, (r, d), before) => r = 0 /\ n < Z.of_nat (length stream) /\ d = part stream n 1 \/ r = -1 /\ d = [] /\ before <= n
      | (Gets len, (r, d), before) | (Peek len, (r, d), before) => amount stream n before len r /\ d = part stream n r
      | (Drop len, (r, d), before) => amount stream n before len r /\ d = []
      | _ => False
      end /\ consumed stream (n + removed e) h'
  end.

(** Elements a running call is still transferring. *)
Definition offered (o : op A) : list A := match o with Putc a => [a] | Puts data _ => data | _ => [] end.

(** The number of elements of a call. *)
Definition asked (o : op A) : Z :=
  match o with Putc _ | Getc => 1 | Puts _ len | Gets len | Peek len | Drop len => len | _ => 0 end.

End BulkSpec.
