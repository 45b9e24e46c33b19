(** What a shared circular buffer owes its two users when the hardware delays stores. *)
From Verif Require Import Base CbufSpec SpscModel SpscSpec WeakModel.

Section WeakSpec.
Context {A : Type}.

(** The delivered values are the accepted ones, in order, none lost, repeated or made
    up; at most [cap] are under way. *)
Definition fifo_so_far (cap : Z) (prod cons : list (op A * out A)) : Prop :=
  exists in_flight, accepted prod = delivered cons ++ in_flight /\ stored in_flight <= cap.

(** How many values the other core can know to be accepted / delivered: an index still
    pending is one value it cannot know about. *)
Definition known_accepted (s : weak A) : Z :=
  zlen (accepted (wret_p s)) - zlen (filter is_index (pq s)).
Definition known_delivered (s : weak A) : Z :=
  zlen (delivered (wret_c s)) - zlen (filter is_index (cq s)).

(** Moves of everyone but the consumer thread. *)
Definition not_consumer (m : move A) : Prop := m <> Consume.

(** A barrier between calls: each core starts a call only once all its own stores have
    reached the memory. *)
Fixpoint fenced (ord : order) (s : weak A) (sch : list (move A)) : Prop :=
  match sch with
  | [] => True
  | m :: rest =>
      match m with
      | Produce _ => wp s = PIdle -> pq s = []
      | Consume => wc s = CIdle -> cq s = []
      | _ => True
      end /\ fenced ord (step ord s m) rest
  end.

End WeakSpec.
