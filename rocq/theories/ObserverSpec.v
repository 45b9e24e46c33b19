(** Answers that were right at some moment of the call. *)
From Verif Require Import Base CbufSpec SpscModel SpscSpec.

Section Spec.
Context {A : Type}.

(** The number of elements in the buffer: accepted and not yet delivered. *)
Definition elements (s : sys A) : Z := stored (accepted (pret s)) - stored (delivered (cret s)).

(** At some of these moments there were [k] elements, or a number of elements such that [P]. *)
Definition sometime (P : Z -> Prop) (l : list (sys A)) : Prop := exists s, In s l /\ P (elements s).
Definition always (P : Z -> Prop) (l : list (sys A)) : Prop := forall s, In s l -> P (elements s).
End Spec.
