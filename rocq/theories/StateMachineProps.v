(** Property C97: event dispatch. *)
From Verif Require Import Base BaseLemmas StateMachineModel.

(** Specification: run an event list from a state; the state after each event and whether it moved. *)
Section Spec.
Context {M E : Type}.
Variable table : nat -> M -> E -> M * Z.

Definition transition (s : nat) (m : M) (e : E) : nat * M * Z :=
  let (m', r) := table s m e in if r <? 0 then (s, m', 0) else (Z.to_nat r, m', 1).

Fixpoint transitions (s : nat) (m : M) (es : list E) : nat * M * list Z :=
  match es with
  | [] => (s, m, [])
  | e :: es' =>
      let '(s1, m1, r) := transition s m e in
      let '(s2, m2, rs) := transitions s1 m1 es' in (s2, m2, r :: rs)
  end.
End Spec.

(** The model on an event list. *)
Fixpoint sm_run {M E} (sm : machine M E) (m : M) (es : list E) : outcome (machine M E * M * list Z) :=
  match es with
  | [] => Done (sm, m, [])
  | e :: es' =>
      do (sm, m, r) <- sm_send_event sm m e;
      do (sm, m, rs) <- sm_run sm m es';
      Done (sm, m, r :: rs)
  end.

(** C97: one event. *)
Theorem sm_dispatch : forall (M E : Type) (sm : machine M E) (f : M -> E -> M * Z) (m : M) (e : E),
  nth_error (managers sm) (Z.to_nat (state sm)) = Some f -> 0 <= state sm ->
  (snd (f m e) < 0 -> sm_send_event sm m e = Done (sm, fst (f m e), 0)) /\
  (0 <= snd (f m e) <= INT_MAX ->
     sm_send_event sm m e = Done (mkMachine (managers sm) (snd (f m e)), fst (f m e), 1)).
Proof.
  intros M E sm f m e Hf Hs. unfold sm_send_event, zget. destruct (Z.ltb_spec (state sm) 0); [lia|]. rewrite Hf. cbn [obind].
  destruct (f m e) as [m' r]. cbn [fst snd]. split; intros Hr.
  - destruct (Z.leb_spec 0 r); [lia|reflexivity].
  - destruct (Z.leb_spec 0 r); [|lia]. rewrite wrap_small by (unfold INT_MAX in *; lia). reflexivity.
Qed.
Print Assumptions sm_dispatch.

(** C97: managers that only return valid states keep every later call defined, and the history is that
    of the specification. *)
Theorem sm_history : forall (M E : Type) (table : list (M -> E -> M * Z)) (s : nat) (m : M) (es : list E),
  zlen table <= INT_MAX -> (s < length table)%nat ->
  (forall f, In f table -> forall m e, snd (f m e) < zlen table) ->
  let dead := fun (m : M) (_ : E) => (m, -1) in
  let '(s', m', rs) := transitions (fun k => nth k table dead) s m es in
  (s' < length table)%nat /\
  sm_run (mkMachine table (Z.of_nat s)) m es = Done (mkMachine table (Z.of_nat s'), m', rs).
Proof.
  intros M E table s m es Hl Hs Hv dead. revert s m Hs.
  induction es as [|e es IH]; intros s m Hs; cbn [transitions sm_run].
  - auto.
  - unfold transition. pose proof (nth_error_nth' table dead Hs) as Hn. set (f := nth s table dead) in *.
    destruct (sm_dispatch M E (mkMachine table (Z.of_nat s)) f m e) as [H1 H2]; cbn [managers state]; try lia.
    { rewrite Nat2Z.id. exact Hn. }
    assert (Hr : snd (f m e) < zlen table) by (apply Hv; now apply nth_error_In in Hn).
    destruct (f m e) as [m' r]. cbn [fst snd managers] in *. destruct (Z.ltb_spec r 0).
    + rewrite H1 by lia. cbn [obind]. specialize (IH s m' Hs). destruct (transitions _ s m' es) as [[s2 m2] rs].
      destruct IH as [IH1 IH2]. rewrite IH2. auto.
    + rewrite H2 by lia. cbn [obind]. assert (Hs' : (Z.to_nat r < length table)%nat) by (unfold zlen in Hr; lia).
      specialize (IH (Z.to_nat r) m' Hs'). rewrite Z2Nat.id in IH by lia.
      destruct (transitions _ (Z.to_nat r) m' es) as [[s2 m2] rs]. destruct IH as [IH1 IH2]. rewrite IH2. auto.
Qed.
Print Assumptions sm_history.

(** The hypothesis is needed: a manager that returns the table length makes the next call undefined. *)
Theorem sm_invalid_state : forall (M E : Type) (f : M -> E -> M * Z) (m : M) (e1 e2 : E),
  snd (f m e1) = 1 -> sm_run (mkMachine [f] 0) m [e1; e2] = Undef.
Proof.
  intros M E f m e1 e2 H. cbn [sm_run]. unfold sm_send_event at 1. cbn. destruct (f m e1) as [m' r]. cbn [snd] in H. subst r. reflexivity.
Qed.
Print Assumptions sm_invalid_state.

(** A traffic light that counts its rounds and ignores event 9. *)
Example sm_example :
  let go (n : Z) (m e : Z) := if e =? 9 then (m, -1) else (if n =? 0 then m + 1 else m, n) in
  let table := [go 1; go 2; go 0] in
  (forall f, In f table -> forall m e, snd (f m e) < zlen table) /\
  sm_run (mkMachine table 0) 5 [1; 9; 1; 1; 1] = Done (mkMachine table 1, 6, [1; 0; 1; 1; 1]).
Proof.
  cbv zeta. split; [|reflexivity]. intros f [<-|[<-|[<-|[]]]] m e; destruct (e =? 9); cbn; unfold zlen; cbn; lia.
Qed.
