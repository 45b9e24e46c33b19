(** Properties C157-C158: managers that send events to their own machine. *)
From Verif Require Import Base StateMachineModel SmNestModel SmNestSpec SmNestProofs.

(** C157: whatever the managers send, at whatever depth, and whatever they do with models and answers: the calls
    are properly nested, every event goes to the manager of the state at that moment, the final state is
    the result of the manager that returned last with a state (the initial state if none did), and
    the answer says whether this call's own manager returned a state. *)
Theorem sm_nested_history : forall (M E : Type) (managers : list (M -> E -> body M E)) fuel s m e s' tr m' a,
  (forall f, In f managers -> forall m e, returns (fun r => INT_MIN <= r <= INT_MAX) (f m e)) ->
  send managers fuel s [] m e = Done (s', tr, m', a) ->
  exists inner r, tr = Began s e :: inner ++ [Ended r] /\ call tr /\ dispatched s tr /\ s' = state_after s tr /\
    a = (if r <? 0 then 0 else 1).
Proof.
  intros M E managers fuel s m e s' tr m' a Hi H.
  destruct (call_ok managers Hi fuel s [] m e s' tr m' a H) as (inner & r & Et & Hc & Hd & Hs & Ha). cbn in Et. subst tr.
  exists inner, r. repeat split; auto.
Qed.
Print Assumptions sm_nested_history.

(** C157: if managers return only states of the table and send only events of lower rank than the one they handle, every
    call returns and leaves a state of the table. *)
Theorem sm_nested_returns : forall (M E : Type) (managers : list (M -> E -> body M E)) (rank : E -> nat),
  zlen managers <= INT_MAX ->
  (forall f, In f managers -> forall m e, returns (fun r => r < zlen managers) (f m e)) ->
  (forall f, In f managers -> forall m e, sends (fun e' => (rank e' < rank e)%nat) (f m e)) ->
  forall fuel s tr m e, 0 <= s < zlen managers -> (rank e < fuel)%nat ->
  exists s' tr' m' a, send managers fuel s tr m e = Done (s', tr', m', a) /\ 0 <= s' < zlen managers.
Proof. exact @returns_ok. Qed.
Print Assumptions sm_nested_returns.

(** C157: managers that send nothing behave as in C97. *)
Theorem sm_nested_plain : forall (M E : Type) (table : list (M -> E -> M * Z)) s m e,
  (do (s', tr, m', a) <- send (map (fun (f : M -> E -> M * Z) m e => Return (fst (f m e)) (snd (f m e))) table) 1 s [] m e;
   Done (mkMachine table s', m', a)) = sm_send_event (mkMachine table s) m e.
Proof. exact plain_ok. Qed.
Print Assumptions sm_nested_plain.

(** Three states.  Event 1 in state 0: announce event 2, then go to state [n].  Event 2: go to state 2, count it. *)
Definition announcer (n : Z) (m e : Z) : body Z Z :=
  if e =? 1 then Send (m + 10) 2 (fun m _ => Return m n) else Return (m + 1) (if e =? 2 then 2 else -1).
Definition trio (n : Z) : list (Z -> Z -> body Z Z) := [announcer n; announcer (-1); announcer (-1)].

Example sm_nested_example :
  (forall f, In f (trio (-1)) -> forall m e, returns (fun r => r < zlen (trio (-1))) (f m e)) /\
  (forall f, In f (trio (-1)) -> forall m e, returns (fun r => INT_MIN <= r <= INT_MAX) (f m e)) /\
  (forall f, In f (trio (-1)) -> forall m e, sends (fun e' => ((if Z.eqb e' 1 then 1 else 0) < (if Z.eqb e 1 then 1 else 0))%nat) (f m e)) /\
  (forall f, In f (trio (-1)) -> forall m e, modest (f m e)) /\
  send (trio (-1)) 2 0 [] 0 1 = Done (2, [Began 0 1; Began 0 2; Ended 2; Ended (-1)], 11, 0).
Proof.
  split; [|split; [|split; [|split; [|reflexivity]]]];
  (intros f Hf m e; assert (Ef : f = announcer (-1)) by (destruct Hf as [<-|[<-|[<-|[]]]]; reflexivity); subst f;
   unfold announcer; destruct (Z.eqb_spec e 1); cbn; [|destruct (e =? 2)]; cbn; auto;
   unfold zlen, INT_MIN, INT_MAX; cbn; intros; try (split; intros); lia).
Qed.

(** C158 refuted: a nested event is told that the machine has moved to state 2, but the state is replaced by the
    result of the manager that sent it before any event arrives there. *)
Theorem sm_nested_kept_refuted : exists s' tr m' a,
  send (trio 1) 2 0 [] 0 1 = Done (s', tr, m', a) /\ s' = 1 /\ tr = [Began 0 1; Began 0 2; Ended 2; Ended 1] /\ ~ kept tr.
Proof.
  do 4 eexists. split; [reflexivity|]. split; [reflexivity|]. split; [reflexivity|].
  intros K. destruct (K [Began 0 1; Began 0 2] 2 [] 1 [] eq_refl) as (s & e & []); lia.
Qed.
Print Assumptions sm_nested_kept_refuted.

(** C158, true variant: if a manager that sends events returns a negative result itself, no state reached is
    replaced before an event was sent in it.  Missing for the full claim: managers that send and also return a
    state (refuted above). *)
Theorem sm_nested_kept_partial : forall (M E : Type) (managers : list (M -> E -> body M E)) fuel s m e s' tr m' a,
  (forall f, In f managers -> forall m e, modest (f m e)) ->
  send managers fuel s [] m e = Done (s', tr, m', a) -> kept tr.
Proof.
  intros M E managers fuel s m e s' tr m' a Hm H.
  destruct (modest_ok managers Hm fuel s [] m e s' tr m' a H) as (l & Et & Hk). cbn in Et. now subst tr.
Qed.
Print Assumptions sm_nested_kept_partial.

(** The hypothesis holds of [trio (-1)] (above), where the run ends in the state of the nested event. *)

(** C157: an event sent by a manager is always handled in the state its sender was called in, not in the
    one the sender is about to enter, unless an event it sent earlier moved the machine. *)
Theorem sm_nested_first : forall (M E : Type) (managers : list (M -> E -> body M E)) fuel s m e s' tr m' a s2 e2 rest,
  (forall f, In f managers -> forall m e, returns (fun r => INT_MIN <= r <= INT_MAX) (f m e)) ->
  send managers fuel s [] m e = Done (s', tr, m', a) -> tr = Began s e :: Began s2 e2 :: rest -> s2 = s.
Proof.
  intros M E managers fuel s m e s' tr m' a s2 e2 rest Hi H Et.
  destruct (sm_nested_history M E managers fuel s m e s' tr m' a Hi H) as (inner & r & _ & _ & Hd & _).
  exact (Hd [Began s e] s2 e2 rest Et).
Qed.
Print Assumptions sm_nested_first.
