(** Model of gel/state_machine/state_machine.h (DEFINE_STATE_MACHINE).

    A manager is a function from the model and the event to the new model and its int result; it has
    no access to the machine. *)
From Verif Require Import Base.

Section StateMachine.
Context {M E : Type}.

(** state_machine.h:11-14. *)
Record machine := mkMachine { managers : list (M -> E -> M * Z); state : Z }.

(** state_machine.h:16-24; [state] is an unsigned int of 32 bits.  A slot outside of the table is
    undefined. *)
Definition sm_send_event (sm : machine) (pmodel : M) (event : E) : outcome (machine * M * Z) :=
  do manager <- zget (managers sm) (state sm);
  let (pmodel, res) := manager pmodel event in
  if 0 <=? res then Done (mkMachine (managers sm) (wrap 32 res), pmodel, 1)
  else Done (sm, pmodel, 0).

End StateMachine.
Arguments machine : clear implicits.
