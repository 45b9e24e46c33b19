(** Model of gel/state_machine/state_machine.h with event managers that send events to their own machine.

    A manager may change the model, call name_sm_send_event on the same machine and model, look at the
    model and the answer, and so on, before it returns.  [fuel] bounds the depth of nested calls; a run
    that needs more is a [Timeout]. *)
From Verif Require Import Base StateMachineModel.

Section SmNest.
Context {M E : Type}.

(** What a manager does next: return with the model and its result, or send [e] while the model is [m]
    and go on with the model and the answer it finds afterwards. *)
Inductive body := Return (m : M) (r : Z) | Send (m : M) (e : E) (k : M -> Z -> body).

(** The history: an event was passed to the manager of state [s]; the manager returned [r]. *)
Inductive ev := Began (s : Z) (e : E) | Ended (r : Z).

Variable managers : list (M -> E -> body).

(** The state, the history, the model and the result or answer. *)
Definition reply : Type := outcome (Z * list ev * M * Z).

(** The manager runs; [send] is name_sm_send_event. *)
Fixpoint perform (send : Z -> list ev -> M -> E -> reply) (b : body) (s : Z) (tr : list ev) : reply :=
  match b with
  | Return m r => Done (s, tr, m, r)
  | Send m e k => do (s, tr, m, a) <- send s tr m e; perform send (k m a) s tr
  end.

(** state_machine.h:16-24: the slot is read before the manager runs, the state is written after it. *)
Fixpoint send (fuel : nat) (s : Z) (tr : list ev) (m : M) (e : E) : reply :=
  match fuel with
  | O => Timeout
  | S fuel =>
      do manager <- zget managers s;
      do (s, tr, m, r) <- perform (send fuel) (manager m e) s (tr ++ [Began s e]);
      if 0 <=? r then Done (wrap 32 r, tr ++ [Ended r], m, 1)
      else Done (s, tr ++ [Ended r], m, 0)
  end.

End SmNest.
Arguments body : clear implicits.
Arguments ev : clear implicits.
