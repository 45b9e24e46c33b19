(** Specification of one key: a timed automaton over true (unbounded) time.  Each call gives the time and
    whether the key is down. *)
From Coq Require Import ZArith List Bool.
Import ListNotations.
Open Scope Z_scope.

Inductive kevent := Nothing | Press | Pressing | Click | Longclick | Longpress | Release.

Inductive phase :=
| Idle                      (* up *)
| Down (p : Z)              (* down since [p] *)
| Clicked (p m : Z)         (* down since [p], clicked, last click or repeat at [m] *)
| Long (m : Z)              (* down, long clicked, last long click or repeat at [m] *)
| Leaving (r : Z).          (* up since [r] after a click *)

Section Spec.
Variables click longclick period : Z.

Definition kstep (s : phase) (t : Z) (down : bool) : phase * kevent :=
  match s, down with
  | Idle, true => (Down t, Press)
  | Idle, false => (Idle, Nothing)
  | Down p, true => if p + click <? t then (Clicked p t, Click) else (s, Nothing)
  | Down _, false => (Idle, Release)
  | Clicked p m, true =>
      if p + longclick <? t then (Long t, Longclick)
      else if m + period <? t then (Clicked p t, Pressing) else (s, Nothing)
  | Clicked _ _, false => (Leaving t, Nothing)
  | Long m, true => if m + period <? t then (Long t, Longpress) else (s, Nothing)
  | Long _, false => (Leaving t, Nothing)
  | Leaving _, true => (Down t, Press)
  | Leaving r, false => if r + click <? t then (Idle, Release) else (s, Nothing)
  end.

(** The events of a history of calls, oldest first. *)
Fixpoint kevents (s : phase) (h : list (Z * bool)) : list kevent :=
  match h with
  | [] => []
  | (t, d) :: h' => let (s', e) := kstep s t d in e :: kevents s' h'
  end.

End Spec.

(** Times never go back and advance by less than [half]; oldest first. *)
Fixpoint advancing (half : Z) (h : list (Z * bool)) : Prop :=
  match h with
  | (t, _) :: ((t', _) :: _) as h' => t <= t' < t + half /\ advancing half h'
  | _ => True
  end.

(** Which events may follow, without times: the stage of the current press. *)
Inductive stage := Ready | Pressed | Held | Heldlong.

Definition follows (s : stage) (e : kevent) : option stage :=
  match s, e with
  | s, Nothing => Some s
  | Ready, Press => Some Pressed
  | Pressed, Click => Some Held
  | Pressed, Release => Some Ready
  | Held, Pressing => Some Held
  | Held, Longclick => Some Heldlong
  | Held, Release => Some Ready
  | Held, Press => Some Pressed
  | Heldlong, Longpress => Some Heldlong
  | Heldlong, Release => Some Ready
  | Heldlong, Press => Some Pressed
  | _, _ => None
  end.

Fixpoint ordered (s : stage) (es : list kevent) : Prop :=
  match es with
  | [] => True
  | e :: es' => match follows s e with Some s' => ordered s' es' | None => False end
  end.

Definition repeat_event (e : kevent) : bool := match e with Pressing | Longpress => true | _ => false end.

(** A trace is a list of (time, down, event). *)
Definition trace (h : list (Z * bool)) (es : list kevent) : list (Z * bool * kevent) := combine h es.

(** A click comes with the key down, more than [click] after the press, with nothing but silent calls with the key
    down between. *)
Definition click_ok (click : Z) (tr : list (Z * bool * kevent)) : Prop := forall k t d, nth_error tr k = Some (t, d, Click) ->
  d = true /\ exists j p, (j < k)%nat /\ nth_error tr j = Some (p, true, Press) /\ p + click < t /\
    forall i x, (j < i < k)%nat -> nth_error tr i = Some x -> snd (fst x) = true /\ snd x = Nothing.

(** A long click comes with the key down, more than [longclick] after the press, the key down at every call between. *)
Definition longclick_ok (longclick : Z) (tr : list (Z * bool * kevent)) : Prop := forall k t d, nth_error tr k = Some (t, d, Longclick) ->
  d = true /\ exists j p, (j < k)%nat /\ nth_error tr j = Some (p, true, Press) /\ p + longclick < t /\
    forall i x, (j < i < k)%nat -> nth_error tr i = Some x -> snd (fst x) = true /\ (snd x = Nothing \/ snd x = Click \/ snd x = Pressing).

(** One key at a time: [a] is the key pressed and not yet released; outputs are (key, code, event), [None] for a reset.
    The numbers of events are those of the enumeration. *)
Fixpoint one_at_a_time (a : option Z) (outs : list (option (Z * Z * kevent))) : Prop :=
  match outs with
  | [] => True
  | None :: outs' => one_at_a_time None outs'
  | Some (_, _, Nothing) :: outs' => one_at_a_time a outs'
  | Some (f, _, Release) :: outs' => a = Some f /\ one_at_a_time None outs'
  | Some (f, _, Press) :: outs' => (a = None \/ a = Some f) /\ one_at_a_time (Some f) outs'
  | Some (f, _, _) :: outs' => a = Some f /\ one_at_a_time a outs'
  end.

(** ** A whole table

    The key that is pressed or leaving, if any, and its phase; for each key the state shown. *)
Record pad := mkPad { current : option (nat * phase); shown : nat -> bool }.
Definition pad0 : pad := mkPad None (fun _ => false).

(** The last key with the bit map [bits]. *)
Fixpoint last_key (bits : Z) (bs : list Z) : option nat :=
  match bs with
  | [] => None
  | b :: bs' => match last_key bits bs' with Some i => Some (S i) | None => if b =? bits then Some O else None end
  end.

Section Table.
Variables click longclick period : Z.
Variable bs : list Z.       (* the bit maps *)

(** The call concerns the current key; if there is none, the last one with the bit map. *)
Definition concerned (p : pad) (bits : Z) : option (nat * phase) :=
  match current p with
  | Some c => Some c
  | None => match last_key bits bs with Some i => Some (i, Idle) | None => None end
  end.

(** It goes on as by itself.  The keys before it show whether they have been seen; those after it are not looked at. *)
Definition pad_call (p : pad) (t bits : Z) : pad * option (nat * kevent) :=
  match concerned p bits with
  | None => (p, None)
  | Some (i, s) =>
      let down := nth i bs 0 =? bits in
      let (s', e) := kstep click longclick period s t down in
      (mkPad (match s' with Idle => None | _ => Some (i, s') end)
             (fun j => if (j =? i)%nat then down
                       else if (j <? i)%nat && (nth j bs 0 =? bits) then true else shown p j),
       Some (i, e))
  end.

(** A history of calls at [t] with [bits], [None] for a reset: the outputs and the final state. *)
Fixpoint pad_run (p : pad) (h : list (option (Z * Z))) : pad * list (option (option (nat * kevent))) :=
  match h with
  | [] => (p, [])
  | None :: h' => let (p', os) := pad_run pad0 h' in (p', None :: os)
  | Some (t, bits) :: h' =>
      let (p1, o) := pad_call p t bits in let (p', os) := pad_run p1 h' in (p', Some o :: os)
  end.

End Table.

(** The times of the calls never go back and advance by less than [half]. *)
Fixpoint paced (half : Z) (last : option Z) (h : list (option (Z * Z))) : Prop :=
  match h with
  | [] => True
  | None :: h' => paced half last h'
  | Some (t, _) :: h' => match last with Some t' => t' <= t < t' + half | None => True end /\ paced half (Some t) h'
  end.
