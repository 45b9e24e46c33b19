(** Running histories on the keypad model. *)
From Verif Require Import Base TimeModel TimeSpec KeypadModel KeypadSpec.

(** The enumeration value of an event. *)
Definition event_code (e : kevent) : Z :=
  match e with
  | Nothing => KEY_NOTHING | Press => KEY_PRESS | Pressing => KEY_PRESSING | Click => KEY_CLICK
  | Longclick => KEY_LONGCLICK | Longpress => KEY_LONGPRESS | Release => KEY_RELEASE
  end.

(** Calls at true times with bitmaps; the thresholds may differ from call to call. *)
Inductive kop :=
| KCall (click longclick period t bits : Z)
| KReset.

(** The output of a call: (found, code, event), [None] for a reset. *)
Fixpoint krun (I w : Z) (keys : list key) (ops : list kop) : outcome (list key * list (option (Z * Z * Z))) :=
  match ops with
  | [] => Done (keys, [])
  | KCall click longclick period t bits :: ops' =>
      do (keys, found, ecode, e) <- keypad_routine I w keys click longclick period (counter w t) bits;
      do (keys, outs) <- krun I w keys ops';
      Done (keys, Some (found, ecode, e) :: outs)
  | KReset :: ops' =>
      do keys <- keypad_reset_keys keys;
      do (keys, outs) <- krun I w keys ops';
      Done (keys, None :: outs)
  end.

(** Fixed thresholds; down or up as seen by the key with bit map [b], [u] standing for any other bitmap. *)
Definition calls (click longclick period b : Z) (u : Z -> Z) (h : list (Z * bool)) : list kop :=
  map (fun s : Z * bool => KCall click longclick period (fst s) (if snd s then b else u (fst s))) h.

(** Not pressed and nothing pending. *)
Definition idle (k : key) : Prop :=
  oldvalue k = 0 /\ value k = 0 /\ (lastevent k = KEY_NOTHING \/ lastevent k = KEY_RELEASE).

(** Does the operation interrupt a press of the key with bit map [b]? *)
Definition interrupts (b : Z) (o : kop) : Prop :=
  match o with KCall _ _ _ _ bits => bits <> b | KReset => True end.

(** The events of all operations of a history (calls only). *)
Definition reports (I w : Z) (keys : list key) (ops : list kop) (es : list kevent) : Prop :=
  exists keys' outs, krun I w keys ops = Done (keys', outs) /\
    map (option_map snd) outs = map (fun e => Some (event_code e)) es.

(** A table: keys, a terminator, anything. *)
Definition table (ks : list key) (z : key) : Prop := Forall (fun k => bitvalue k <> 0) ks /\ bitvalue z = 0.

(** No call of the history has the bit map of one of the keys. *)
Definition never_seen (ks : list key) (ops : list kop) : Prop :=
  Forall (fun o => match o with KCall _ _ _ _ bits => Forall (fun k => bitvalue k <> bits) ks | KReset => True end) ops.
Definition no_reset (o : kop) : Prop := match o with KReset => False | _ => True end.

(** The output for the key at [n] of a longer table. *)
Definition moved_by (n : Z) (o : option (Z * Z * Z)) : option (Z * Z * Z) :=
  option_map (fun '(f, c, e) => (if f =? -1 then -1 else f + n, c, e)) o.

(** A history of calls with fixed thresholds and resets, and how its outputs are reported. *)
Definition pad_ops (click longclick period : Z) (h : list (option (Z * Z))) : list kop :=
  map (fun o => match o with Some (t, bits) => KCall click longclick period t bits | None => KReset end) h.
Definition pad_output (codes : list Z) (o : option (option (nat * kevent))) : option (Z * Z * Z) :=
  match o with
  | None => None
  | Some None => Some (-1, 0, KEY_NOTHING)
  | Some (Some (i, e)) => Some (Z.of_nat i, nth i codes 0, event_code e)
  end.
