(** Model of gel/keypad/keypad.c.

    [I] and [w] are the bits of int and of unsigned long.  Tables have fewer than INT_MAX keys.
    keypad_get_click_time is declared in keypad.h but not defined anywhere. *)
From Verif Require Import Base TimeModel.

(** keypad.h:11-19. *)
Definition KEY_NOTHING := 0.
Definition KEY_PRESS := 1.
Definition KEY_PRESSING := 2.
Definition KEY_CLICK := 3.
Definition KEY_LONGCLICK := 4.
Definition KEY_LONGPRESS := 5.
Definition KEY_RELEASE := 6.

(** keypad.h:23-37. *)
Record key := mkKey {
  bitvalue : Z; code : Z;
  time_state : Z; time_period : Z; value : Z; oldvalue : Z; ignore : Z; lastevent : Z }.

Definition set_value (k : key) (v : Z) : key :=
  mkKey (bitvalue k) (code k) (time_state k) (time_period k) v (oldvalue k) (ignore k) (lastevent k).
Definition set_oldvalue (k : key) (v : Z) : key :=
  mkKey (bitvalue k) (code k) (time_state k) (time_period k) (value k) v (ignore k) (lastevent k).
Definition set_ignore (k : key) (v : Z) : key :=
  mkKey (bitvalue k) (code k) (time_state k) (time_period k) (value k) (oldvalue k) v (lastevent k).
Definition set_lastevent (k : key) (v : Z) : key :=
  mkKey (bitvalue k) (code k) (time_state k) (time_period k) (value k) (oldvalue k) (ignore k) v.
Definition set_time_state (k : key) (v : Z) : key :=
  mkKey (bitvalue k) (code k) v (time_period k) (value k) (oldvalue k) (ignore k) (lastevent k).
Definition set_time_period (k : key) (v : Z) : key :=
  mkKey (bitvalue k) (code k) (time_state k) v (value k) (oldvalue k) (ignore k) (lastevent k).

(** keypad.h:6-7 and 8-9. *)
Definition KEYPAD_KEY (b c : Z) : key := mkKey b c 0 0 0 0 0 KEY_NOTHING.
Definition KEYPAD_NULL_KEY : key := mkKey 0 0 0 0 0 0 0 KEY_NOTHING.

(** keypad.c:6-8. *)
Definition keypad_get_key_state (k : key) : Z := value k.

Section Keypad.
Variables I w : Z.

(** keypad.c:16-38: the keys, [found] and event.code.  A table without terminator is undefined. *)
Fixpoint scan (keys : list key) (bits i found ecode : Z) : outcome (list key * Z * Z) :=
  match keys with
  | [] => Undef
  | k :: rest =>
      if bitvalue k =? 0 then Done (keys, found, ecode)
      else if bitvalue k =? bits then
        do (rest, found, ecode) <- scan rest bits (i + 1) i (code k);
        Done (set_value k 1 :: rest, found, ecode)
      else if negb (oldvalue k =? 0) && negb (bitvalue k =? bits) then
        Done (set_value k 0 :: rest, i, code k)
      else if negb (lastevent k =? KEY_RELEASE) && negb (lastevent k =? KEY_NOTHING) then
        Done (keys, i, code k)
      else
        do (rest, found, ecode) <- scan rest bits (i + 1) found ecode;
        Done (k :: rest, found, ecode)
  end.

(** keypad.c:45-82: the key and event.event. *)
Definition handle (k : key) (click longclick press_period now : Z) : key * Z :=
  if (value k =? oldvalue k) && (ignore k =? 0) then
    if (lastevent k =? KEY_PRESS) && (value k =? 1) && is_strictly_expired I w w (time_state k) now click then
      (set_lastevent (set_time_period k now) KEY_CLICK, KEY_CLICK)
    else if (negb (lastevent k =? KEY_RELEASE) || (lastevent k =? KEY_NOTHING)) && (value k =? 0) &&
            is_strictly_expired I w w (time_state k) now click then
      (set_lastevent k KEY_RELEASE, KEY_RELEASE)
    else if ((lastevent k =? KEY_CLICK) || (lastevent k =? KEY_PRESS)) &&
            is_strictly_expired I w w (time_state k) now longclick then
      (set_lastevent (set_time_period (set_time_state k now) now) KEY_LONGCLICK, KEY_LONGCLICK)
    else if (lastevent k =? KEY_LONGCLICK) && (value k =? 1) &&
            is_strictly_expired I w w (time_period k) now press_period then
      (set_time_period k now, KEY_LONGPRESS)
    else if (lastevent k =? KEY_CLICK) && (value k =? 1) &&
            is_strictly_expired I w w (time_period k) now press_period then
      (set_time_period k now, KEY_PRESSING)
    else (k, KEY_NOTHING)
  else if negb (value k =? oldvalue k) then
    let k := set_time_state (set_oldvalue (set_ignore k 0) (value k)) now in
    if negb (value k =? 0) then (set_lastevent k KEY_PRESS, KEY_PRESS)
    else if lastevent k =? KEY_PRESS then (set_lastevent k KEY_RELEASE, KEY_RELEASE)
    else (k, KEY_NOTHING)
  else (k, KEY_NOTHING).

(** keypad.c:10-85: the keys, the local variable [found] (for the statements only), event.code and event.event. *)
Definition keypad_routine (keys : list key) (click longclick press_period now bits : Z)
  : outcome (list key * Z * Z * Z) :=
  do (keys, found, ecode) <- scan keys bits 0 (-1) 0;
  if found =? -1 then Done (keys, found, ecode, KEY_NOTHING) else
  do k <- zget keys found;
  let (k, e) := handle k click longclick press_period now in
  do keys <- zset keys found k;
  Done (keys, found, ecode, e).

End Keypad.

(** keypad.c:87-99. *)
Fixpoint keypad_reset_keys (keys : list key) : outcome (list key) :=
  match keys with
  | [] => Undef
  | k :: rest =>
      if bitvalue k =? 0 then Done keys else
      do rest <- keypad_reset_keys rest;
      Done (mkKey (bitvalue k) (code k) 0 0 0 0 1 KEY_NOTHING :: rest)
  end.
