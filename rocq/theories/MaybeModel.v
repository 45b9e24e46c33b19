(** Model of gel/data_structures/maybe.h (the functions generated by MAYBE_DEFINITION).

    TYPE is a type parameter, [zero] its value of all zero bytes: a designated initialiser zeroes
    the fields it does not name. *)
From Verif Require Import Base.

Section Maybe.
Context {T : Type}.
Variable zero : T.

(** maybe.h:16-19. *)
Record maybe := mkMaybe { just : T; nothing : Z }.

(** maybe.h:28-30. *)
Definition maybe_return (value : T) : maybe := mkMaybe value 0.

(** maybe.h:31-33. *)
Definition maybe_is_just (m : maybe) : Z := if nothing m =? 0 then 1 else 0.

(** maybe.h:34-36, also MAYBE_NOTHING (12-13). *)
Definition maybe_nothing : maybe := mkMaybe zero 1.

(** maybe.h:37-42. *)
Definition maybe_with_default (m : maybe) (defval : T) : T :=
  if maybe_is_just m =? 0 then defval else just m.

(** maybe.h:43-48. *)
Definition maybe_map (m : maybe) (fn : T -> T) : maybe :=
  if maybe_is_just m =? 0 then m else maybe_return (fn (just m)).

(** maybe.h:49-54. *)
Definition maybe_bind (m : maybe) (fn : T -> maybe) : maybe :=
  if maybe_is_just m =? 0 then m else fn (just m).

End Maybe.
Arguments maybe : clear implicits.
