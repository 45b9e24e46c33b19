(** How late the events of a key may be when it is looked at every [J] time units. *)
From Verif Require Import Base KeypadSpec.

Notation entry := (Z * bool * kevent)%type.

(** The key is down (up) at all these calls; they report nothing. *)
Definition held (b : list entry) : Prop := Forall (fun x => snd (fst x) = true) b.
Definition free (b : list entry) : Prop := Forall (fun x => snd (fst x) = false) b.
Definition quiet (b : list entry) : Prop := Forall (fun x => snd x = Nothing) b.

Section Spec.
Variables click longclick period J : Z.

(** Held since the press at [p] until after [p] + [click]: a click at most [J] later, and nothing before. *)
Definition click_prompt (tr : list entry) : Prop := forall a p d b t e c,
  tr = a ++ (p, d, Press) :: b ++ (t, true, e) :: c -> held b -> p + click < t ->
  exists b1 t1 b2, b ++ [(t, true, e)] = b1 ++ (t1, true, Click) :: b2 /\ quiet b1 /\
    p + click < t1 <= p + click + J.

(** The long click is at most [J] late too, but it needs a call of its own after the click. *)
Definition longclick_prompt (tr : list entry) : Prop := forall a p d b t e c,
  tr = a ++ (p, d, Press) :: b ++ (t, true, e) :: c -> held b -> p + longclick < t -> p + click + J < t ->
  exists b1 t1 b2, b ++ [(t, true, e)] = b1 ++ (t1, true, Longclick) :: b2 /\
    p + longclick < t1 <= p + Z.max longclick (click + J) + J.

(** After a click, a long click or a repeat at [m], the next event comes at most [J] after [m] + [period]: a repeat,
    or the long click (which may come before). *)
Definition repeat_prompt (tr : list entry) : Prop := forall a m d x b t e c,
  tr = a ++ (m, d, x) :: b ++ (t, true, e) :: c -> (x = Click \/ x = Longclick \/ repeat_event x = true) ->
  held b -> m + period < t ->
  exists b1 t1 y b2, b ++ [(t, true, e)] = b1 ++ (t1, true, y) :: b2 /\ quiet b1 /\ t1 <= m + period + J /\
    match x with
    | Click | Pressing => y = Longclick \/ (y = Pressing /\ m + period < t1)
    | _ => y = Longpress /\ m + period < t1
    end.

(** Found up at [r]: the release is reported at once, or at most [J] after [r] + [click]. *)
Definition release_prompt (tr : list entry) : Prop := forall a q x r e0 b t e c,
  tr = a ++ (q, true, x) :: (r, false, e0) :: b ++ (t, false, e) :: c -> free b -> r + click < t ->
  exists b1 t1 b2, (r, false, e0) :: b ++ [(t, false, e)] = b1 ++ (t1, false, Release) :: b2 /\ quiet b1 /\
    r <= t1 <= r + click + J.
End Spec.
