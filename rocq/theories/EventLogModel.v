(** Model of gel/circular_event_log/circular_event_log.c.  size_t has 64 bits, int 32.

    The two storage callbacks of the structure are arguments of the model, each acting on a
    storage state.  [save st event position] is the new storage and the result.
    [load st number start] is the new storage, the result and the bytes it stored through the
    pointer it was given. *)
From Verif Require Import Base.

(** circular_event_log.h:8-16, without the callbacks. *)
Record elog := mkElog { next_position : Z; max_events : Z; event_size : Z; full_circle : bool }.

(** circular_event_log.c:7-19. *)
Definition new_event {St} (save : St -> list Z -> Z -> St * Z) (st : St) (l : elog) (event : list Z)
  : St * elog * Z :=
  let (st', res) := save st event (next_position l) in
  if res =? 0 then
    let np := wrap 64 (next_position l + 1) in
    if max_events l <=? np then (st', mkElog 0 (max_events l) (event_size l) true, res)
    else (st', mkElog np (max_events l) (event_size l) (full_circle l), res)
  else (st', l, res).

(** circular_event_log.c:22-28. *)
Definition total_events (l : elog) : Z :=
  if full_circle l then max_events l else next_position l.

(** circular_event_log.c:59-67. *)
Definition nth_last_event (l : elog) (jump : Z) : Z :=
  if jump <=? next_position l then next_position l - jump
  else if full_circle l then wrap 64 (max_events l - (jump - next_position l))
  else 0.

(** Addition of two ints. *)
Definition int_add (a b : Z) : outcome Z :=
  if (a + b <? INT_MIN) || (INT_MAX <? a + b) then Undef else Done (a + b).

(** circular_event_log.c:31-56; [events] is the destination region. *)
Definition load_last_events {St} (load : St -> Z -> Z -> outcome (St * Z * list Z))
  (st : St) (l : elog) (events : list Z) (number jump : Z) : outcome (St * list Z * Z) :=
  let total := total_events l in
  if total <? jump then Done (st, events, 0)
  else
    let actual := if total <? wrap 64 (jump + number) then total - jump else number in
    let start := nth_last_event l (wrap 64 (actual + jump)) in
    if max_events l <? wrap 64 (start + actual) then
      let to_read := wrap 64 (max_events l - start) in
      do (st1, res, d1) <- load st to_read start;
      do ev1 <- zwrite events 0 d1;
      if res <=? 0 then Done (st1, ev1, res)
      else
        let second_round := wrap 64 (actual - to_read) in
        do (st2, res2, d2) <- load st1 second_round 0;
        do ev2 <- zwrite ev1 (wrap 64 (to_read * event_size l)) d2;
        do r <- int_add res res2;
        Done (st2, ev2, r)
    else
      do (st1, res, d1) <- load st actual start;
      do ev1 <- zwrite events 0 d1;
      Done (st1, ev1, res).
