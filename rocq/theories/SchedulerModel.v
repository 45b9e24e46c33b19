(** Model of gel/scheduler/scheduler.c with the static table (GEL_SCHEDULER_DYNAMIC_ENTRIES does
    not compile).  The table is a list; its length is GEL_SCHEDULER_MAX_ENTRIES (scheduler.h:9-11).
    unsigned long and size_t have 64 bits, int 32.

    Simplification: the shift [1 << today] (scheduler.c:294) is only meant for tm_wday below 31;
    the theorems assume the range 0..6 that <time.h> promises. *)
From Verif Require Import Base SerializerModel.

(** scheduler.h:28-34. *)
Record entry := mkEntry { enabled : Z; days : Z; start_second : Z; end_second : Z; value : Z }.

(** The used fields of struct tm. *)
Record tm := mkTm { tm_wday : Z; tm_hour : Z; tm_min : Z; tm_sec : Z }.

(** scheduler.c:22. *)
Definition seconds_in_day : Z := 60 * 60 * 24.

Definition zero_entry : entry := mkEntry 0 0 0 0 0.

(** scheduler.c:25-39; the static variant. *)
Definition scheduler_init (s : list entry) : list entry := map (fun _ => zero_entry) s.

(** scheduler.c:42-57; [None] is NULL, the pointer is the entry. *)
Definition scheduler_get_entry (s : list entry) (i : Z) : option entry :=
  if zlen s <=? i then None else nth_error s (Z.to_nat i).

(** scheduler.c:60-67. *)
Definition scheduler_set_entry (s : list entry) (i : Z) (e : entry) : list entry * Z :=
  if zlen s <=? i then (s, -1) else (upd s (Z.to_nat i) e, 0).

(** scheduler.c:70-76; the result is a uint8_t. *)
Definition scheduler_is_schedule_entry_enabled (s : list entry) (i : Z) : Z :=
  if zlen s <=? i then wrap 8 (-1) else enabled (nth (Z.to_nat i) s zero_entry).

(** scheduler.c:79-86. *)
Definition scheduler_disable_schedule_entry (s : list entry) (i : Z) : list entry * Z :=
  if zlen s <=? i then (s, -1)
  else let e := nth (Z.to_nat i) s zero_entry in
       (upd s (Z.to_nat i) (mkEntry 0 (days e) (start_second e) (end_second e) (value e)), 0).

(** scheduler.c:288-290. *)
Definition to_seconds (hour minute seconds : Z) : Z :=
  wrap 64 (wrap 8 hour * 60 * 60 + wrap 8 minute * 60 + wrap 8 seconds).

(** scheduler.c:293-295. *)
Definition is_day_included (dys today : Z) : Z := b2z (0 <? Z.land dys (Z.shiftl 1 (wrap 8 today))).

(** scheduler.c:89-105. *)
Definition is_entry_active (e : entry) (t : tm) : bool :=
  if is_day_included (days e) (tm_wday t) =? 0 then false
  else
    let current := to_seconds (tm_hour t) (tm_min t) (tm_sec t) in
    let start := start_second e in
    let end_ := end_second e in
    if seconds_in_day <? end_ then
      (current <? end_ - seconds_in_day) || ((start <=? current) && (current <? seconds_in_day))
    else (start <=? current) && (current <? end_).

(** scheduler.c:275-285; the subtraction is done on uint32_t. *)
Definition scheduler_get_entry_duration (e : entry) : Z :=
  if start_second e <? end_second e then wrap 32 (end_second e - start_second e)
  else wrap 32 (start_second e - end_second e).

(** scheduler.c:298-305. *)
Definition total_week_timespan (e : entry) : Z :=
  let num_days := fold_left (fun n i => n + is_day_included (days e) i) [0;1;2;3;4;5;6] 0 in
  wrap 64 (scheduler_get_entry_duration e * num_days).

Record search := mkSearch { found : bool; foundtotal : Z; foundvalue : Z; foundid : Z }.

(** scheduler.c:119-136: the loop over the rest of the table from index [i]. *)
Fixpoint active_loop (s : list entry) (t : tm) (i : Z) (f : search) : search :=
  match s with
  | [] => f
  | e :: s' =>
      let f' :=
        if enabled e =? 0 then f
        else if is_entry_active e t then
          if negb (found f) || (total_week_timespan e <? foundtotal f) ||
             ((total_week_timespan e =? foundtotal f) && (foundvalue f <? value e))
          then mkSearch true (total_week_timespan e) (wrap 8 (value e)) (swrap 32 i)
          else f
        else f in
      active_loop s' t (i + 1) f'
  end.

(** scheduler.c:113-139. *)
Definition scheduler_get_active_entry_number (s : list entry) (t : tm) : Z :=
  foundid (active_loop s t 0 (mkSearch false 0 0 (-1))).

(** scheduler.c:108-110. *)
Definition scheduler_is_active (s : list entry) (t : tm) : Z :=
  b2z (0 <=? scheduler_get_active_entry_number s t).

(** scheduler.c:166-177; the second component is what is stored through [value]. *)
Definition scheduler_current_value (s : list entry) (t : tm) : outcome (Z * option Z) :=
  let id := scheduler_get_active_entry_number s t in
  if 0 <=? id then do e <- zget s id; Done (1, Some (value e)) else Done (0, None).

(** scheduler.c:143. *)
Definition INCLUDED (instant : Z) (e : entry) : bool :=
  (start_second e <=? instant) && (instant <=? end_second e).

(** scheduler.c:142-163. *)
Definition scheduler_are_there_overlapping_entries (s : list entry) (e : entry) : Z :=
  fold_left (fun n o =>
    if enabled o =? 0 then n
    else if 0 <? Z.land (days o) (days e) then
      if INCLUDED (start_second e) o || INCLUDED (end_second e) o ||
         INCLUDED (start_second o) e || INCLUDED (end_second o) e
      then wrap 64 (n + 1) else n
    else n) s 0.

(** scheduler.c:181-185: [n] table entries left from index [i]. *)
Fixpoint next_loop (s : list entry) (n : nat) (i : Z) : Z :=
  match n with
  | O => -1
  | S n' => if scheduler_is_schedule_entry_enabled s i =? 0 then next_loop s n' (i + 1) else swrap 32 i
  end.

(** scheduler.c:180-188. *)
Definition scheduler_get_next_enabled_entry (s : list entry) (start : Z) : Z :=
  next_loop s (Z.to_nat (zlen s - start)) start.

(** scheduler.c:192-196. *)
Fixpoint available_loop (s : list entry) (n : nat) (i : Z) : Z :=
  match n with
  | O => -1
  | S n' => if scheduler_is_schedule_entry_enabled s i =? 0 then swrap 32 i else available_loop s n' (i + 1)
  end.

(** scheduler.c:191-199. *)
Definition scheduler_get_first_available_entry (s : list entry) : Z :=
  available_loop s (Z.to_nat (zlen s)) 0.

(** scheduler.c:205-207. *)
Fixpoint map_loop (s : list entry) (t : tm) (i result : Z) : Z :=
  match s with
  | [] => result
  | e :: s' => map_loop s' t (i + 1) (wrap 16 (Z.lor result (Z.shiftl (b2z (is_entry_active e t)) i)))
  end.

(** scheduler.c:202-210, for tables of up to 31 entries. *)
Definition scheduler_get_active_entries_map (s : list entry) (t : tm) : Z := map_loop s t 0 0.

(** scheduler.c:213-228. *)
Definition scheduler_get_schedule_remaining_duration (s : list entry) (i : Z) (t : tm) : Z :=
  match scheduler_get_entry s i with
  | None => 0
  | Some e =>
      if is_entry_active e t
      then wrap 64 (end_second e - to_seconds (tm_hour t) (tm_min t) (tm_sec t))
      else 0
  end.

(** scheduler.c:231-239; the id becomes a size_t. *)
Definition scheduler_get_current_remaining_duration (s : list entry) (t : tm) : Z :=
  let id := scheduler_get_active_entry_number s t in
  if 0 <=? id then scheduler_get_schedule_remaining_duration s (wrap 64 id) t else 0.

(** scheduler.c:242-244. *)
Definition scheduler_get_max_schedule_entries (s : list entry) : Z := zlen s.

(** scheduler.c:247-257; [off] is the offset of the pointer in its buffer. *)
Definition scheduler_entry_serialize (buf : list Z) (off : Z) (e : entry) : outcome (list Z * Z) :=
  let i := 0 in
  do (buf, n) <- serialize_uint8 buf (off + i) (enabled e); let i := i + n in
  do (buf, n) <- serialize_uint8 buf (off + i) (days e); let i := i + n in
  do (buf, n) <- serialize_uint32_le buf (off + i) (start_second e); let i := i + n in
  do (buf, n) <- serialize_uint32_le buf (off + i) (end_second e); let i := i + n in
  do (buf, n) <- serialize_uint8 buf (off + i) (wrap 8 (value e)); let i := i + n in
  if i =? 11 then Done (buf, i) else Abort.

(** scheduler.c:260-272. *)
Definition scheduler_entry_deserialize (buf : list Z) (off : Z) : outcome (entry * Z) :=
  let i := 0 in
  do (en, n) <- deserialize_uint8 buf (off + i); let i := i + n in
  do (dy, n) <- deserialize_uint8 buf (off + i); let i := i + n in
  do (st, n) <- deserialize_uint32_le buf (off + i); let i := i + n in
  do (ed, n) <- deserialize_uint32_le buf (off + i); let i := i + n in
  do (v, n) <- deserialize_uint8 buf (off + i); let i := i + n in
  if i =? 11 then Done (mkEntry en dy st ed v, i) else Abort.
