(** Concurrent model of all calls of gel/collections/circular_buffer.c that a producer thread
    (circular_buf_putc, circular_buf_puts) and a consumer thread (circular_buf_getc, circular_buf_gets,
    circular_buf_peek, circular_buf_drop) may make.

    Granularity as in SpscModel: every load or store of a shared location (head, tail, one buffer cell)
    is one atomic step, [bufsize] never changes and is read without a step; memcpy copies the cells in
    ascending order.  The state of a call is its position in the code with its local variables.  size_t
    has 64 bits, int 32.  [cbuf] and its buffer are not NULL.  The re-load of head and tail at the end of
    putc and getc only produces an ignored return value and is left out. *)
From Verif Require Import Base CbufModel.

Section Bulk.
Context {A : Type}.

(** circular_buffer.c:104: (head + 1) % bufsize, compared with tail. *)
Definition after (c : cbuf A) (i step : Z) : Z := (wrap 64 (i + wrap 64 step)) mod bufsize c.

(** * The producer *)

(** Local variables of circular_buf_puts (circular_buffer.c:153-180). *)
Record puts_locals := mkPuts { u_head : Z; u_tail : Z; u_data : list A; u_len : Z; u_written : Z }.

(** Positions in circular_buf_putc (138-151) and circular_buf_puts (153-180). *)
Inductive ppc :=
| PFull0 (a : A)                         (* 144 -> 104: about to load head *)
| PFull1 (a : A) (h : Z)                 (* 104: about to load tail and compare *)
| PCell0 (a : A)                         (* 145: about to load head *)
| PCell1 (a : A) (h : Z)                 (* 145: about to store buffer[h] *)
| PAdv0 (a : A)                          (* 146 -> 14 -> 104: about to load head *)
| PAdv1 (a : A) (h : Z)                  (* 104: about to load tail and compare *)
| PHead0 (a : A)                         (* 18: about to load head *)
| PHead1 (a : A) (h : Z)                 (* 18: about to store head *)
| UHead0 (data : list A) (len : Z)       (* 159: about to load head *)
| UTail0 (data : list A) (len h : Z)     (* 160: about to load tail *)
| ULoop0 (l : puts_locals)               (* 161 -> 104: about to load head *)
| ULoop1 (l : puts_locals) (h : Z)       (* 104: about to load tail, compare, test len, compute the chunk *)
| UCopy (l : puts_locals) (chunk i : Z)  (* 172: about to copy data[i] to buffer[head + i], or done *)
| UAdv0 (l : puts_locals) (chunk : Z)    (* 173 -> 14 -> 104: about to load head *)
| UAdv1 (l : puts_locals) (chunk h : Z)  (* 104: about to load tail and compare *)
| USet0 (l : puts_locals) (chunk : Z)    (* 18: about to load head *)
| USet1 (l : puts_locals) (chunk h : Z)  (* 18: about to store head *)
| URet (l : puts_locals) (chunk : Z).    (* 15 or 22: about to load head; then 174-176 *)

(** 162-170. *)
Definition chunk_of (c : cbuf A) (l : puts_locals) : Z :=
  swrap 32 (
    if u_tail l <=? u_head l then
      if u_tail l =? 0 then
        if wrap 64 (wrap 64 (bufsize c - u_head l) - 1) <? u_len l then wrap 64 (wrap 64 (bufsize c - u_head l) - 1) else u_len l
      else if wrap 64 (bufsize c - u_head l) <? u_len l then wrap 64 (bufsize c - u_head l) else u_len l
    else if wrap 64 (u_tail l - u_head l) <? u_len l then wrap 64 (wrap 64 (u_tail l - u_head l) - 1) else u_len l).

(** What a step of a thread does: go on, return, or access memory outside the region or the array. *)
Inductive move (PC : Type) :=
| Go (c : cbuf A) (pc : PC) | Ret (c : cbuf A) (r : Z) (d : list A) | Bad.
Arguments Go {PC}. Arguments Ret {PC}. Arguments Bad {PC}.

Definition pnext (c : cbuf A) (pc : ppc) : move ppc :=
  match pc with
  | PFull0 a => Go c (PFull1 a (head c))
  | PFull1 a h => if after c h 1 =? tail c then Ret c (-1) [] else Go c (PCell0 a)
  | PCell0 a => Go c (PCell1 a (head c))
  | PCell1 a h => match zset (buffer c) h a with Done b => Go (with_buffer c b) (PAdv0 a) | _ => Bad end
  | PAdv0 a => Go c (PAdv1 a (head c))
  | PAdv1 a h => if after c h 1 =? tail c then Ret c 0 [] else Go c (PHead0 a)
  | PHead0 a => Go c (PHead1 a (head c))
  | PHead1 a h => Ret (with_head c (after c h 1)) 0 []
  | UHead0 data len => Go c (UTail0 data len (head c))
  | UTail0 data len h => Go c (ULoop0 (mkPuts h (tail c) data len 0))
  | ULoop0 l => Go c (ULoop1 l (head c))
  | ULoop1 l h => if negb (after c h 1 =? tail c) && (0 <? u_len l) then Go c (UCopy l (chunk_of c l) 0) else Ret c (u_written l) []
  | UCopy l chunk i =>
      if i <? chunk then
        match zget (u_data l) i with
        | Done a => match zset (buffer c) (u_head l + i) a with Done b => Go (with_buffer c b) (UCopy l chunk (i + 1)) | _ => Bad end
        | _ => Bad
        end
      else Go c (UAdv0 l chunk)
  | UAdv0 l chunk => Go c (UAdv1 l chunk (head c))
  | UAdv1 l chunk h => if (after c h 1 =? tail c) || (chunk =? 0) then Go c (URet l chunk) else Go c (USet0 l chunk)
  | USet0 l chunk => Go c (USet1 l chunk (head c))
  | USet1 l chunk h => Go (with_head c (after c h chunk)) (URet l chunk)
  | URet l chunk =>
      Go c (ULoop0 (mkPuts (head c) (u_tail l) (skipn (Z.to_nat chunk) (u_data l))
                           (wrap 64 (u_len l - wrap 64 chunk)) (swrap 32 (u_written l + chunk))))
  end.

(** The cell a producer step is about to store to. *)
Definition writes (pc : ppc) : option Z :=
  match pc with
  | PCell1 _ h => Some h
  | UCopy l chunk i => if i <? chunk then Some (u_head l + i) else None
  | _ => None
  end.

(** * The consumer *)

(** Local variables of _circular_buf_get (circular_buffer.c:31-64): [present] is [data != NULL] and
    [g_data] what has been copied to it. *)
Record get_locals := mkGet { g_head : Z; g_tail : Z; g_len : Z; g_read : Z; g_data : list A }.

(** Positions in circular_buf_getc (187-200) and _circular_buf_get. *)
Inductive cpc :=
| CEmpty0                                           (* 191 -> 97: about to load head *)
| CEmpty1 (h : Z)                                   (* 97: about to load tail and compare *)
| CCell0                                            (* 195: about to load tail *)
| CCell1 (t : Z)                                    (* 195: about to load buffer[t] *)
| CTail0 (v : A)                                    (* 197 -> 26: about to load tail *)
| CTail1 (v : A) (t : Z)                            (* 26: about to store tail *)
| GSize0 (len : Z) (present consume : bool)         (* 33 -> 113: about to load tail *)
| GSize1 (len : Z) (present consume : bool) (t : Z) (* 114: about to load head *)
| GSize2 (len : Z) (present consume : bool) (t h : Z)     (* 115 -> 104: about to load head *)
| GSize3 (len : Z) (present consume : bool) (t h fh : Z)  (* 104: about to load tail, compare, 116-123, 37 *)
| GTail0 (len : Z) (present consume : bool)         (* 39: about to load tail *)
| GHead0 (len : Z) (present consume : bool) (t : Z) (* 40: about to load head *)
| GLoop (l : get_locals) (present consume : bool)   (* 41-48 *)
| GCopy (l : get_locals) (present consume : bool) (chunk i : Z)   (* 51: about to copy buffer[tail + i], or done *)
| GAdv0 (l : get_locals) (present consume : bool) (chunk : Z)     (* 54-58; 58 -> 26: about to load tail *)
| GAdv1 (l : get_locals) (present : bool) (chunk t : Z)           (* 26: about to store tail *)
| GAdv2 (l : get_locals) (present : bool).                        (* 28: about to load tail *)

(** 42-48; [head] and [tail] are ints. *)
Definition get_chunk (c : cbuf A) (l : get_locals) : Z :=
  let chunk := if g_tail l <? g_head l then wrap 64 (g_head l - g_tail l) else wrap 64 (bufsize c - wrap 64 (g_tail l)) in
  if g_len l <? chunk then g_len l else chunk.

(** 54-55. *)
Definition advance (l : get_locals) (t chunk : Z) : get_locals :=
  mkGet (g_head l) t (wrap 64 (g_len l - chunk)) (swrap 32 (g_read l + chunk)) (g_data l).

Definition cnext (c : cbuf A) (pc : cpc) : move cpc :=
  match pc with
  | CEmpty0 => Go c (CEmpty1 (head c))
  | CEmpty1 h => if h =? tail c then Ret c (-1) [] else Go c CCell0
  | CCell0 => Go c (CCell1 (tail c))
  | CCell1 t => match zget (buffer c) t with Done v => Go c (CTail0 v) | _ => Bad end
  | CTail0 v => Go c (CTail1 v (tail c))
  | CTail1 v t => Ret (with_tail c (after c t 1)) 0 [v]
  | GSize0 len p k => Go c (GSize1 len p k (swrap 32 (tail c)))
  | GSize1 len p k t => Go c (GSize2 len p k t (swrap 32 (head c)))
  | GSize2 len p k t h => Go c (GSize3 len p k t h (head c))
  | GSize3 len p k t h fh =>
      let size := if negb (after c fh 1 =? tail c) then
                    if t <=? h then wrap 64 (h - t) else wrap 64 (bufsize c + h - t)
                  else bufsize c in
      Go c (GTail0 (if len <? size then len else size) p k)
  | GTail0 len p k => Go c (GHead0 len p k (swrap 32 (tail c)))
  | GHead0 len p k t => Go c (GLoop (mkGet (swrap 32 (head c)) t len 0 []) p k)
  | GLoop l p k =>
      if 0 <? g_len l then Go c (if p then GCopy l p k (get_chunk c l) 0 else GAdv0 l p k (get_chunk c l))
      else Ret c (g_read l) (g_data l)
  | GCopy l p k chunk i =>
      if i <? chunk then
        match zget (buffer c) (g_tail l + i) with
        | Done v => Go c (GCopy (mkGet (g_head l) (g_tail l) (g_len l) (g_read l) (g_data l ++ [v])) p k chunk (i + 1))
        | _ => Bad
        end
      else Go c (GAdv0 l p k chunk)
  | GAdv0 l p k chunk =>
      if k then Go c (GAdv1 l p chunk (tail c))
      else Go c (GLoop (advance l (swrap 32 ((wrap 64 (wrap 64 (g_tail l) + chunk)) mod bufsize c)) chunk) p k)
  | GAdv1 l p chunk t => Go (with_tail c (after c t (swrap 32 chunk))) (GAdv2 (advance l (g_tail l) chunk) p)
  | GAdv2 l p => Go c (GLoop (mkGet (g_head l) (swrap 32 (tail c)) (g_len l) (g_read l) (g_data l)) p true)
  end.

(** The cell a consumer step is about to load. *)
Definition reads (pc : cpc) : option Z :=
  match pc with
  | CCell1 t => Some t
  | GCopy l _ _ chunk i => if i <? chunk then Some (g_tail l + i) else None
  | _ => None
  end.

End Bulk.
Arguments puts_locals : clear implicits.
Arguments get_locals : clear implicits.
Arguments ppc : clear implicits.
Arguments cpc : clear implicits.
Arguments move : clear implicits.
Arguments Go {A PC}. Arguments Ret {A PC}. Arguments Bad {A PC}.
