(** Reading an event log page by page while events go on being saved. *)
From Verif Require Import Base EventLogModel EventLogSpec EventLogSystem.

(** The caller reads page after page of [page] events, the newest first, each into the front of a buffer; before the
    j-th one (from 0) the attempts to save of [ms] at j are made.  It jumps over the pages it has and over the [k] events
    saved since it began.  The bytes of the pages, the oldest page first. *)
Fixpoint browse (m es : Z) (slots : list (list Z)) (buf : list Z) (page : Z) (h : list lop) (j k : Z) (ms : list (list lop))
  : outcome (list (list Z)) :=
  match ms with
  | [] => Done []
  | more :: ms' =>
      let k' := k + zlen (saved more) in
      do r <- load_after m es slots (h ++ more) no_fault buf page (j * page + k');
      let '(_, out, n) := r in
      do rest <- browse m es slots buf page (h ++ more) (j + 1) k' ms';
      Done (rest ++ [firstn (Z.to_nat (n * es)) out])
  end.
