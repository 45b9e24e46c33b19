(** Property C210: reading an event log page by page. *)
From Verif Require Import Base EventLogModel EventLogSpec EventLogSystem LogPagesSystem LogPagesProofs.

(** C210: the pages put together are the newest events of the history [h] before the first page, as many as asked for
    or stored, each once and in chronological order, no matter how many events are saved between the pages, as long as
    these do not overwrite what is still to be read. *)
Theorem eventlog_pages : forall m es, 0 < m <= INT_MAX -> 0 <= es ->
  forall slots buf page h ms, slots_ok m es slots -> sz (zlen buf) -> 0 < page -> page * es <= zlen buf ->
  Forall (lop_ok es) (h ++ concat ms) -> Forall untorn (h ++ concat ms) ->
  let wanted := zlen ms * page in
  let meanwhile := zlen (saved (concat ms)) in
  wanted + meanwhile < 2 ^ 64 -> meanwhile = 0 \/ Z.min (zlen (saved h)) wanted + meanwhile <= m ->
  exists pages, browse m es slots buf page h 0 0 ms = Done pages /\
    concat pages = concat (last_n wanted (last_n m (saved h))).
Proof.
  intros m es Hm Hes slots buf page h ms Hs Hb Hp Hr Hok Hu wanted meanwhile Hl Hc.
  destruct (browse_l m es Hm Hes slots buf page (saved h) Hs Hb Hp Hr ms h 0 [] Hok Hu) as (pages & E & C).
  - now rewrite app_nil_r.
  - lia.
  - exact Hl.
  - exact Hc.
  - exists pages. split; [exact E|]. rewrite Z.mul_0_l, last_n_0 in C. cbn [concat] in C. rewrite app_nil_r in C. exact C.
Qed.
Print Assumptions eventlog_pages.

Definition slots5 : list (list Z) := [[0]; [0]; [0]; [0]; [0]].

(** Six events in a log of five, read in pages of two: everything stored. *)
Example eventlog_pages_case :
  slots_ok 5 1 slots5 /\
  browse 5 1 slots5 [9; 9; 9] 2 [LSave [1]; LSave [2]; LFail [8] (-1); LSave [3]; LSave [4]; LSave [5]; LSave [6]] 0 0 [[]; []; []] =
    Done [[2]; [3; 4]; [5; 6]].
Proof. split; [split; [reflexivity|repeat constructor]|vm_compute; reflexivity]. Qed.

(** Two events are saved during the reading; three old events and these fit. *)
Example eventlog_pages_busy :
  browse 5 1 slots5 [9; 9; 9] 2 [LSave [1]; LSave [2]; LSave [3]] 0 0 [[]; [LSave [4]; LSave [5]]] = Done [[1]; [2; 3]].
Proof. vm_compute. reflexivity. Qed.

(** Three do not: the event 1 has been overwritten, and the page stays empty.  Without adding the events saved meanwhile to
    the jump (as a caller may forget), 3 would come twice. *)
Example eventlog_pages_lost :
  browse 5 1 slots5 [9; 9; 9] 2 [LSave [1]; LSave [2]; LSave [3]] 0 0 [[]; [LSave [4]; LSave [5]; LSave [6]]] = Done [[]; [2; 3]] /\
  exists reqs, load_after 5 1 slots5 [LSave [1]; LSave [2]; LSave [3]; LSave [4]] no_fault [9; 9; 9] 2 2 = Done (reqs, [1; 2; 9], 2) /\
  exists reqs', load_after 5 1 slots5 [LSave [1]; LSave [2]; LSave [3]; LSave [4]; LSave [5]] no_fault [9; 9; 9] 2 2 = Done (reqs', [2; 3; 9], 2).
Proof. split; [vm_compute; reflexivity|]. eexists. split; [vm_compute; reflexivity|]. eexists. vm_compute. reflexivity. Qed.
