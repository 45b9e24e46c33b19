(** Property C96: the maybe type.  [meaning] is the mathematical value of the C struct. *)
From Verif Require Import Base MaybeModel.

(** Specification: any non-zero [nothing] field means absence. *)
Definition meaning {T} (m : maybe T) : option T := if nothing m =? 0 then Some (just m) else None.

(** Every struct content, not only those built by the functions. *)
Theorem maybe_meaning : forall (T : Type) (zero : T) (m : maybe T) (a d : T) (f : T -> T) (g : T -> maybe T),
  meaning (maybe_return a) = Some a /\ meaning (maybe_nothing zero) = None /\
  (maybe_is_just m = 1 <-> meaning m <> None) /\ (maybe_is_just m = 0 <-> meaning m = None) /\
  maybe_with_default m d = match meaning m with Some x => x | None => d end /\
  meaning (maybe_map m f) = option_map f (meaning m) /\
  meaning (maybe_bind m g) = match meaning m with Some x => meaning (g x) | None => None end.
Proof.
  intros T zero m a d f g. unfold meaning, maybe_with_default, maybe_map, maybe_bind, maybe_is_just, maybe_return, maybe_nothing.
  cbn [nothing just Z.eqb]. destruct (nothing m =? 0) eqn:E; cbn [Z.eqb nothing just option_map]; rewrite ?E;
    repeat split; try discriminate; try congruence.
Qed.
Print Assumptions maybe_meaning.

(** The monad and functor laws hold for the structs themselves. *)
Theorem maybe_laws : forall (T : Type) (zero : T) (m : maybe T) (a : T) (f h : T -> T) (g k : T -> maybe T),
  maybe_bind (maybe_return a) g = g a /\
  maybe_bind m maybe_return = m /\
  maybe_bind (maybe_bind m g) k = maybe_bind m (fun x => maybe_bind (g x) k) /\
  maybe_bind (maybe_nothing zero) g = maybe_nothing zero /\
  maybe_map m (fun x => x) = m /\
  maybe_map (maybe_map m f) h = maybe_map m (fun x => h (f x)) /\
  maybe_map m f = maybe_bind m (fun x => maybe_return (f x)) /\
  maybe_map (maybe_nothing zero) f = maybe_nothing zero.
Proof.
  intros T zero [j n] a f h g k. unfold maybe_map, maybe_bind, maybe_is_just, maybe_return, maybe_nothing. cbn [nothing just Z.eqb].
  destruct (Z.eqb_spec n 0) as [->|Hn]; cbn [Z.eqb nothing just]; [repeat split|].
  destruct (Z.eqb_spec n 0); [contradiction|]. cbn [Z.eqb]. repeat split.
Qed.
Print Assumptions maybe_laws.

Example maybe_example :
  let half (x : Z) := if x mod 2 =? 0 then maybe_return (x / 2) else maybe_nothing 0 in
  meaning (maybe_bind (maybe_bind (maybe_return 12) half) half) = Some 3 /\
  meaning (maybe_bind (maybe_bind (maybe_return 6) half) half) = None /\
  maybe_with_default (maybe_map (maybe_nothing 0) (Z.add 1)) 7 = 7.
Proof. repeat split. Qed.
