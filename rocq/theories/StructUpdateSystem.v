(** Running histories on the model. *)
From Verif Require Import Base StructUpdateModel StructUpdateSpec.

(** malloc may answer with any place of the heap that is not in use. *)
Definition vacant (m : memory) (p n : Z) : Prop :=
  program m <= p /\ 0 < n /\ p + n <= zlen (bytes m) /\ Forall (fun '(q, k) => p + n <= q \/ q + k <= p) (blocks m).

(** One operation; [p] is what malloc answers.  The updates made so far are kept by the program. *)
Definition urun1 (m : memory) (us : list struct_update) (o : op) (p : option Z) : outcome (memory * list struct_update) :=
  match o with
  | OMake off src n => do (m, u) <- struct_update_from_data m p off src n; Done (m, us ++ [u])
  | OApply dest i =>
      match nth_error us i with
      | Some u => do m <- struct_update_apply m dest u; Done (m, us)
      | None => Undef
      end
  | OFree i =>
      match nth_error us i with
      | Some u => do m <- struct_update_free m u; Done (m, us)
      | None => Undef
      end
  | OStore a d =>
      if negb (accessible m a (zlen d)) then Undef
      else do b <- zwrite (bytes m) a d; Done (mkMemory b (program m) (blocks m), us)
  end.

(** [urun m us h m' us']: the history [h] can take [m] and the updates [us] to [m'] and [us'], with malloc answering with
    vacant blocks. *)
Inductive urun : memory -> list struct_update -> list op -> memory -> list struct_update -> Prop :=
| urun_nil : forall m us, urun m us [] m us
| urun_cons : forall m us o ops p m1 us1 m2 us2,
    (forall off src n, o = OMake off src n -> vacant m p n) ->
    urun1 m us o (Some p) = Done (m1, us1) -> urun m1 us1 ops m2 us2 -> urun m us (o :: ops) m2 us2.

(** The program's variables. *)
Definition variables (m : memory) : list Z := firstn (Z.to_nat (program m)) (bytes m).

(** Nothing allocated yet. *)
Definition boot (m : memory) (s : state) : Prop :=
  0 <= program m <= zlen (bytes m) /\ blocks m = [] /\ s = mkState (variables m) [].

(** A program that stays within the rules never gets stuck, whatever malloc answers: every allowed operation is defined
    and its result is that of the specification. *)
Definition agrees (m : memory) (us : list struct_update) (s : state) : Prop :=
  variables m = vars s /\ length us = length (updates s) /\ length (blocks m) = live s.

(** Texts that are a single number, identifier or call, something in parentheses, or a product of those. *)
Definition primary (t : token) : Prop := match t with TVal _ | TParen _ => True | _ => False end.
Inductive product : list token -> Prop :=
| product_one : forall t, primary t -> product [t]
| product_mul : forall t e, primary t -> product e -> product (t :: TStar :: e).
