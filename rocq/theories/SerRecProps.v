(** Property C177: records written and read field by field with serializer.h. *)
From Verif Require Import Base BaseLemmas SerializerModel SerializerSpec SerializerSystem
  SerRecSpec SerRecSystem SerRecProofs.

(** C177: every list of fields takes the sum of the sizes, in order, and touches nothing else. *)
Theorem serializer_record_write : forall r (pre mid post : list Z),
  zlen mid = record_size (map fst r) ->
  write_record (pre ++ mid ++ post) (zlen pre) r
    = Done (pre ++ record_bytes r ++ post, zlen pre + record_size (map fst r)).
Proof. exact record_write_l. Qed.
Print Assumptions serializer_record_write.

(** C177: the same list of types reads the values back; by ISO C ([iso]) exactly the records
    with a negative 32 or 64 bit signed field are undefined to read. *)
Theorem serializer_record_read : forall iso r (pre post : list Z), record_fits r ->
  read_record iso (pre ++ record_bytes r ++ post) (zlen pre) (map fst r)
    = if iso && negb (forallb iso_safe r) then Undef
      else Done (map snd r, zlen pre + record_size (map fst r)).
Proof. exact record_read_l. Qed.
Print Assumptions serializer_record_read.

(** C177: what was read from any bytes is written back as the same bytes. *)
Theorem serializer_record_rewrite : forall ts (pre bs post pre' mid post' : list Z),
  zlen bs = record_size ts -> Forall is_byte bs -> zlen mid = record_size ts ->
  exists vs, length vs = length ts /\ record_fits (combine ts vs) /\
    read_record false (pre ++ bs ++ post) (zlen pre) ts = Done (vs, zlen pre + record_size ts) /\
    write_record (pre' ++ mid ++ post') (zlen pre') (combine ts vs)
      = Done (pre' ++ bs ++ post', zlen pre' + record_size ts).
Proof. exact record_rewrite_l. Qed.
Print Assumptions serializer_record_rewrite.

(** C177: the functions do not know the buffer's size; a record that does not fit overruns it. *)
Theorem serializer_record_short : forall r (buf : list Z) i iso, 0 <= i <= zlen buf ->
  zlen buf < i + record_size (map fst r) -> Forall is_byte buf ->
  write_record buf i r = Undef /\ read_record iso buf i (map fst r) = Undef.
Proof. exact record_short_l. Qed.
Print Assumptions serializer_record_short.

Definition example_record : list (ftype * Z) :=
  [({| f_signed := false; f_width := W16; f_order := BE |}, 258);
   ({| f_signed := true; f_width := W32; f_order := LE |}, -2);
   ({| f_signed := false; f_width := W8; f_order := LE |}, 7)].

Example serializer_record_example :
  record_fits example_record /\ record_size (map fst example_record) = 7 /\
  write_record (repeat 0 9) 1 example_record = Done ([0; 1; 2; 254; 255; 255; 255; 7; 0], 8) /\
  read_record false [0; 1; 2; 254; 255; 255; 255; 7; 0] 1 (map fst example_record) = Done ([258; -2; 7], 8) /\
  read_record true [0; 1; 2; 254; 255; 255; 255; 7; 0] 1 (map fst example_record) = Undef /\
  write_record (repeat 0 7) 1 example_record = Undef /\ zlen (repeat 0 7) < 1 + 7.
Proof.
  split; [repeat constructor; cbn; try reflexivity; discriminate|]. repeat split.
Qed.
