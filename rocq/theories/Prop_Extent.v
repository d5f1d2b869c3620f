(** C74: how the length of a sequence, stream or string is given does not change what is read. *)
From Coq Require Import String Ascii List ZArith Bool Lia.
From Verif Require Import Base PyVal PyStruct DataTypes ClassFactory DataMaps Demo DemoProofs SpecPrim SpecMap SpecCreate SpecReads SpecExtent ExtentProofs ReadsWitness ExtentWitness.
Import ListNotations.
Open Scope string_scope.
Open Scope list_scope.
Open Scope Z_scope.

(** C74. What one sequence maps, every sequence of the same type and byte order that asks for these elements in another way maps to the same tuple in the same number of bytes. *)
Theorem C74_elements : forall orc e e' el m m' bs off vals vals' depth vs n,
  extensional orc -> e_bo e' = e_bo e -> (has_data_size e' = true -> everywhere exact el) ->
  everywhere regular (DElems KSequence e el) -> everywhere regular (DElems KSequence e' el) ->
  create orc (DElems KSequence e el) None = Ok (Some m) ->
  create orc (DElems KSequence e' el) None = Ok (Some m') ->
  0 <= off <= len bs -> depth + levels (DElems KSequence e el) <= 11 ->
  asks_for orc e' el vals' vs ->
  (exists fuel, maps orc fuel m bs off vals depth (VTuple vs) n) ->
  exists fuel, maps orc fuel m' bs off vals' depth (VTuple vs) n.
Proof. exact ExtentProofs.same_elements. Qed.
Print Assumptions C74_elements.

Example C74_example :
  (exists fuel, maps demo fuel (the_map d_many) until_bytes 1 [("count", VInt 2)] 0 (VTuple until_values) 6) /\
  (exists fuel, maps demo fuel (the_map d_bytes) until_bytes 1 [] 0 (VTuple until_values) 6).
Proof.
  split.
  - apply (C74_elements demo (elems_term "until" d_uint16 (VInt 0)) (elems_number_expr "many" d_uint16 "count + 1") d_uint16
      (the_map d_until) (the_map d_many) until_bytes 1 [] [("count", VInt 2)] 0 until_values 6).
    + exact extensional_demo.
    + reflexivity.
    + discriminate.
    + exact until_regular.
    + exact many_regular.
    + exact until_created.
    + exact many_created.
    + vm_compute. split; discriminate.
    + vm_compute. discriminate.
    + exact many_asks.
    + exists 20%nat. exact until_maps.
  - apply (C74_elements demo (elems_term "until" d_uint16 (VInt 0)) (elems_size "bytes" d_uint16 6) d_uint16
      (the_map d_until) (the_map d_bytes) until_bytes 1 [] [] 0 until_values 6).
    + exact extensional_demo.
    + reflexivity.
    + intros _. split; exact I.
    + exact until_regular.
    + exact bytes_regular.
    + exact until_created.
    + exact bytes_created.
    + vm_compute. split; discriminate.
    + vm_compute. discriminate.
    + exact bytes_asks.
    + exists 20%nat. exact until_maps.
Qed.

(** C74. So for streams, whatever their elements are. *)
Theorem C74_streams : forall orc e e' el el' m m' bs off vals vals' depth l n,
  extensional orc ->
  everywhere regular (DElems KStream e el) -> everywhere regular (DElems KStream e' el') ->
  create orc (DElems KStream e el) None = Ok (Some m) ->
  create orc (DElems KStream e' el') None = Ok (Some m') ->
  0 <= off <= len bs -> depth <= 11 -> asks_for_bytes orc e' el' vals' l ->
  (exists fuel, maps orc fuel m bs off vals depth (VBytes l) n) ->
  exists fuel, maps orc fuel m' bs off vals' depth (VBytes l) n.
Proof. exact ExtentProofs.same_bytes. Qed.
Print Assumptions C74_streams.

Example C74_example_stream :
  exists fuel, maps demo fuel (the_map (DElems KStream (elems_number "raw" d_uint8 3) d_uint8)) word_bytes 1 [] 0 (VBytes (bs [104; 105; 0])) 3.
Proof.
  apply (C74_streams demo e_word (elems_number "raw" d_uint8 3) d_char d_uint8
    (the_map (DElems KStream e_word d_char)) (the_map (DElems KStream (elems_number "raw" d_uint8 3) d_uint8)) word_bytes 1 [] [] 0 (bs [104; 105; 0]) 3).
  - exact extensional_demo.
  - exact (proj1 stream_regular).
  - exact (proj2 stream_regular).
  - exact (proj1 stream_created).
  - exact (proj2 stream_created).
  - vm_compute. split; discriminate.
  - discriminate.
  - exact stream_asks.
  - exists 20%nat. exact stream_maps.
Qed.

(** C74. So for strings with the same terminator and encoding. *)
Theorem C74_strings : forall orc e e' el el' m m' bs off vals vals' depth v n,
  extensional orc -> e_terminator e' = e_terminator e -> e_encoding e' = e_encoding e ->
  everywhere regular (DElems KString e el) -> everywhere regular (DElems KString e' el') ->
  create orc (DElems KString e el) None = Ok (Some m) ->
  create orc (DElems KString e' el') None = Ok (Some m') ->
  0 <= off <= len bs -> depth <= 11 -> asks_for_bytes orc e' el' vals' (window bs off n) ->
  (exists fuel, maps orc fuel m bs off vals depth v n) ->
  exists fuel, maps orc fuel m' bs off vals' depth v n.
Proof. exact ExtentProofs.same_text. Qed.
Print Assumptions C74_strings.

Example C74_example_string :
  (exists fuel, maps demo fuel (the_map (DElems KString e_fixed_word d_char)) word_bytes 1 [] 0 (VStr [104; 105]) 3) /\
  (exists fuel, maps demo fuel (the_map (DElems KString e_word d_char)) word_bytes 1 [] 0 (VStr [104; 105]) 3).
Proof.
  split.
  - apply (C74_strings demo e_word e_fixed_word d_char d_char
      (the_map (DElems KString e_word d_char)) (the_map (DElems KString e_fixed_word d_char)) word_bytes 1 [] [] 0 (VStr [104; 105]) 3).
    + exact extensional_demo.
    + reflexivity.
    + reflexivity.
    + exact word_regular.
    + exact fixed_word_regular.
    + exact word_created.
    + exact fixed_word_created.
    + vm_compute. split; discriminate.
    + discriminate.
    + exact fixed_word_asks.
    + exists 20%nat. exact word_maps.
  - apply (C74_strings demo e_fixed_word e_word d_char d_char
      (the_map (DElems KString e_fixed_word d_char)) (the_map (DElems KString e_word d_char)) word_bytes 1 [] [] 0 (VStr [104; 105]) 3).
    + exact extensional_demo.
    + reflexivity.
    + reflexivity.
    + exact fixed_word_regular.
    + exact word_regular.
    + exact fixed_word_created.
    + exact word_created.
    + vm_compute. split; discriminate.
    + discriminate.
    + exact word_asks.
    + exists 20%nat. exact fixed_word_maps.
Qed.

(** C74. A string of a data size without the terminator keeps it as text. *)
Theorem C74_terminator_refuted : exists e e' el m m' b n v v',
  e_encoding e' = e_encoding e /\
  everywhere regular (DElems KString e el) /\ everywhere regular (DElems KString e' el) /\
  create demo (DElems KString e el) None = Ok (Some m) /\ create demo (DElems KString e' el) None = Ok (Some m') /\
  asks_for_bytes demo e' el [] (window b 0 n) /\
  maps demo 20 m b 0 [] 0 v n /\ maps demo 20 m' b 0 [] 0 v' n /\ v <> v'.
Proof. exact ExtentWitness.kept_terminator_refuted. Qed.
Print Assumptions C74_terminator_refuted.
