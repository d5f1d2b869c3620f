(** C75: a sequence or stream can be read in parts. *)
From Coq Require Import String Ascii List ZArith Bool Lia.
From Verif Require Import Base PyVal PyStruct DataTypes ClassFactory DataMaps Expr Demo DemoProofs SpecPrim SpecMap SpecCreate SpecReads SpecExtent BytesProofs ReadsWitness ExtentWitness PieceProofs PieceWitness.
Import ListNotations.
Open Scope string_scope.
Open Scope list_scope.
Open Scope Z_scope.

(** C75. A sequence maps to the elements vs1 and then vs2 exactly if one that asks for vs1 maps at the offset and one that asks for vs2 maps directly after it. *)
Theorem C75_sequences : forall orc el e m vals e1 m1 vals1 e2 m2 vals2 bs off depth vs1 vs2 n,
  extensional orc -> e_bo e1 = e_bo e -> e_bo e2 = e_bo e ->
  (has_data_size e || has_data_size e1 || has_data_size e2 = true -> everywhere exact el) ->
  everywhere regular (DElems KSequence e el) -> create orc (DElems KSequence e el) None = Ok (Some m) ->
  everywhere regular (DElems KSequence e1 el) -> create orc (DElems KSequence e1 el) None = Ok (Some m1) ->
  everywhere regular (DElems KSequence e2 el) -> create orc (DElems KSequence e2 el) None = Ok (Some m2) ->
  asks_for orc e el vals (vs1 ++ vs2) -> asks_for orc e1 el vals1 vs1 -> asks_for orc e2 el vals2 vs2 ->
  0 <= off <= len bs -> depth + levels (DElems KSequence e el) <= 11 ->
  ((exists fuel, maps orc fuel m bs off vals depth (VTuple (vs1 ++ vs2)) n) <->
   exists n1 n2, n = n1 + n2 /\
     (exists fuel, maps orc fuel m1 bs off vals1 depth (VTuple vs1) n1) /\
     (exists fuel, maps orc fuel m2 bs (off + n1) vals2 depth (VTuple vs2) n2)).
Proof. exact PieceProofs.read_in_parts. Qed.
Print Assumptions C75_sequences.

Example C75_example :
  exists n1 n2, 6 = n1 + n2 /\
    (exists fuel, maps demo fuel (the_map d_first) until_bytes 1 [] 0 (VTuple [VInt 1]) n1) /\
    (exists fuel, maps demo fuel (the_map d_until) until_bytes (1 + n1) [] 0 (VTuple [VInt 2; VInt 0]) n2).
Proof.
  apply (C75_sequences demo d_uint16 e_until (the_map d_until) [] e_first (the_map d_first) [] e_until (the_map d_until) []
    until_bytes 1 0 [VInt 1] [VInt 2; VInt 0] 6).
  - exact extensional_demo.
  - reflexivity.
  - reflexivity.
  - discriminate.
  - exact until_regular.
  - exact until_created.
  - exact first_regular.
  - exact first_created.
  - exact until_regular.
  - exact until_created.
  - exact until_asks.
  - exact first_asks.
  - exact rest_asks.
  - vm_compute. split; discriminate.
  - vm_compute. discriminate.
  - exists 20%nat. exact until_maps.
Qed.

(** C75. So for streams. *)
Theorem C75_streams : forall orc el e m vals el1 e1 m1 vals1 el2 e2 m2 vals2 bs off depth l1 l2 n,
  extensional orc ->
  everywhere regular (DElems KStream e el) -> create orc (DElems KStream e el) None = Ok (Some m) ->
  everywhere regular (DElems KStream e1 el1) -> create orc (DElems KStream e1 el1) None = Ok (Some m1) ->
  everywhere regular (DElems KStream e2 el2) -> create orc (DElems KStream e2 el2) None = Ok (Some m2) ->
  asks_for_bytes orc e el vals (l1 ++ l2) -> asks_for_bytes orc e1 el1 vals1 l1 -> asks_for_bytes orc e2 el2 vals2 l2 ->
  0 <= off <= len bs -> depth <= 11 ->
  ((exists fuel, maps orc fuel m bs off vals depth (VBytes (l1 ++ l2)) n) <->
   exists n1 n2, n = n1 + n2 /\
     (exists fuel, maps orc fuel m1 bs off vals1 depth (VBytes l1) n1) /\
     (exists fuel, maps orc fuel m2 bs (off + n1) vals2 depth (VBytes l2) n2)).
Proof. exact PieceProofs.streamed_in_parts. Qed.
Print Assumptions C75_streams.

Example C75_example_stream :
  exists n1 n2, 3 = n1 + n2 /\
    (exists fuel, maps demo fuel (the_map d_letter) word_bytes 1 [] 0 (VBytes (bs [104])) n1) /\
    (exists fuel, maps demo fuel (the_map (DElems KStream e_word d_char)) word_bytes (1 + n1) [] 0 (VBytes (bs [105; 0])) n2).
Proof.
  apply (C75_streams demo d_char e_word (the_map (DElems KStream e_word d_char)) [] d_uint8 e_letter (the_map d_letter) []
    d_char e_word (the_map (DElems KStream e_word d_char)) [] word_bytes 1 0 (bs [104]) (bs [105; 0]) 3).
  - exact extensional_demo.
  - exact (proj1 stream_regular).
  - exact (proj1 stream_created).
  - exact letter_regular.
  - exact letter_created.
  - exact (proj1 stream_regular).
  - exact (proj1 stream_created).
  - exact word_asks.
  - exact letter_asks.
  - exact letters_asks.
  - vm_compute. split; discriminate.
  - discriminate.
  - exists 20%nat. exact stream_maps.
Qed.
