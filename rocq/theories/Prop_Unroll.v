(** C73: a sequence is read like the structure that lists its elements. *)
From Coq Require Import String Ascii List ZArith Bool Lia.
From Verif Require Import Base PyVal PyStruct DataTypes ClassFactory DataMaps Demo DemoProofs SpecPrim SpecMap SpecCreate SpecReads SpecGrow SpecSize SpecUnroll UnrollProofs ReadsWitness UnrollWitness.
Import ListNotations.
Open Scope string_scope.
Open Scope list_scope.
Open Scope Z_scope.

(** C73. A sequence of a fixed number of elements maps to a tuple exactly where the structure of as many members of that type maps to the structure with the same values, in the same number of bytes. *)
Theorem C73_unrolled : forall orc e el mt ms s t bs off vals depth vs n,
  extensional orc -> exactly (len ms) e -> ms <> [] -> Forall (only el) ms ->
  same_order_inside (e_bo e) el -> everywhere wordless el -> occupies el ->
  everywhere regular (DElems KSequence e el) -> everywhere regular (DStructure mt (e_bo e) ms) ->
  create orc (DElems KSequence e el) None = Ok (Some s) ->
  create orc (DStructure mt (e_bo e) ms) None = Ok (Some t) ->
  0 <= off <= len bs -> depth + levels (DElems KSequence e el) <= 11 -> List.length vs = List.length ms ->
  (exists fuel, maps orc fuel s bs off vals depth (VTuple vs) n) <->
  (exists fuel, maps orc fuel t bs off vals depth
     (VStruct (m_name mt) (combine (map dt_name ms) vs)) n).
Proof. exact UnrollProofs.unrolled. Qed.
Print Assumptions C73_unrolled.

Example C73_example :
  exists fuel, maps demo fuel (the_map d_three) spot_bytes 1 [] 0
    (VStruct "three" (combine (map dt_name spot_members) spot_values)) 12.
Proof.
  apply (C73_unrolled demo e_spots d_spot (meta_of "three") spot_members (the_map d_spots) (the_map d_three) spot_bytes 1 [] 0 spot_values 12).
  - exact extensional_demo.
  - repeat split.
  - discriminate.
  - exact spot_only.
  - right. left. discriminate.
  - exact spot_wordless.
  - cbn. auto.
  - exact spots_regular.
  - exact three_regular.
  - exact spots_created.
  - exact three_created.
  - vm_compute. split; discriminate.
  - vm_compute. discriminate.
  - reflexivity.
  - exists 20%nat. exact spots_map.
Qed.

(** C73. Structures of native byte order in a sequence with a byte order are read in native byte order, as members in that of the structure. *)
Theorem C73_native_refuted : exists e el mt ms s t bs vs ws n,
  exactly (len ms) e /\ ms <> [] /\ Forall (only el) ms /\ everywhere wordless el /\ occupies el /\
  everywhere regular (DElems KSequence e el) /\ everywhere regular (DStructure mt (e_bo e) ms) /\
  create demo (DElems KSequence e el) None = Ok (Some s) /\
  create demo (DStructure mt (e_bo e) ms) None = Ok (Some t) /\
  maps demo 20 s bs 0 [] 0 (VTuple vs) n /\
  maps demo 20 t bs 0 [] 0 (VStruct (m_name mt) (combine (map dt_name ms) ws)) n /\
  map (fun v => py_getattr v "x") vs <> map (fun v => py_getattr v "x") ws.
Proof. exact UnrollWitness.unrolled_native_refuted. Qed.
Print Assumptions C73_native_refuted.
