(** Moving the bytes of a stream. *)
From Coq Require Import String Ascii List ZArith Bool Lia.
From Verif Require Import Base Ieee PyVal PyStruct DataTypes ClassFactory DataMaps SpecPrim Demo SpecMap SpecCreate DemoProofs SpecShift ShiftProofs ShiftWitness DemoProofs.
Import ListNotations.
Open Scope string_scope.
Open Scope list_scope.
Open Scope Z_scope.

(** C56. Bytes put in front of the stream change nothing, if their number is a multiple of the alignments of the padding: the value or exception and the context are the same. *)
Theorem C56_moves : forall orc fuel d m pre bs off c depth,
  extensional orc -> everywhere sound d -> everywhere (keeps_alignment (len pre)) d -> create orc d None = Ok (Some m) ->
  0 <= off <= len bs -> clean c ->
  mapbs orc fuel m (pre ++ bs) (len pre + off) c depth = mapbs orc fuel m bs off c depth.
Proof. exact ShiftProofs.mapping_moves. Qed.
Print Assumptions C56_moves.

Example C56_example :
  extensional demo /\ everywhere sound h_entry /\ everywhere (keeps_alignment 4) h_entry /\
  create demo h_entry None = Ok (Some (the_map h_entry)) /\
  run h_entry (bs [2; 65; 66; 1; 2; 3]) 0 =
    (Ok (VStruct "entry" [("count", VInt 2); ("text", VBytes (bs [65; 66])); ("pad", VBytes (bs [1])); ("value", VInt 770)]), Some 6) /\
  run h_entry (bs [9; 9; 9; 9] ++ bs [2; 65; 66; 1; 2; 3]) 4 = run h_entry (bs [2; 65; 66; 1; 2; 3]) 0.
Proof.
  split; [exact extensional_demo|]. split; [exact entry_sound|]. split; [apply entry_aligned; reflexivity|].
  split; [vm_compute; reflexivity|]. split; [vm_compute; reflexivity|]. vm_compute; reflexivity.
Qed.

(** C56. Mapping at an offset is mapping the rest of the stream at its start. *)
Theorem C56_slice : forall orc fuel d m bs off c depth,
  extensional orc -> everywhere sound d -> everywhere (keeps_alignment off) d -> create orc d None = Ok (Some m) ->
  0 <= off <= len bs -> clean c ->
  mapbs orc fuel m bs off c depth = mapbs orc fuel m (skipn (Z.to_nat off) bs) 0 c depth.
Proof. exact ShiftProofs.mapping_from. Qed.
Print Assumptions C56_slice.

Example C56_example_slice :
  run d_uint16 (bs [1; 2; 3; 4]) 2 = (Ok (VInt 1027), Some 2) /\ run d_uint16 (skipn 2 (bs [1; 2; 3; 4])) 0 = (Ok (VInt 1027), Some 2).
Proof. split; vm_compute; reflexivity. Qed.

(** C56. Padding is aligned to the start of the stream and not to the start of the structure: the same bytes at another offset give another value and another size. *)
Theorem C56_padding_refuted : exists d m pre b v v' n n', everywhere sound d /\ create demo d None = Ok (Some m) /\
    maps demo 9 m b 0 [] 0 v n /\ maps demo 9 m (pre ++ b) (len pre) [] 0 v' n' /\ v <> v' /\ n <> n'.
Proof. exact ShiftWitness.padding_shift_refuted. Qed.
Print Assumptions C56_padding_refuted.
