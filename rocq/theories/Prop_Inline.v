(** C80: a type described in place and a type referred to are the same. *)
From Coq Require Import String Ascii List ZArith Bool Lia.
From Verif Require Import Base PyVal PyStruct DataTypes ClassFactory DataMaps Expr Demo SpecPrim SpecMap SpecCreate SpecReads SpecWrites SpecMake SpecInline FoldProofs ReadsProofs InlineProofs DemoProofs InlineWitness.
Import ListNotations.
Open Scope string_scope.
Open Scope list_scope.
Open Scope Z_scope.

(** C80. Definitions of the same plain form map the same streams to the same values, in as many bytes. *)
Theorem C80_mapped : forall orc d d' m m' bs off vals depth v n,
  extensional orc -> plain d' = plain d -> everywhere regular d -> everywhere regular d' ->
  create orc d None = Ok (Some m) -> create orc d' None = Ok (Some m') ->
  0 <= off <= len bs -> depth + levels d <= 11 ->
  ((exists fuel, maps orc fuel m bs off vals depth v n) <-> (exists fuel, maps orc fuel m' bs off vals depth v n)).
Proof. exact InlineProofs.plain_maps. Qed.
Print Assumptions C80_mapped.

Example C80_example_mapped :
  d_by_reference <> d_in_place /\ exists fuel, maps demo fuel (the_map d_by_reference) row_bytes 0 [] 0 row_value 11.
Proof.
  split; [exact row_different|].
  apply (C80_mapped demo d_in_place d_by_reference (the_map d_in_place) (the_map d_by_reference) row_bytes 0 [] 0 row_value 11
    extensional_demo row_plain in_place_regular by_reference_regular in_place_created by_reference_created).
  - vm_compute. split; discriminate.
  - vm_compute. discriminate.
  - exists 20%nat. exact in_place_maps.
Qed.

(** C80. They fold the same values to the same bytes. *)
Theorem C80_folded : forall orc d d' m m' v c b,
  extensional orc -> plain d' = plain d -> everywhere sound d -> everywhere sound d' ->
  create orc d None = Ok (Some m) -> create orc d' None = Ok (Some m') -> proper v -> clean c ->
  (fst (foldbs orc m v c) = Ok (VBytes b) <-> fst (foldbs orc m' v c) = Ok (VBytes b)).
Proof. exact InlineProofs.plain_folds. Qed.
Print Assumptions C80_folded.

Example C80_example_folded : fst (foldbs demo (the_map d_by_reference) row_value None) = Ok (VBytes row_bytes).
Proof.
  apply (C80_folded demo d_in_place d_by_reference (the_map d_in_place) (the_map d_by_reference) row_value None row_bytes
    extensional_demo row_plain (regular_sound _ in_place_regular) (regular_sound _ by_reference_regular) in_place_created by_reference_created
    row_proper I).
  exact in_place_folds.
Qed.

(** C80. If there is a map for the one, there is a map for the other. *)
Theorem C80_created : forall orc d d',
  plain d' = plain d ->
  everywhere sound d -> everywhere SpecMake.shaped d -> everywhere sound d' -> everywhere SpecMake.shaped d' -> everywhere described d' ->
  (exists m, create orc d None = Ok (Some m)) -> exists m, create orc d' None = Ok (Some m).
Proof. exact InlineProofs.plain_created. Qed.
Print Assumptions C80_created.

Example C80_example_created : exists m, create demo d_by_reference None = Ok (Some m).
Proof.
  apply (C80_created demo d_in_place d_by_reference row_plain (regular_sound _ in_place_regular) in_place_shaped
    (regular_sound _ by_reference_regular) by_reference_shaped by_reference_described).
  exists (the_map d_in_place). exact in_place_created.
Qed.
