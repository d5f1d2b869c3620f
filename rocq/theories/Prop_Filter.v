(** C81: supported values decide whether a value is mapped, not to what. *)
From Coq Require Import String Ascii List ZArith Bool Lia.
From Verif Require Import Base PyVal PyStruct DataTypes ClassFactory DataMaps Expr Demo SpecPrim SpecMap SpecCreate SpecReads SpecMake SpecWrites SpecFilter FoldProofs ReadsProofs FilterProofs DemoProofs FilterWitness.
Import ListNotations.
Open Scope string_scope.
Open Scope list_scope.
Open Scope Z_scope.

(** C81. A definition maps to a value exactly if it does so without supported values and every member of the value has a supported one. *)
Theorem C81_mapped : forall orc d m m' bs off vals depth v n,
  extensional orc -> everywhere regular d -> everywhere listed d ->
  create orc d None = Ok (Some m) -> create orc (relaxed d) None = Ok (Some m') ->
  0 <= off <= len bs -> depth + levels d <= 11 ->
  ((exists fuel, SpecMap.maps orc fuel m bs off vals depth v n) <->
   (exists fuel, SpecMap.maps orc fuel m' bs off vals depth v n) /\ within d v).
Proof. exact FilterProofs.mapped_within. Qed.
Print Assumptions C81_mapped.

Example C81_example_mapped : within d_box box_value.
Proof.
  apply (proj1 (C81_mapped demo d_box (the_map d_box) (the_map (relaxed d_box)) box_bytes 0 [] 0 box_value 8
    extensional_demo box_regular box_listed box_created relaxed_box_created
    box_offset box_levels)).
  exists 20%nat. exact box_maps.
Qed.
Example C81_example_refused :
  (exists fuel, SpecMap.maps demo fuel (the_map (relaxed d_box)) bad_bytes 0 [] 0 bad_value 8) /\
  ~ exists fuel, SpecMap.maps demo fuel (the_map d_box) bad_bytes 0 [] 0 bad_value 8.
Proof.
  split; [exists 20%nat; exact relaxed_bad_maps|]. intros M. apply bad_not_within.
  apply (proj1 (C81_mapped demo d_box (the_map d_box) (the_map (relaxed d_box)) bad_bytes 0 [] 0 bad_value 8
    extensional_demo box_regular box_listed box_created relaxed_box_created
    bad_offset box_levels) M).
Qed.

(** C81. Two definitions that differ only in supported values never map the same bytes to different values. *)
Theorem C81_alike : forall orc d1 d2 m1 m2 bs off vals v1 n1 v2 n2 fuel1 fuel2,
  extensional orc -> everywhere regular d1 -> everywhere regular d2 -> everywhere SpecMake.shaped d1 -> relaxed d1 = relaxed d2 ->
  create orc d1 None = Ok (Some m1) -> create orc d2 None = Ok (Some m2) ->
  0 <= off <= len bs -> levels d1 <= 11 ->
  SpecMap.maps orc fuel1 m1 bs off vals 0 v1 n1 -> SpecMap.maps orc fuel2 m2 bs off vals 0 v2 n2 ->
  v1 = v2 /\ n1 = n2.
Proof. exact FilterProofs.mapped_alike. Qed.
Print Assumptions C81_alike.

Example C81_example_alike : forall fuel v n, SpecMap.maps demo fuel (the_map d_other_box) box_bytes 0 [] 0 v n -> box_value = v /\ 8 = n.
Proof.
  intros fuel v n M.
  exact (C81_alike demo d_box d_other_box (the_map d_box) (the_map d_other_box) box_bytes 0 [] box_value 8 v n 20%nat fuel
    extensional_demo box_regular other_box_regular box_shaped boxes_alike box_created other_box_created box_offset box_levels box_maps M).
Qed.

(** C81. Where there is a map with supported values, there is one without. *)
Theorem C81_created : forall orc d,
  everywhere sound d -> everywhere SpecMake.shaped d ->
  (exists m, create orc d None = Ok (Some m)) -> exists m, create orc (relaxed d) None = Ok (Some m).
Proof. exact FilterProofs.created_relaxed. Qed.
Print Assumptions C81_created.

Example C81_example_created : exists m, create demo (relaxed d_box) None = Ok (Some m).
Proof.
  apply (C81_created demo d_box (regular_sound _ box_regular) box_shaped).
  exists (the_map d_box). exact box_created.
Qed.

(** C81. Two definitions that differ only in supported values fold the same values to the same bytes. *)
Theorem C81_folded : forall orc d1 d2 m1 m2 v c b,
  extensional orc -> everywhere sound d1 -> everywhere sound d2 -> relaxed d1 = relaxed d2 ->
  create orc d1 None = Ok (Some m1) -> create orc d2 None = Ok (Some m2) -> proper v -> clean c ->
  (fst (foldbs orc m1 v c) = Ok (VBytes b) <-> fst (foldbs orc m2 v c) = Ok (VBytes b)).
Proof. exact FilterProofs.folded_alike. Qed.
Print Assumptions C81_folded.

Example C81_example_folded : fst (foldbs demo (the_map (slip [VInt 1; VInt 2])) slip_value None) = Ok (VBytes slip_bytes).
Proof.
  apply (C81_folded demo (slip []) (slip [VInt 1; VInt 2]) (the_map (slip [])) (the_map (slip [VInt 1; VInt 2])) slip_value None slip_bytes
    extensional_demo (slip_sound _) (slip_sound _) eq_refl (slip_created _) (slip_created _) slip_proper I).
  exact slip_folds.
Qed.
