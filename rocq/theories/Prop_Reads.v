(** Mapping against the reference reading of definitions. *)
From Coq Require Import String Ascii List ZArith Bool Lia.
From Verif Require Import Base Ieee PyVal PyStruct DataTypes ClassFactory DataMaps SpecPrim Demo SpecMap SpecCreate DemoProofs SpecCreate SpecReads FloatProofs ReadsProofs ReadsWitness.
Import ListNotations.
Open Scope string_scope.
Open Scope list_scope.
Open Scope Z_scope.

(** C04. A four byte float maps to the double with the same sign and the same number, infinity or NaN payload. *)
Theorem C04_single_value : forall orc f,
  sized f 4 ->
  exists m, create orc (DFloat f) None = Ok (Some m) /\
    forall fuel bs off c depth, 0 <= off -> off + 4 <= len bs ->
      exists w, fst (mapbs orc fuel m bs off c depth) = Ok (VFloat w) /\
        forall w', widened (stored_number (order_on (o_host orc) (f_bo f)) (window bs off 4)) w' <-> w' = w.
Proof. exact FloatProofs.single_value. Qed.
Print Assumptions C04_single_value.

(** 1.5 and the smallest subnormal, 2^-149. *)
Example C04_example_value :
  sized (fixed_of "float32" BOBig 4) 4 /\
  run (DFloat (fixed_of "float32" BOBig 4)) (bs [63; 192; 0; 0]) 0 = (Ok (VFloat 4609434218613702656), Some 4) /\
  double_units 4609434218613702656 = 3 * 2 ^ 1073 /\
  run (DFloat (fixed_of "float32" BOBig 4)) (bs [128; 0; 0; 1]) 0 = (Ok (VFloat 13159518111176589312), Some 4) /\
  double_units 13159518111176589312 = 2 ^ (1074 - 149) /\ 13159518111176589312 / 2 ^ 63 = 1.
Proof. repeat split; vm_compute; reflexivity. Qed.

(** C48. For a regular definition that is not nested too deeply, mapping at an offset yields a value and a size exactly if the definition describes them there. *)
Theorem C48_reading : forall orc d m bs off vals depth v n,
  extensional orc -> everywhere regular d -> create orc d None = Ok (Some m) -> 0 <= off <= len bs ->
  depth + levels d <= 11 ->
  (reads orc bs d off vals v n <-> exists fuel, maps orc fuel m bs off vals depth v n).
Proof. exact ReadsProofs.reading_maps. Qed.
Print Assumptions C48_reading.

Example C48_example :
  everywhere regular d_shape /\ create demo d_shape None = Ok (Some (the_map d_shape)) /\
  0 + levels d_shape <= 11 /\
  reads demo shape_bytes d_shape 0 [] shape_value 12 /\
  run d_shape shape_bytes 0 = (Ok shape_value, Some 12).
Proof.
  split; [exact shape_regular|]. split; [exact shape_created|]. split; [vm_compute; discriminate|].
  split; [exact shape_reads|]. vm_compute; reflexivity.
Qed.

(** C48. At any nesting, every value mapped is one that the definition describes. *)
Theorem C48_sound : forall orc fuel d m bs off vals depth v n,
  extensional orc -> everywhere regular d -> create orc d None = Ok (Some m) -> 0 <= off <= len bs ->
  maps orc fuel m bs off vals depth v n -> reads orc bs d off vals v n.
Proof. exact ReadsProofs.mapping_reads. Qed.
Print Assumptions C48_sound.

(** C48. A value described is mapped by every execution that runs long enough. *)
Theorem C48_complete : forall orc d m bs off vals depth v n,
  extensional orc -> everywhere regular d -> create orc d None = Ok (Some m) -> 0 <= off <= len bs ->
  depth + levels d <= 11 -> reads orc bs d off vals v n ->
  exists fuel0, forall fuel, (fuel0 <= fuel)%nat -> maps orc fuel m bs off vals depth v n.
Proof. exact ReadsProofs.reading_enough_fuel. Qed.
Print Assumptions C48_complete.

(** C48. A regular definition describes at most one value at an offset. *)
Theorem C48_unique : forall orc d m bs off vals v n v' n',
  extensional orc -> everywhere regular d -> create orc d None = Ok (Some m) -> 0 <= off <= len bs ->
  levels d <= 11 -> reads orc bs d off vals v n -> reads orc bs d off vals v' n' -> v = v' /\ n = n'.
Proof. exact ReadsProofs.reading_unique. Qed.
Print Assumptions C48_unique.
