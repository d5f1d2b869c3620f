(** C66: too few bytes are reported exactly where the next bytes are not there. *)
From Coq Require Import String Ascii List ZArith Bool Lia.
From Verif Require Import Base PyVal PyStruct DataTypes ClassFactory DataMaps Demo DemoProofs SpecPrim SpecMap SpecCreate SpecReads SpecShort ReadsWitness ShortProofs ShortWitness.
Import ListNotations.
Open Scope string_scope.
Open Scope list_scope.
Open Scope Z_scope.

(** C66. Mapping reports too few bytes exactly if reading comes to a point where the next bytes are not there. *)
Theorem C66_short : forall orc d m bs off vals depth,
  extensional orc -> everywhere regular d -> create orc d None = Ok (Some m) -> 0 <= off <= len bs ->
  depth + levels d <= 11 ->
  (lacks orc bs d off vals <-> exists fuel, fails orc fuel m bs off vals depth ByteStreamTooSmallError).
Proof. exact ShortProofs.short_lacks. Qed.
Print Assumptions C66_short.

(** A shape whose second point is cut off; and a kind that is not allowed in a stream that is too short: reading
    in one go lacks bytes, reading member by member does not come that far. *)
Example C66_example_short :
  extensional demo /\ everywhere regular d_shape /\ create demo d_shape None = Ok (Some (the_map d_shape)) /\
  levels d_shape <= 11 /\ lacks demo shape_cut d_shape 0 [] /\
  fst (run d_shape shape_cut 0) = Raise ByteStreamTooSmallError /\
  lacks demo (bs [7; 0]) d_tight 0 [] /\ fst (run d_tight (bs [7; 0]) 0) = Raise ByteStreamTooSmallError /\
  ~ lacks demo (bs [7; 0]) d_loose 0 [] /\ fst (run d_loose (bs [7; 0]) 0) = Raise MappingError.
Proof.
  split; [exact extensional_demo|]. split; [exact shape_regular|]. split; [exact shape_created|].
  split; [vm_compute; discriminate|]. split; [exact shape_lacks|]. split; [vm_compute; reflexivity|].
  split; [exact tight_lacks|]. split; [vm_compute; reflexivity|]. split; [exact loose_not_lacks|]. vm_compute; reflexivity.
Qed.

(** C66. At every offset a stream is read, lacks bytes or is wrong, one of the three, and mapping says which. *)
Theorem C66_three_ways : forall orc fuel d m bs off vals depth,
  extensional orc -> everywhere regular d -> create orc d None = Ok (Some m) -> tame d m ->
  all_maps (takes_space orc) m -> 0 <= off <= len bs -> depth + levels d <= 11 ->
  (Z.to_nat (len bs - off) < fuel)%nat ->
  (forall v n, maps orc fuel m bs off vals depth v n <-> reads orc bs d off vals v n) /\
  (fails orc fuel m bs off vals depth ByteStreamTooSmallError <-> lacks orc bs d off vals) /\
  (fails orc fuel m bs off vals depth MappingError <->
     (forall v n, ~ reads orc bs d off vals v n) /\ ~ lacks orc bs d off vals) /\
  (forall v n, reads orc bs d off vals v n -> ~ lacks orc bs d off vals).
Proof. exact ShortProofs.three_ways. Qed.
Print Assumptions C66_three_ways.

Example C66_example_three_ways :
  extensional demo /\ everywhere regular d_shape /\ create demo d_shape None = Ok (Some (the_map d_shape)) /\
  tame d_shape (the_map d_shape) /\ all_maps (takes_space demo) (the_map d_shape) /\ levels d_shape <= 11 /\
  reads demo shape_bytes d_shape 0 [] shape_value 12 /\ lacks demo shape_cut d_shape 0 [] /\
  fails demo 20 (the_map d_shape) shape_wrong 0 [] 0 MappingError.
Proof.
  split; [exact extensional_demo|]. split; [exact shape_regular|]. split; [exact shape_created|].
  split; [exact shape_tame|]. split; [exact shape_space|]. split; [vm_compute; discriminate|].
  split; [exact shape_reads|]. split; [exact shape_lacks|]. vm_compute; reflexivity.
Qed.
