(** C83: a structure group can get more structures, or list them in another order, without changing what was read before. *)
From Coq Require Import String Ascii List ZArith Bool Lia.
From Verif Require Import Base PyVal PyStruct DataTypes ClassFactory DataMaps Expr Demo SpecPrim SpecMap SpecCreate SpecReads SpecMake SpecEnlarge EnlargeProofs DemoProofs EnlargeWitness.
Import ListNotations.
Open Scope string_scope.
Open Scope list_scope.
Open Scope Z_scope.

(** C83. What a definition maps is mapped the same with more structures in its groups. *)
Theorem C83_mapped : forall orc d d' m m' fuel bs off vals depth v n,
  extensional orc -> enlarged d d' ->
  everywhere regular d -> everywhere regular d' -> everywhere SpecMake.shaped d' ->
  create orc d None = Ok (Some m) -> create orc d' None = Ok (Some m') ->
  0 <= off <= len bs -> depth + levels d <= 11 -> depth + levels d' <= 11 ->
  SpecMap.maps orc fuel m bs off vals depth v n ->
  exists fuel', SpecMap.maps orc fuel' m' bs off vals depth v n.
Proof. exact EnlargeProofs.mapped_enlarged. Qed.
Print Assumptions C83_mapped.

Example C83_example_mapped : exists fuel, SpecMap.maps demo fuel (the_map d_log_more) log_bytes 0 [] 0 log_value 11.
Proof.
  exact (C83_mapped demo d_log d_log_more (the_map d_log) (the_map d_log_more) 20%nat log_bytes 0 [] 0 log_value 11
    extensional_demo log_enlarged log_regular log_more_regular log_more_shaped log_created log_more_created log_offset log_levels log_more_levels log_maps).
Qed.

(** C83. Bytes that both definitions map are mapped to the same value, in the same number of bytes. *)
Theorem C83_alike : forall orc d d' m m' fuel fuel' bs off vals depth v n v' n',
  extensional orc -> enlarged d d' ->
  everywhere regular d -> everywhere regular d' -> everywhere SpecMake.shaped d' ->
  create orc d None = Ok (Some m) -> create orc d' None = Ok (Some m') ->
  0 <= off <= len bs -> 0 <= depth -> depth + levels d <= 11 -> depth + levels d' <= 11 ->
  SpecMap.maps orc fuel m bs off vals depth v n -> SpecMap.maps orc fuel' m' bs off vals depth v' n' -> v' = v /\ n' = n.
Proof. exact EnlargeProofs.alike_enlarged. Qed.
Print Assumptions C83_alike.

Example C83_example_alike : log_value = log_value /\ 11 = 11.
Proof.
  exact (C83_alike demo d_log d_log_more (the_map d_log) (the_map d_log_more) 20%nat 20%nat log_bytes 0 [] 0 log_value 11 log_value 11
    extensional_demo log_enlarged log_regular log_more_regular log_more_shaped log_created log_more_created log_offset (Z.le_refl 0)
    log_levels log_more_levels log_maps log_more_maps).
Qed.

(** C83. The order in which a group lists its structures does not matter. *)
Theorem C83_order : forall orc mt bo base identifier default ms ms' m m' bs off vals depth v n,
  extensional orc -> Permutation.Permutation ms ms' ->
  everywhere regular (DGroup mt bo base identifier default ms) -> everywhere SpecMake.shaped (DGroup mt bo base identifier default ms) ->
  create orc (DGroup mt bo base identifier default ms) None = Ok (Some m) ->
  create orc (DGroup mt bo base identifier default ms') None = Ok (Some m') ->
  0 <= off <= len bs -> depth + levels (DGroup mt bo base identifier default ms) <= 11 ->
  ((exists fuel, SpecMap.maps orc fuel m bs off vals depth v n) <-> (exists fuel, SpecMap.maps orc fuel m' bs off vals depth v n)).
Proof. exact EnlargeProofs.mapped_ordered. Qed.
Print Assumptions C83_order.

Example C83_example_order :
  (exists fuel, SpecMap.maps demo fuel (the_map d_entry) entry_bytes 0 [] 0 entry_value 4) <->
  (exists fuel, SpecMap.maps demo fuel (the_map d_entry_turned) entry_bytes 0 [] 0 entry_value 4).
Proof.
  exact (C83_order demo (meta_of "entry") BOLittle entry_base "kind" None [entry_open; entry_write] [entry_write; entry_open]
    (the_map d_entry) (the_map d_entry_turned) entry_bytes 0 [] 0 entry_value 4
    extensional_demo entry_turned entry_regular entry_shaped entry_created turned_created entry_offset entry_levels).
Qed.
