(** C72: names are only labels. *)
From Coq Require Import String Ascii List ZArith Bool Lia.
From Verif Require Import Base PyVal PyStruct DataTypes ClassFactory DataMaps Demo DemoProofs SpecPrim SpecMap SpecCreate SpecReads SpecGrow SpecRelabel RelabelProofs ReadsWitness RelabelWitness.
Import ListNotations.
Open Scope string_scope.
Open Scope list_scope.
Open Scope Z_scope.

(** C72. What a definition without expressions maps, the definition with other names maps, in the same number of bytes, to the same values under the other names. *)
Theorem C72_same_values : forall orc d d' m m' bs off vals vals' depth v n,
  extensional orc -> unnamed d' = unnamed d -> everywhere wordless d ->
  everywhere regular d -> everywhere regular d' ->
  create orc d None = Ok (Some m) -> create orc d' None = Ok (Some m') ->
  0 <= off <= len bs -> depth + levels d <= 11 ->
  (exists fuel, maps orc fuel m bs off vals depth v n) ->
  exists v', (exists fuel, maps orc fuel m' bs off vals' depth v' n) /\ anonymous v' = anonymous v.
Proof. exact RelabelProofs.unnamed_maps. Qed.
Print Assumptions C72_same_values.

Example C72_example :
  exists v, (exists fuel, maps demo fuel (the_map d_piste) track_bytes 1 [] 0 v 11) /\ anonymous v = anonymous track_value.
Proof.
  apply (C72_same_values demo d_track d_piste (the_map d_track) (the_map d_piste) track_bytes 1 [] [] 0).
  - exact extensional_demo.
  - reflexivity.
  - exact track_wordless.
  - exact track_regular.
  - exact piste_regular.
  - exact track_created.
  - exact piste_created.
  - vm_compute. split; discriminate.
  - vm_compute. discriminate.
  - exists 20%nat. exact track_maps.
Qed.

Example C72_example_value : anonymous piste_value = anonymous track_value /\ piste_value <> track_value.
Proof. split; [reflexivity|discriminate]. Qed.

(** C72. Either is mapped exactly from the streams from which the other is. *)
Theorem C72_same_streams : forall orc d d' m m' bs off vals vals' depth,
  extensional orc -> unnamed d' = unnamed d -> everywhere wordless d ->
  everywhere regular d -> everywhere regular d' ->
  create orc d None = Ok (Some m) -> create orc d' None = Ok (Some m') ->
  0 <= off <= len bs -> depth + levels d <= 11 ->
  ((exists fuel v n, maps orc fuel m bs off vals depth v n) <-> (exists fuel v n, maps orc fuel m' bs off vals' depth v n)).
Proof. exact RelabelProofs.unnamed_fails. Qed.
Print Assumptions C72_same_streams.

Example C72_example_streams : exists fuel v n, maps demo fuel (the_map d_piste) track_bytes 1 [] 0 v n.
Proof.
  apply (C72_same_streams demo d_track d_piste (the_map d_track) (the_map d_piste) track_bytes 1 [] [] 0).
  - exact extensional_demo.
  - reflexivity.
  - exact track_wordless.
  - exact track_regular.
  - exact piste_regular.
  - exact track_created.
  - exact piste_created.
  - vm_compute. split; discriminate.
  - vm_compute. discriminate.
  - exists 20%nat, track_value, 11. exact track_maps.
Qed.

(** C72. A member that an expression looks at cannot be renamed. *)
Theorem C72_looking_refuted : exists d d' m m' l v n e,
  unnamed d' = unnamed d /\ everywhere regular d /\ everywhere regular d' /\
  create demo d None = Ok (Some m) /\ create demo d' None = Ok (Some m') /\
  maps demo 20 m l 0 [] 0 v n /\ fails demo 20 m' l 0 [] 0 e.
Proof. exact RelabelWitness.renamed_looked_at_refuted. Qed.
Print Assumptions C72_looking_refuted.
