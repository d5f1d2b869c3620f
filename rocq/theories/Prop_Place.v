(** C61: the order of documents in definition files. *)
From Coq Require Import String Ascii List ZArith Bool Lia.
From Verif Require Import Base Ieee Yaml DataTypes Reader Validator SpecReader DemoYaml SpecDescribe Fabric DataMaps SpecPlace Demo PlaceProofs PlaceWitness.
Import ListNotations.
Open Scope string_scope.
Open Scope list_scope.
Open Scope Z_scope.

(** C61. If documents taken from a file are read without error on their own, in whatever order, they define what they define in that file: names known in the part stand for the same definitions in the whole. *)
Theorem C61_taken : forall env docs docs' r r',
  read_file env rreg_empty (Some (docs, YEnd)) = (Ok tt, r) ->
  read_file env rreg_empty (Some (docs', YEnd)) = (Ok tt, r') ->
  incl docs' docs -> own_aliases env (registered r) ->
  incl (registered r') (registered r) /\
  forall name d, rlookup env r' name = ROk (Some d) -> rlookup env r name = ROk (Some d).
Proof. exact PlaceProofs.taken. Qed.
Print Assumptions C61_taken.

Example C61_example_taken :
  incl [y_uint32; y_uint8; o_spot] o_docs /\ own_aliases demo_env (registered (reads_into o_docs)) /\
  (exists r, read_file demo_env rreg_empty (Some (o_docs, YEnd)) = (Ok tt, r)) /\
  exists r' d, read_file demo_env rreg_empty (Some ([y_uint32; y_uint8; o_spot], YEnd)) = (Ok tt, r') /\
    rlookup demo_env r' (Y "SPOT") = ROk (Some d).
Proof.
  split; [intros x; cbn; tauto|]. split; [exact docs_own|]. split; [eexists; vm_compute; reflexivity|].
  do 2 eexists. split; [vm_compute; reflexivity|vm_compute; reflexivity].
Qed.

(** C61. If the same documents are read without error in two orders, all names stand for the same definitions and have the same maps. *)
Theorem C61_reordered : forall env docs docs' r r',
  read_file env rreg_empty (Some (docs, YEnd)) = (Ok tt, r) ->
  read_file env rreg_empty (Some (docs', YEnd)) = (Ok tt, r') ->
  Permutation.Permutation docs docs' -> own_aliases env (registered r) ->
  (forall name, rlookup env r' name = rlookup env r name) /\
  (forall orc name, create_map orc env r' name = create_map orc env r name).
Proof. exact PlaceProofs.reordered. Qed.
Print Assumptions C61_reordered.

Example C61_example_reordered :
  Permutation.Permutation o_docs o_docs' /\ o_docs <> o_docs' /\
  exists r m, read_file demo_env rreg_empty (Some (o_docs', YEnd)) = (Ok tt, r) /\
    create_map demo demo_env r (Y "spots") = Made (Some m).
Proof.
  split; [exact docs_moved|]. split; [discriminate|]. do 2 eexists. split; [vm_compute; reflexivity|vm_compute; reflexivity].
Qed.

(** C61. Any order of the documents in which definitions come before their use is read without error. *)
Theorem C61_any_order : forall env docs docs' ds r,
  read_file env rreg_empty (Some (docs, YEnd)) = (Ok tt, r) -> own_aliases env (registered r) ->
  List.length docs' = List.length ds -> Permutation.Permutation (combine docs (registered r)) (combine docs' ds) -> before_use ds ->
  exists r', read_file env rreg_empty (Some (docs', YEnd)) = (Ok tt, r') /\ registered r' = ds.
Proof. exact PlaceProofs.any_order. Qed.
Print Assumptions C61_any_order.

Example C61_example_any_order :
  Permutation.Permutation (combine o_docs (registered (reads_into o_docs))) (combine o_docs' (registered (reads_into o_docs'))) /\
  before_use (registered (reads_into o_docs')) /\ List.length o_docs' = 5%nat.
Proof.
  split; [exact docs_pairs|]. split; [|reflexivity]. apply (needed demo_env o_docs'). vm_compute. reflexivity.
Qed.

(** C61. No other order is: in a file that is read without error, definitions come before their use. *)
Theorem C61_needed : forall env docs r,
  read_file env rreg_empty (Some (docs, YEnd)) = (Ok tt, r) -> before_use (registered r).
Proof. exact PlaceProofs.needed. Qed.
Print Assumptions C61_needed.

Example C61_example_needed : exists r,
  read_file demo_env rreg_empty (Some ([o_spot; y_uint8; y_uint32], YEnd)) = (Raise FormatError, r).
Proof. eexists. vm_compute. reflexivity. Qed.

(** C61. If a name is, but for case, an alias of another definition, the order of documents decides what that alias stands for. *)
Theorem C61_alias_refuted : exists docs docs' r r' d d',
  Permutation.Permutation docs docs' /\
  read_file demo_env rreg_empty (Some (docs, YEnd)) = (Ok tt, r) /\
  read_file demo_env rreg_empty (Some (docs', YEnd)) = (Ok tt, r') /\
  rlookup demo_env r (Y "one") = ROk (Some d) /\ rlookup demo_env r' (Y "one") = ROk (Some d') /\ d <> d'.
Proof. exact PlaceWitness.place_refuted. Qed.
Print Assumptions C61_alias_refuted.
