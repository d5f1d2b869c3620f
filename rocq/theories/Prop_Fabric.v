(** From definition files to data type maps and values. *)
From Coq Require Import String Ascii List ZArith Bool Lia.
From Verif Require Import Base Ieee PyVal PyStruct DataTypes ClassFactory DataMaps SpecPrim Demo SpecMap SpecCreate DemoProofs SpecCreate SpecReads SpecMake Yaml Reader SpecReader SpecDescribe Fabric SpecFabric DemoYaml FabricProofs MakeProofs FileProofs ReadsWitness FileWitness SpecPlain PlainProofs PlainWitness.
Import ListNotations.
Open Scope string_scope.
Open Scope list_scope.
Open Scope Z_scope.

(** C49. For a file that describes definitions the fabric creates, for a name or alias, the map of the definition it stands for, and nothing for text that stands for no definition. *)
Theorem C49_by_name : forall orc env docs ds,
  says_file env [] docs ds ->
  exists r, fabric env (Some (docs, YEnd)) = Ok r /\
    (forall name rd d, stands_for env ds name rd -> same rd d ->
       create_map orc env r name = match create orc d None with
                                   | Ok m => Made m
                                   | Raise e => MakeError (Err e)
                                   | OutOfFuel => MakeFuel
                                   end) /\
    (forall s, (forall rd, ~ stands_for env ds (YStr s) rd) -> create_map orc env r (YStr s) = Made None).
Proof. exact FileProofs.map_of_name. Qed.
Print Assumptions C49_by_name.

Example C49_example :
  says_file demo_env [] shape_docs shape_defs /\
  stands_for demo_env shape_defs (Y "SHAPE_T") (def_named "SHAPE_T") /\
  exists r m, fabric demo_env (Some (shape_docs, YEnd)) = Ok r /\
    create_map demo demo_env r (Y "SHAPE_T") = Made (Some m) /\
    create_map demo demo_env r (Y "SHAPE") = Made (Some m) /\
    create_map demo demo_env r (Y "triangle") = Made None /\
    fst (mapbs demo 100 m file_bytes 0 None 0) =
      Ok (VStruct "shape"
            [("count", VInt 2);
             ("points", VTuple [VStruct "point" [("x", VInt 1); ("y", VInt 2)];
                                VStruct "point" [("x", VInt 3); ("y", VInt 4)]]);
             ("name", VStr [104; 105])])%string.
Proof.
  split; [exact shape_says|]. split; [apply shape_stands; tauto|].
  eexists. eexists. split; [vm_compute; reflexivity|]. split; [vm_compute; reflexivity|].
  split; [vm_compute; reflexivity|]. split; vm_compute; reflexivity.
Qed.

(** C49. The fabric is created exactly for documents that describe definitions and parse to the end; otherwise an exception is raised. *)
Theorem C49_fabric : forall env docs e,
  ((exists r, fabric env (Some (docs, e)) = Ok r) <-> e = YEnd /\ exists ds, says_file env [] docs ds) /\
  (~ (e = YEnd /\ exists ds, says_file env [] docs ds) -> exists x, fabric env (Some (docs, e)) = Raise x).
Proof. exact FabricProofs.fabric_created. Qed.
Print Assumptions C49_fabric.

Example C49_example_fabric :
  (exists r, fabric demo_env (Some (shape_docs, YEnd)) = Ok r) /\
  fabric demo_env (Some (shape_docs ++ [y_uint8], YEnd)) = Raise KeyError /\
  fabric demo_env (Some ([y_pair], YEnd)) = Raise FormatError.
Proof. split; [eexists; vm_compute; reflexivity|]. split; vm_compute; reflexivity. Qed.

(** C49. Without definitions no name has a map. *)
Theorem C49_empty : forall orc env s,
  exists r, fabric env None = Ok r /\ create_map orc env r (YStr s) = Made None.
Proof. exact FabricProofs.fabric_empty. Qed.
Print Assumptions C49_empty.

(** C49. Every definition of plain documents has exactly one counterpart for which C49_by_name says what map it has. *)
Theorem C49_covered : forall env docs ds,
  says_file env [] docs ds -> Forall plain_document docs ->
  Forall (fun r => exists d, same r d /\ forall d', same r d' -> d' = d) ds.
Proof. exact PlainProofs.plain_covered. Qed.
Print Assumptions C49_covered.

Example C49_example_covered : Forall plain_document plain_docs /\ exists ds, says_file demo_env [] plain_docs ds /\ List.length ds = 10%nat.
Proof. split; [exact plain_docs_plain|exact plain_docs_say]. Qed.

(** C49. For plain documents the model therefore says what happens for every name. *)
Theorem C49_always : forall orc env docs r name,
  Forall plain_document docs -> fabric env (Some (docs, YEnd)) = Ok r ->
  create_map orc env r name <> Uncovered.
Proof. exact PlainProofs.plain_makes. Qed.
Print Assumptions C49_always.

(** C50. From the text of a definition file to values: the map that the fabric creates for a name maps bytes to a value exactly if the definition that the documents describe under that name describes the value. *)
Theorem C50_file_to_value : forall orc env docs ds name rd d,
  extensional orc -> says_file env [] docs ds -> stands_for env ds name rd -> same rd d ->
  everywhere careful d -> everywhere orderly d -> levels d <= 11 -> mappable orc d -> has_map d ->
  exists r m, fabric env (Some (docs, YEnd)) = Ok r /\ create_map orc env r name = Made (Some m) /\
    forall bs off vals v n, 0 <= off <= len bs ->
      ((exists fuel, maps orc fuel m bs off vals 0 v n) <-> SpecReads.reads orc bs d off vals v n).
Proof. exact FileProofs.file_to_value. Qed.
Print Assumptions C50_file_to_value.

Example C50_example :
  stands_for demo_env shape_defs (Y "Shape") (def_named "Shape") /\
  same (def_named "Shape") (typed_named "Shape") /\
  everywhere careful (typed_named "Shape") /\ everywhere orderly (typed_named "Shape") /\
  levels (typed_named "Shape") <= 11 /\ mappable demo (typed_named "Shape") /\ has_map (typed_named "Shape") /\
  SpecReads.reads demo file_bytes (typed_named "Shape") 0 [] file_value 12 /\
  run (typed_named "Shape") file_bytes 0 = (Ok file_value, Some 12).
Proof.
  split; [apply shape_stands; tauto|]. split; [exact file_same|]. split; [exact file_careful|].
  split; [exact file_orderly|]. split; [exact file_levels|]. split; [exact file_mappable|]. split; [exact file_has_map|].
  split; [exact file_reads|exact file_run].
Qed.

(** C51. Creating a map succeeds exactly for the mappable definitions. *)
Theorem C51_mappable : forall orc d,
  everywhere sound d -> everywhere shaped d ->
  ((exists r, create orc d None = Ok r) <-> mappable orc d).
Proof. exact MakeProofs.creation_succeeds. Qed.
Print Assumptions C51_mappable.

Example C51_example :
  everywhere sound d_shape /\ everywhere shaped d_shape /\ mappable demo d_shape /\ has_map d_shape /\
  let wrong := DElems KStream (elems_number "blob" d_point 2) d_point in
  everywhere sound wrong /\ everywhere shaped wrong /\ ~ mappable demo wrong.
Proof.
  assert (S1 : everywhere sound d_shape) by (apply fine_sound; vm_compute; reflexivity).
  assert (P0 : everywhere shaped d_point).
  { cbn. repeat split; repeat constructor; cbn; try (intros [E|[]]; discriminate); try tauto; eexists; reflexivity. }
  assert (S2 : everywhere shaped d_shape).
  { cbn. repeat split; repeat constructor; cbn; try (intros [E|[E|[]]]; discriminate); try (intros [E|[]]; discriminate); try tauto; eexists; reflexivity. }
  split; [exact S1|]. split; [exact S2|].
  split; [apply (C51_mappable demo d_shape S1 S2); eexists; vm_compute; reflexivity|]. split; [exact I|]. cbv zeta.
  set (wrong := DElems KStream (elems_number "blob" d_point 2) d_point).
  assert (W1 : everywhere sound wrong) by (apply fine_sound; vm_compute; reflexivity).
  assert (W2 : everywhere shaped wrong) by (split; [exact I|exact P0]).
  split; [exact W1|]. split; [exact W2|]. intros M. apply (C51_mappable demo wrong W1 W2) in M.
  destruct M as [r M]. vm_compute in M. discriminate.
Qed.

(** C51. For the other definitions creating a map raises one of five exceptions. *)
Theorem C51_fails : forall orc d,
  everywhere sound d -> everywhere shaped d -> ~ mappable orc d ->
  exists e, create orc d None = Raise e /\ In e creation_errors.
Proof. exact MakeProofs.creation_fails. Qed.
Print Assumptions C51_fails.

(** C51. Unions, families and members, and only these, have no map. *)
Theorem C51_none : forall orc d,
  create orc d None = Ok None <-> ~ has_map d.
Proof. exact MakeProofs.creation_none. Qed.
Print Assumptions C51_none.

(** C51. The same for the definitions of a file. *)
Theorem C51_file : forall orc env docs ds name rd d,
  says_file env [] docs ds -> stands_for env ds name rd -> same rd d -> everywhere careful d ->
  exists r, fabric env (Some (docs, YEnd)) = Ok r /\
    ((exists m, create_map orc env r name = Made (Some m)) <-> mappable orc d /\ has_map d) /\
    (create_map orc env r name = Made None <-> ~ has_map d) /\
    (~ mappable orc d -> exists e, create_map orc env r name = MakeError (Err e) /\ In e creation_errors).
Proof. exact FileProofs.file_maps. Qed.
Print Assumptions C51_file.

Example C51_example_file :
  stands_for demo_env shape_defs (Y "blob") (def_named "blob") /\
  same (def_named "blob") (typed_named "blob") /\ everywhere careful (typed_named "blob") /\
  create_map demo demo_env (reads_into shape_docs) (Y "blob") = MakeError (Err FormatError).
Proof.
  split; [apply shape_stands; tauto|]. split; [exact blob_same|]. split; [exact blob_careful|]. vm_compute; reflexivity.
Qed.
