(** C63: names of numbers and layouts, from the definition file. *)
From Coq Require Import String Ascii List ZArith Bool Lia.
From Verif Require Import Base Ieee Yaml DataTypes Reader Validator SpecReader DemoYaml SpecDescribe Fabric DataMaps PyVal SpecPlain Lookups Demo LookupProofs PlainWitness LookupWitness.
Import ListNotations.
Open Scope string_scope.
Open Scope list_scope.
Open Scope Z_scope.

(** C63. The map of an enumeration read from a file gives for a number the name that is written beside that number, and None for all other numbers. *)
Theorem C63_names : forall orc env docs r v name l,
  Forall plain_document docs -> fabric env (Some (docs, YEnd)) = Ok r -> In v docs ->
  field v "type" (Y "enumeration") -> field v "name" name -> field v "values" (YList l) ->
  Forall (fun e => exists z, field e "number" (YInt z)) l ->
  exists m, create_map orc env r name = Made (Some m) /\
    forall k, exists o, map_get_name m (VInt k) = Ok o /\
      forall s, o = Some s <-> exists e, In e l /\ field e "name" (Y s) /\ field e "number" (YInt k).
Proof. exact LookupProofs.names_of_numbers. Qed.
Print Assumptions C63_names.

Example C63_example_names : exists r m,
  Forall plain_document l_docs /\ fabric demo_env (Some (l_docs, YEnd)) = Ok r /\ In y_colour l_docs /\
  create_map demo demo_env r (Y "colour") = Made (Some m) /\
  map_get_name m (VInt 2) = Ok (Some "blue") /\ map_get_name m (VInt 3) = Ok None.
Proof.
  eexists. eexists. split; [exact l_docs_plain|]. split; [vm_compute; reflexivity|]. split; [left; reflexivity|].
  split; [vm_compute; reflexivity|]. split; vm_compute; reflexivity.
Qed.

(** C63. The map of a format read from a file has the layout elements that are written, in their order, with their data types and offsets. *)
Theorem C63_layouts : forall orc env docs r v name l,
  Forall plain_document docs -> fabric env (Some (docs, YEnd)) = Ok r -> In v docs ->
  field v "type" (Y "format") -> field v "name" name -> field_or (YList []) v "layout" (YList l) ->
  exists m layout, create_map orc env r name = Made (Some m) /\ map_layout m = Ok layout /\
    Forall2 (fun e x => field e "data_type" (Y (fst x)) /\
                        field e "offset" match snd x with Some z => YInt z | None => YNull end) l layout.
Proof. exact LookupProofs.layouts_written. Qed.
Print Assumptions C63_layouts.

Example C63_example_layouts : exists r m,
  fabric demo_env (Some (l_docs, YEnd)) = Ok r /\ In y_image l_docs /\
  create_map demo demo_env r (Y "image") = Made (Some m) /\
  map_layout m = Ok [("header", Some 0); ("record", None)].
Proof.
  eexists. eexists. split; [vm_compute; reflexivity|]. split; [right; left; reflexivity|].
  split; [vm_compute; reflexivity|vm_compute; reflexivity].
Qed.
