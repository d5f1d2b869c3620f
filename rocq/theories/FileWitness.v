(** A definition file, its definitions and what their maps compute, for the
    examples.  Nothing here models the code. *)
From Coq Require Import String List ZArith Bool Lia.
From Verif Require Import Base PyVal PyStruct DataTypes ClassFactory DataMaps SpecPrim SpecMap SpecCreate SpecReads SpecMake
  Yaml Reader SpecReader SpecDescribe Fabric SpecFabric Demo DemoProofs DemoYaml CreateProofs SteadyProofs ReadsProofs ReadsWitness
  DescribeProofs FabricProofs SameProofs MakeProofs FileProofs.
Import ListNotations.
Open Scope Z_scope.
Open Scope string_scope.
Open Scope list_scope.

Definition y_uint16 : yval :=
  doc [("name", Y "uint16"); ("type", Y "integer");
       ("attributes", doc [("format", Y "unsigned"); ("size", YInt 2); ("units", Y "bytes")])].
Definition y_char : yval :=
  doc [("name", Y "char"); ("type", Y "character"); ("attributes", doc [("size", YInt 1); ("units", Y "bytes")])].
Definition y_pair : yval :=
  doc [("name", Y "point"); ("type", Y "structure"); ("attributes", doc [("byte_order", Y "big-endian")]);
       ("members", YList [y_member "x" "uint16"; y_member "y" "uint16"])].
Definition y_shape : yval :=
  doc [("name", Y "shape"); ("aliases", YList [Y "SHAPE_T"]); ("type", Y "structure");
       ("members", YList
         [y_member "count" "BYTE";
          doc [("name", Y "points"); ("type", Y "sequence"); ("element_data_type", Y "point");
               ("number_of_elements", Y "shape.count")];
          doc [("name", Y "name"); ("type", Y "string"); ("encoding", Y "ascii"); ("element_data_type", Y "char");
               ("elements_terminator", YStr [0])]])].
(** Without a map: the elements of a stream may not be structures. *)
Definition y_stream : yval :=
  doc [("name", Y "blob"); ("type", Y "stream"); ("element_data_type", Y "point"); ("number_of_elements", YInt 2)].

Definition shape_docs : list yval := [y_uint8; y_uint16; y_char; y_pair; y_shape; y_stream].
Definition shape_defs : list rdef := registered (reads_into shape_docs).
Definition def_named (name : string) : rdef :=
  match rlookup demo_env (reads_into shape_docs) (Y name) with
  | ROk (Some d) => d
  | _ => RConstant (mkRMeta YNull YNull YNull YNull) YNull
  end.
Definition typed_named (name : string) : dtype :=
  match typed (def_named name) with Some d => d | None => DConstant (meta_of "") VNone end.

(** Two points and a name. *)
Definition file_bytes : bytes := bs [2; 0; 1; 0; 2; 0; 3; 0; 4; 104; 105; 0].

Lemma shape_says : says_file demo_env [] shape_docs shape_defs.
Proof. apply file_says. exists (reads_into shape_docs). split; vm_compute; reflexivity. Qed.

Lemma shape_stands name : name = "SHAPE_T" \/ name = "Shape" \/ name = "blob" ->
  stands_for demo_env shape_defs (Y name) (def_named name).
Proof.
  destruct (fabric_of_file _ _ _ shape_says) as (r & F & Ho & E).
  assert (R : r = reads_into shape_docs).
  { vm_compute in F. injection F as <-. vm_compute. reflexivity. }
  subst r. intros H. rewrite <- E. refine (proj1 (lookup_iff demo_env _ _ _ Ho) _).
  destruct H as [ -> |[ -> | -> ]]; vm_compute; reflexivity.
Qed.

Lemma sound_careful d : everywhere sound d -> everywhere careful d.
Proof.
  apply everywhere_weaken. intros x [A B]. destruct x; cbn in *; auto. tauto.
Qed.

Lemma file_careful : everywhere careful (typed_named "Shape").
Proof. apply sound_careful, fine_sound. vm_compute. reflexivity. Qed.

Lemma blob_careful : everywhere careful (typed_named "blob").
Proof. apply sound_careful, fine_sound. vm_compute. reflexivity. Qed.

Lemma file_orderly : everywhere orderly (typed_named "Shape").
Proof. apply neat_sound. vm_compute. reflexivity. Qed.

Lemma file_mappable : mappable demo (typed_named "Shape").
Proof.
  assert (T : typed (def_named "Shape") = Some (typed_named "Shape")) by (vm_compute; reflexivity).
  destruct (file_sound _ _ _ _ _ shape_says (stands_for_in _ _ _ _ (shape_stands "Shape" ltac:(tauto))) T file_careful) as [SO SH].
  apply (creation_succeeds demo _ SO SH). eexists. vm_compute. reflexivity.
Qed.

Lemma file_typed : typed (def_named "Shape") = Some (typed_named "Shape").
Proof. vm_compute. reflexivity. Qed.

Lemma file_levels : levels (typed_named "Shape") <= 11.
Proof. vm_compute. discriminate. Qed.

Lemma file_has_map : has_map (typed_named "Shape").
Proof. vm_compute. exact I. Qed.

Definition file_value : pyval :=
  let point x y := VStruct "point" [("x", VInt x); ("y", VInt y)]%string in
  VStruct "shape" [("count", VInt 2); ("points", VTuple [point 1 2; point 3 4]); ("name", VStr [104; 105])]%string.

Lemma file_created : create demo (typed_named "Shape") None = Ok (Some (the_map (typed_named "Shape"))).
Proof. vm_compute. reflexivity. Qed.

Lemma file_run : run (typed_named "Shape") file_bytes 0 = (Ok file_value, Some 12).
Proof. vm_compute. reflexivity. Qed.

Lemma file_reads : SpecReads.reads demo file_bytes (typed_named "Shape") 0 [] file_value 12.
Proof.
  refine (mapping_reads demo 20 (typed_named "Shape") (the_map (typed_named "Shape")) file_bytes 0 [] 0 file_value 12 extensional_demo _ file_created _ _).
  - exact (file_regular _ _ _ _ _ shape_says (stands_for_in _ _ _ _ (shape_stands "Shape" (or_intror (or_introl eq_refl)))) file_typed file_careful file_orderly).
  - vm_compute. split; discriminate.
  - eexists. split; vm_compute; reflexivity.
Qed.

Lemma file_same : same (def_named "Shape") (typed_named "Shape").
Proof. apply typed_same. exact file_typed. Qed.

Lemma blob_same : same (def_named "blob") (typed_named "blob").
Proof. apply typed_same. vm_compute. reflexivity. Qed.
