(** An enumeration and a format for the examples. *)
From Coq Require Import String List ZArith Bool Lia.
From Verif Require Import Base PyVal DataTypes DataMaps Yaml Reader SpecReader SpecDescribe Fabric SpecFabric SpecPlain
  Demo DemoYaml PlainWitness.
Import ListNotations.
Open Scope Z_scope.
Open Scope string_scope.
Open Scope list_scope.

Definition y_image : yval :=
  doc [("name", Y "image"); ("type", Y "format");
       ("layout", YList [doc [("data_type", Y "header"); ("offset", YInt 0)]; doc [("data_type", Y "record")]])].
Definition l_docs : list yval := [y_colour; y_image].

Lemma l_docs_plain : Forall plain_document l_docs.
Proof.
  unfold l_docs. repeat match goal with |- Forall _ (_ :: _) => constructor end; try apply Forall_nil. all: is_plain.
Qed.
