(** C71: members moved into a structure of their own. *)
From Coq Require Import String Ascii List ZArith Bool Lia.
From Verif Require Import Base PyVal PyStruct DataTypes ClassFactory DataMaps Demo DemoProofs SpecPrim SpecMap SpecCreate SpecReads SpecGrow SpecRegroup RegroupProofs ReadsWitness RegroupWitness.
Import ListNotations.
Open Scope string_scope.
Open Scope list_scope.
Open Scope Z_scope.

(** C71. What a structure maps is mapped by the structure with the moved members. *)
Theorem C71_moved_in : forall orc mt mt1 mt' bo a ms b x m m' fuel bs off vals depth v n,
  extensional orc -> m_name mt1 = m_name mt ->
  used_type (m_name mt) bo x = DStructure mt' bo ms -> member_values x = None ->
  everywhere wordless x -> Forall (movable bo) ms ->
  Forall (everywhere (untouched_by orc (map dt_name ms) (dt_name x))) (a ++ b) ->
  everywhere regular (DStructure mt bo (a ++ ms ++ b)) -> everywhere regular (DStructure mt1 bo (a ++ x :: b)) ->
  create orc (DStructure mt bo (a ++ ms ++ b)) None = Ok (Some m) ->
  create orc (DStructure mt1 bo (a ++ x :: b)) None = Ok (Some m') ->
  0 <= off <= len bs -> depth + levels (DStructure mt1 bo (a ++ x :: b)) <= 11 ->
  maps orc fuel m bs off vals depth v n ->
  exists fuel' fa fm fb,
    v = VStruct (m_name mt) (fa ++ fm ++ fb) /\
    map fst fa = map dt_name a /\ map fst fm = map dt_name ms /\ map fst fb = map dt_name b /\
    maps orc fuel' m' bs off vals depth (VStruct (m_name mt) (fa ++ (dt_name x, VStruct (m_name mt') fm) :: fb)) n.
Proof. exact RegroupProofs.moved_in. Qed.
Print Assumptions C71_moved_in.

(** The position and the name of a label, at offset 1. *)
Example C71_example_in :
  exists fuel fa fm fb,
    VStruct "label" (label_first ++ label_middle ++ label_last) = VStruct "label" (fa ++ fm ++ fb) /\
    map fst fa = ["size"] /\ map fst fm = ["x"; "y"; "name"] /\ map fst fb = ["mark"; "data"] /\
    maps demo fuel (the_map d_label_moved) label_bytes 1 [] 0 (VStruct "label" (fa ++ ("place", VStruct "place" fm) :: fb)) 14.
Proof.
  apply (C71_moved_in demo (meta_of "label") (meta_of "label") (meta_of "place") BOLittle label_before label_moved label_after label_place
    (the_map d_label) (the_map d_label_moved) 20).
  - exact extensional_demo.
  - reflexivity.
  - vm_compute. reflexivity.
  - reflexivity.
  - exact label_wordless.
  - exact label_movable.
  - exact label_untouched.
  - exact label_regular.
  - exact label_moved_regular.
  - exact label_created.
  - exact label_moved_created.
  - vm_compute. split; discriminate.
  - vm_compute. discriminate.
  - exact label_maps.
Qed.

(** C71. And the reverse. *)
Theorem C71_moved_out : forall orc mt mt1 mt' bo a ms b x m m' fuel bs off vals depth v n,
  extensional orc -> m_name mt1 = m_name mt ->
  used_type (m_name mt) bo x = DStructure mt' bo ms -> member_values x = None ->
  everywhere wordless x -> Forall (movable bo) ms ->
  Forall (everywhere (untouched_by orc (map dt_name ms) (dt_name x))) (a ++ b) ->
  everywhere regular (DStructure mt bo (a ++ ms ++ b)) -> everywhere regular (DStructure mt1 bo (a ++ x :: b)) ->
  create orc (DStructure mt bo (a ++ ms ++ b)) None = Ok (Some m) ->
  create orc (DStructure mt1 bo (a ++ x :: b)) None = Ok (Some m') ->
  0 <= off <= len bs -> depth + levels (DStructure mt1 bo (a ++ x :: b)) <= 11 ->
  maps orc fuel m' bs off vals depth v n ->
  exists fuel' fa fm fb,
    v = VStruct (m_name mt) (fa ++ (dt_name x, VStruct (m_name mt') fm) :: fb) /\
    map fst fa = map dt_name a /\ map fst fm = map dt_name ms /\ map fst fb = map dt_name b /\
    maps orc fuel' m bs off vals depth (VStruct (m_name mt) (fa ++ fm ++ fb)) n.
Proof. exact RegroupProofs.moved_out. Qed.
Print Assumptions C71_moved_out.

Example C71_example_out :
  exists fuel fa fm fb,
    VStruct "label" (label_first ++ ("place", VStruct "place" label_middle) :: label_last) =
      VStruct "label" (fa ++ ("place", VStruct "place" fm) :: fb) /\
    map fst fa = ["size"] /\ map fst fm = ["x"; "y"; "name"] /\ map fst fb = ["mark"; "data"] /\
    maps demo fuel (the_map d_label) label_bytes 1 [] 0 (VStruct "label" (fa ++ fm ++ fb)) 14.
Proof.
  apply (C71_moved_out demo (meta_of "label") (meta_of "label") (meta_of "place") BOLittle label_before label_moved label_after label_place
    (the_map d_label) (the_map d_label_moved) 20).
  - exact extensional_demo.
  - reflexivity.
  - vm_compute. reflexivity.
  - reflexivity.
  - exact label_wordless.
  - exact label_movable.
  - exact label_untouched.
  - exact label_regular.
  - exact label_moved_regular.
  - exact label_created.
  - exact label_moved_created.
  - vm_compute. split; discriminate.
  - vm_compute. discriminate.
  - exact label_moved_maps.
Qed.

(** C71. A size that an expression looks at cannot be moved. *)
Theorem C71_looking_refuted : exists mt mt' bo ms b x m m' l v n e,
  used_type (m_name mt) bo x = DStructure mt' bo ms /\ member_values x = None /\ everywhere wordless x /\ Forall (movable bo) ms /\
  everywhere regular (DStructure mt bo (ms ++ b)) /\ everywhere regular (DStructure mt bo (x :: b)) /\
  create demo (DStructure mt bo (ms ++ b)) None = Ok (Some m) /\ create demo (DStructure mt bo (x :: b)) None = Ok (Some m') /\
  maps demo 20 m l 0 [] 0 v n /\ fails demo 20 m' l 0 [] 0 e.
Proof. exact RegroupWitness.moved_looked_at_refuted. Qed.
Print Assumptions C71_looking_refuted.
