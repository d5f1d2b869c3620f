(** C82: a definition with conditions reads like the definition of just the members that are there. *)
From Coq Require Import String Ascii List ZArith Bool Lia.
From Verif Require Import Base PyVal PyStruct DataTypes ClassFactory DataMaps Expr Demo SpecPrim SpecMap SpecCreate SpecReads SpecGrow SpecVariant VariantProofs DemoProofs VariantWitness.
Import ListNotations.
Open Scope string_scope.
Open Scope list_scope.
Open Scope Z_scope.

(** C82. What a structure with conditions maps is mapped by the structure of the members that are there, without conditions. *)
Theorem C82_mapped : forall orc mt mt' bo ms m m' fuel bs off vals depth fields n,
  extensional orc -> m_name mt' = m_name mt ->
  everywhere regular (DStructure mt bo ms) -> everywhere regular (DStructure mt' bo (those_there ms fields)) ->
  Forall never_none ms ->
  Forall (everywhere (does_without orc (lacking fields))) (those_there ms fields) ->
  create orc (DStructure mt bo ms) None = Ok (Some m) ->
  create orc (DStructure mt' bo (those_there ms fields)) None = Ok (Some m') ->
  0 <= off <= len bs -> depth + levels (DStructure mt' bo (those_there ms fields)) <= 11 ->
  SpecMap.maps orc fuel m bs off vals depth (VStruct (m_name mt) fields) n ->
  exists fuel', SpecMap.maps orc fuel' m' bs off vals depth (VStruct (m_name mt) (having fields)) n.
Proof. exact VariantProofs.variant_mapped. Qed.
Print Assumptions C82_mapped.

Example C82_example_mapped : exists fuel, SpecMap.maps demo fuel (the_map d_head_two) head_bytes 0 [] 0 (VStruct "head" head_two_fields) 8.
Proof.
  exact (C82_mapped demo (meta_of "head") (meta_of "head") BOLittle head_ms (the_map d_head) (the_map d_head_two) 20%nat head_bytes 0 [] 0 head_fields 8
    extensional_demo eq_refl head_regular head_two_regular head_never_none head_without head_created head_two_created head_offset head_two_levels head_maps).
Qed.

(** C82. What a structure without conditions maps is mapped by the one with more members under conditions that say which are there. *)
Theorem C82_back : forall orc mt mt' bo ms m m' fuel bs off vals depth fields n,
  extensional orc -> m_name mt' = m_name mt ->
  everywhere regular (DStructure mt bo ms) -> everywhere regular (DStructure mt' bo (those_there ms fields)) ->
  Forall (everywhere (does_without orc (lacking fields))) (those_there ms fields) ->
  create orc (DStructure mt bo ms) None = Ok (Some m) ->
  create orc (DStructure mt' bo (those_there ms fields)) None = Ok (Some m') ->
  0 <= off <= len bs -> depth + levels (DStructure mt bo ms) <= 11 ->
  map fst fields = map dt_name ms ->
  (forall i x f, nth_error ms i = Some x -> nth_error fields i = Some f ->
     condition_is orc x (scope (m_name mt) (VStruct (m_name mt) (so_far i fields)) vals) (negb (is_none (snd f)))) ->
  SpecMap.maps orc fuel m' bs off vals depth (VStruct (m_name mt) (having fields)) n ->
  exists fuel', SpecMap.maps orc fuel' m bs off vals depth (VStruct (m_name mt) fields) n.
Proof. exact VariantProofs.variant_back. Qed.
Print Assumptions C82_back.

Example C82_example_back : exists fuel, SpecMap.maps demo fuel (the_map d_head) head_bytes 0 [] 0 (VStruct "head" head_fields) 8.
Proof.
  exact (C82_back demo (meta_of "head") (meta_of "head") BOLittle head_ms (the_map d_head) (the_map d_head_two) 20%nat head_bytes 0 [] 0 head_fields 8
    extensional_demo eq_refl head_regular head_two_regular head_without head_created head_two_created head_offset head_levels eq_refl head_conditions head_two_maps).
Qed.
