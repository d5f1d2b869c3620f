(** The exceptions that mapping raises. *)
From Coq Require Import String Ascii List ZArith Bool Lia.
From Verif Require Import Base Ieee PyVal PyStruct DataTypes ClassFactory DataMaps SpecPrim Demo SpecMap SpecCreate DemoProofs MapProofs ErrorProofs RawProofs.
Import ListNotations.
Open Scope string_scope.
Open Scope list_scope.
Open Scope Z_scope.

(** C27. A composite structure whose names do not hide one another raises only the two errors, whatever its members. *)
Theorem C27_structure : forall orc fuel mt bo ms m bs off vals depth e,
  extensional orc -> create orc (DStructure mt bo ms) None = Ok (Some m) -> level m ->
  clear_names (m_name mt) (map dt_name ms) ->
  fails orc fuel m bs off vals depth e -> e = ByteStreamTooSmallError \/ e = MappingError.
Proof. exact ErrorProofs.structure_plain. Qed.
Print Assumptions C27_structure.

Definition x_struct : dtype :=
  DStructure (meta_of "x") BOLittle [member "a" d_uint8; member "s" open_seq].

Example C27_example :
  create demo x_struct None = Ok (Some (the_map x_struct)) /\ level (the_map x_struct) /\
  clear_names "x" ["a"; "s"] /\
  fails demo 9 (the_map x_struct) (bs [1; 65; 0; 0; 0]) 0 [] 0 MappingError /\
  fails demo 9 (the_map open_seq) (bs [1; 65; 0; 0; 0]) 1 [] 1 AttributeError.
Proof.
  split; [vm_compute; reflexivity|]. split; [vm_compute; exact I|].
  split; [apply constructible_spec; reflexivity|]. split; vm_compute; reflexivity.
Qed.

(** C27. So does every other map of a definition that has what its map relies on. *)
Theorem C27_contained : forall orc fuel d m bs off vals depth e,
  extensional orc -> everywhere sound d -> create orc d None = Ok (Some m) -> tame d m -> 0 <= off ->
  fails orc fuel m bs off vals depth e -> e = ByteStreamTooSmallError \/ e = MappingError.
Proof. exact ErrorProofs.errors_contained. Qed.
Print Assumptions C27_contained.

Definition x_seq : dtype := DElems KSequence (elems_size "s" d_uint16 4) d_uint16.

Example C27_example_contained :
  everywhere sound x_seq /\ create demo x_seq None = Ok (Some (the_map x_seq)) /\ tame x_seq (the_map x_seq) /\
  fails demo 9 (the_map x_seq) (bs [1; 0; 0]) 0 [] 0 ByteStreamTooSmallError.
Proof.
  split; [apply fine_sound; vm_compute; reflexivity|]. split; [vm_compute; reflexivity|].
  split; [|vm_compute; reflexivity].
  split.
  - intros _. left. exists 2. split; [reflexivity|lia].
  - right. split; [discriminate|exact I].
Qed.

(** C27. A type of unknown size raises TypeError. *)
Theorem C27_size_refuted : exists d m b, everywhere sound d /\ create demo d None = Ok (Some m) /\ fails demo 9 m b 0 [] 0 TypeError.
Proof. exact RawProofs.raw_size_refuted. Qed.
Print Assumptions C27_size_refuted.

(** C27. So does a structure that is read in one go. *)
Theorem C27_structure_refuted : exists d m b, everywhere sound d /\ create demo d None = Ok (Some m) /\ fails demo 9 m b 0 [] 0 TypeError.
Proof. exact RawProofs.raw_structure_refuted. Qed.
Print Assumptions C27_structure_refuted.

(** C27. So does a sequence that is read in one go. *)
Theorem C27_sequence_refuted : exists d m b, everywhere sound d /\ create demo d None = Ok (Some m) /\ fails demo 9 m b 0 [] 0 TypeError.
Proof. exact RawProofs.raw_sequence_refuted. Qed.
Print Assumptions C27_sequence_refuted.

(** C27. So does a terminated stream of elements of unknown size. *)
Theorem C27_stream_refuted : exists d m b, create demo d None = Ok (Some m) /\ fails demo 9 m b 0 [] 0 TypeError.
Proof. exact RawProofs.raw_stream_refuted. Qed.
Print Assumptions C27_stream_refuted.

(** C27. A sequence of characters raises ValueError on bytes above 127. *)
Theorem C27_character_refuted : exists d m b, everywhere sound d /\ create demo d None = Ok (Some m) /\ fails demo 9 m b 0 [] 0 ValueError.
Proof. exact RawProofs.raw_character_refuted. Qed.
Print Assumptions C27_character_refuted.

(** C27. A sequence with a data size raises AttributeError if the structures in it have no fixed size. *)
Theorem C27_elements_refuted : exists d m b, everywhere sound d /\ create demo d None = Ok (Some m) /\ fails demo 9 m b 0 [] 0 AttributeError.
Proof. exact RawProofs.raw_elements_refuted. Qed.
Print Assumptions C27_elements_refuted.

(** C27. And ZeroDivisionError if they have size 0. *)
Theorem C27_zero_refuted : exists d m b, everywhere sound d /\ create demo d None = Ok (Some m) /\ fails demo 9 m b 0 [] 0 ZeroDivisionError.
Proof. exact RawProofs.raw_zero_refuted. Qed.
Print Assumptions C27_zero_refuted.

(** C27. A structure that is mapped member by member and has a member named like itself raises TypeError. *)
Theorem C27_names_refuted : exists d m b, everywhere sound d /\ create demo d None = Ok (Some m) /\ level m /\
    fails demo 9 m b 0 [] 0 TypeError.
Proof. exact RawProofs.raw_names_refuted. Qed.
Print Assumptions C27_names_refuted.
