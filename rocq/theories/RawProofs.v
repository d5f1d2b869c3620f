(** Definitions whose mapping raises something else than MappingError or
    ByteStreamTooSmallError (C27). *)
From Coq Require Import String List ZArith Bool Lia.
From Verif Require Import Base PyVal PyStruct DataTypes ClassFactory DataMaps Expr Codec Demo SpecPrim SpecMap SpecCreate DemoProofs.
Import ListNotations.
Open Scope Z_scope.
Open Scope string_scope.
Open Scope list_scope.

(** A number of native size. *)
Definition native_int : dtype := DInteger (mkFixed (meta_of "int") BOLittle None "bytes") false.

Lemma raw_size_refuted :
  exists d m b, everywhere sound d /\ create demo d None = Ok (Some m) /\ fails demo 9 m b 0 [] 0 TypeError.
Proof.
  exists native_int, (the_map native_int), (bs [1; 2; 3; 4]).
  split; [apply fine_sound; vm_compute; reflexivity|]. split; vm_compute; reflexivity.
Qed.

(** A structure of a number of native size. *)
Definition native_struct : dtype := DStructure (meta_of "s") BOLittle [member "a" native_int].

Lemma raw_structure_refuted :
  exists d m b, everywhere sound d /\ create demo d None = Ok (Some m) /\ fails demo 9 m b 0 [] 0 TypeError.
Proof.
  exists native_struct, (the_map native_struct), (bs [1; 2; 3; 4]).
  split; [apply fine_sound; vm_compute; reflexivity|]. split; vm_compute; reflexivity.
Qed.

(** A sequence of numbers of native size. *)
Definition native_seq : dtype := DElems KSequence (elems_number "s" native_int 2) native_int.

Lemma raw_sequence_refuted :
  exists d m b, everywhere sound d /\ create demo d None = Ok (Some m) /\ fails demo 9 m b 0 [] 0 TypeError.
Proof.
  exists native_seq, (the_map native_seq), (bs [1; 2; 3; 4]).
  split; [apply fine_sound; vm_compute; reflexivity|]. split; vm_compute; reflexivity.
Qed.

(** A sequence of characters of one byte, on a byte above 127. *)
Definition char_seq : dtype := DElems KSequence (elems_number "s" d_char 2) d_char.

Lemma raw_character_refuted :
  exists d m b, everywhere sound d /\ create demo d None = Ok (Some m) /\ fails demo 9 m b 0 [] 0 ValueError.
Proof.
  exists char_seq, (the_map char_seq), (bs [65; 200]).
  split; [apply fine_sound; vm_compute; reflexivity|]. split; vm_compute; reflexivity.
Qed.

(** A sequence with a data size of structures without a fixed size. *)
Definition open_struct : dtype :=
  DStructure (meta_of "open") BOLittle
    [member "a" d_uint8; member "t" (DElems KString (elems_term "t" d_char (VBytes (bs [0]))) d_char)].
Definition open_seq : dtype := DElems KSequence (elems_size "s" open_struct 4) open_struct.

Lemma raw_elements_refuted :
  exists d m b, everywhere sound d /\ create demo d None = Ok (Some m) /\ fails demo 9 m b 0 [] 0 AttributeError.
Proof.
  exists open_seq, (the_map open_seq), (bs [1; 65; 0; 0]).
  split; [apply fine_sound; vm_compute; reflexivity|]. split; vm_compute; reflexivity.
Qed.

(** A sequence with a data size of structures of padding only. *)
Definition pad_struct : dtype := DStructure (meta_of "p") BOLittle [DPadding (meta_of "pad") BOLittle (Some 4)].
Definition pad_seq : dtype := DElems KSequence (elems_size "s" pad_struct 4) pad_struct.

Lemma raw_zero_refuted :
  exists d m b, everywhere sound d /\ create demo d None = Ok (Some m) /\ fails demo 9 m b 0 [] 0 ZeroDivisionError.
Proof.
  exists pad_seq, (the_map pad_seq), (bs [1; 65; 0; 0]).
  split; [apply fine_sound; vm_compute; reflexivity|]. split; vm_compute; reflexivity.
Qed.

(** A terminated stream of elements of native size. *)
Definition native_stream : dtype := DElems KStream (elems_term "s" native_int (VBytes (bs [0]))) native_int.

Lemma raw_stream_refuted :
  exists d m b, create demo d None = Ok (Some m) /\ fails demo 9 m b 0 [] 0 TypeError.
Proof.
  exists native_stream, (the_map native_stream), (bs [1; 65; 0; 0]).
  split; vm_compute; reflexivity.
Qed.

(** A structure mapped member by member of which a member is named like it. *)
Definition named_alike : dtype :=
  DStructure (meta_of "node") BOLittle [member "next" d_uint16; DElems KStream (elems_number "node" d_uint8 2) d_uint8].

Lemma raw_names_refuted :
  exists d m b, everywhere sound d /\ create demo d None = Ok (Some m) /\ level m /\
    fails demo 9 m b 0 [] 0 TypeError.
Proof.
  exists named_alike, (the_map named_alike), (bs [1; 2; 3; 4]).
  split; [apply fine_sound; vm_compute; reflexivity|]. split; [vm_compute; reflexivity|].
  split; [vm_compute; exact I|]. vm_compute. reflexivity.
Qed.
