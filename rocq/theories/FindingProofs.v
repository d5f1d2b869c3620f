(** Witnesses against statements that do not hold without their side
    conditions. *)
From Coq Require Import String List ZArith Bool Lia.
From Verif Require Import Base PyVal PyStruct DataTypes ClassFactory DataMaps Expr Codec Demo SpecPrim SpecMap SpecCreate DemoProofs.
Import ListNotations.
Open Scope Z_scope.
Open Scope string_scope.
Open Scope list_scope.

(** C09: with a terminator shorter than the elements, a mapping that succeeds can
    fail when bytes are appended, and reports more bytes than there are. *)
Definition short_terminator : dtype :=
  DElems KStream (elems_term "t" d_uint16 (VBytes (bs [0]))) d_uint16.

Lemma short_terminator_refuted :
  exists d m b s v n, create demo d None = Ok (Some m) /\
    maps demo 9 m b 0 [] 0 v n /\ len b < n /\
    fails demo 9 m (b ++ s) 0 [] 0 ByteStreamTooSmallError.
Proof.
  exists short_terminator, (the_map short_terminator), (bs [1; 2; 0]), (bs [5]), (VBytes (bs [1; 2; 0])), 4.
  split; [vm_compute; reflexivity|]. split; [eexists; split; vm_compute; reflexivity|].
  split; vm_compute; reflexivity.
Qed.

(** C10: the base of a group can be larger than the member that is chosen, so that
    the value depends on bytes after the reported ones. *)
Definition wide_base : dtype :=
  DGroup (meta_of "g") BOLittle
    (DStructure (meta_of "base") BOLittle [member "x" d_uint8; member "kind" d_uint8]) "kind" None
    [DStructure (meta_of "one") BOLittle [member_in "kind" [VInt 1] d_uint8]].

Lemma group_window_refuted :
  exists d m b b' v n, everywhere sound d /\ create demo d None = Ok (Some m) /\
    maps demo 9 m b 0 [] 0 v n /\ len b = len b' /\ window b' 0 n = window b 0 n /\
    fails demo 9 m b' 0 [] 0 MappingError.
Proof.
  exists wide_base, (the_map wide_base), (bs [1; 1]), (bs [1; 2]), (VStruct "one" [("kind", VInt 1)]), 1.
  split; [apply fine_sound; vm_compute; reflexivity|].
  split; [vm_compute; reflexivity|]. split; [eexists; split; vm_compute; reflexivity|].
  split; [vm_compute; reflexivity|]. split; vm_compute; reflexivity.
Qed.

(** C10: elements that take up no space are mapped only before the end of the
    stream, so that the value depends on whether there are further bytes. *)
Definition hollow : dtype :=
  DStructure (meta_of "hollow") BOLittle [member_if "a" "0 > 1" d_uint8].
Definition hollows : dtype := DElems KSequence (elems_number "s" hollow 2) hollow.

Lemma hollow_window_refuted :
  exists d m b b' v n, everywhere sound d /\ create demo d None = Ok (Some m) /\ all_maps no_group m /\
    maps demo 9 m b 0 [] 0 v n /\ n <= len b' /\ window b' 0 n = window b 0 n /\
    fails demo 9 m b' 0 [] 0 ByteStreamTooSmallError.
Proof.
  exists hollows, (the_map hollows), (bs [7]), [],
    (VTuple [VStruct "hollow" [("a", VNone)]; VStruct "hollow" [("a", VNone)]]), 0.
  split; [apply fine_sound; vm_compute; reflexivity|].
  split; [vm_compute; reflexivity|]. split; [vm_compute; tauto|].
  split; [eexists; split; vm_compute; reflexivity|].
  split; [vm_compute; congruence|]. split; vm_compute; reflexivity.
Qed.

(** C10: a structure of absent members is mapped even beyond the end. *)
Lemma beyond_window_refuted :
  exists d m b off v n, everywhere sound d /\ create demo d None = Ok (Some m) /\ all_maps no_group m /\
    maps demo 9 m b off [] 0 v n /\ len b < off + n.
Proof.
  exists hollow, (the_map hollow), [], 3, (VStruct "hollow" [("a", VNone)]), 0.
  split; [apply fine_sound; vm_compute; reflexivity|].
  split; [vm_compute; reflexivity|]. split; [vm_compute; tauto|].
  split; [eexists; split; vm_compute; reflexivity|]. vm_compute. reflexivity.
Qed.

(** C11: padding counts from the start of the structure in the size of the
    definition, but from the start of the stream when mapping. *)
Definition padded : dtype :=
  DStructure (meta_of "padded") BOLittle [member "a" d_uint8; DPadding (meta_of "pad") BOLittle (Some 4)].

Lemma padding_offset_refuted :
  exists d m b off v n s, everywhere sound d /\ create demo d None = Ok (Some m) /\
    get_byte_size d = Some s /\ 0 <= off <= len b /\ maps demo 9 m b off [] 0 v n /\ n <> s.
Proof.
  exists padded, (the_map padded), (bs [1; 2; 3; 4]), 1, (VStruct "padded" [("a", VInt 2); ("pad", VBytes (bs [3; 4]))]), 3, 4.
  split; [apply fine_sound; vm_compute; reflexivity|].
  split; [vm_compute; reflexivity|]. split; [vm_compute; reflexivity|].
  split; [vm_compute; split; congruence|]. split; [eexists; split; vm_compute; reflexivity|]. discriminate.
Qed.

(** C11: a terminator makes a sequence ignore its fixed number of elements, which
    the size of the definition still counts. *)
Definition counted_terminated : dtype :=
  DElems KSequence (mkElems (meta_of "s") BOLittle None None (Some "uint8") (Some (VInt 0)) (Some 2) None "utf8") d_uint8.

Lemma counted_terminated_refuted :
  exists d m b v n s, everywhere sound d /\ create demo d None = Ok (Some m) /\
    get_byte_size d = Some s /\ maps demo 9 m b 0 [] 0 v n /\ n <> s.
Proof.
  exists counted_terminated, (the_map counted_terminated), (bs [1; 2; 3; 0]), (VTuple [VInt 1; VInt 2; VInt 3; VInt 0]), 4, 2.
  split; [apply fine_sound; vm_compute; reflexivity|].
  split; [vm_compute; reflexivity|]. split; [vm_compute; reflexivity|].
  split; [eexists; split; vm_compute; reflexivity|]. discriminate.
Qed.

(** C11: a sequence of structures whose data size is not a multiple of their
    size. *)
Definition odd_size : dtype :=
  let pair := DStructure (meta_of "pair") BOLittle [member "a" d_uint8; member "b" d_uint8] in
  DElems KSequence (elems_size "s" pair 5) pair.

Lemma odd_size_refuted :
  exists d m b v n s, everywhere sound d /\ create demo d None = Ok (Some m) /\
    get_byte_size d = Some s /\ maps demo 9 m b 0 [] 0 v n /\ n <> s.
Proof.
  exists odd_size, (the_map odd_size), (bs [1; 2; 3; 4; 5]).
  exists (VTuple [VStruct "pair" [("a", VInt 1); ("b", VInt 2)]; VStruct "pair" [("a", VInt 3); ("b", VInt 4)]]), 4, 5.
  split; [apply fine_sound; vm_compute; reflexivity|].
  split; [vm_compute; reflexivity|]. split; [vm_compute; reflexivity|].
  split; [eexists; split; vm_compute; reflexivity|]. discriminate.
Qed.

(** C18: on the fast path a data size smaller than one element cannot be mapped,
    while the other path maps to an empty sequence. *)
Definition small_linear : dtype := DElems KSequence (elems_size "s" d_uint16 1) d_uint16.
Definition small_composite : dtype :=
  let pair := DStructure (meta_of "pair") BOLittle [member "a" d_uint8; member "b" d_uint8] in
  DElems KSequence (elems_size "s" pair 1) pair.

Lemma small_data_size_refuted :
  exists d m d' m' b, everywhere sound d /\ create demo d None = Ok (Some m) /\
    everywhere sound d' /\ create demo d' None = Ok (Some m') /\
    get_byte_size d = get_byte_size d' /\
    fails demo 9 m b 0 [] 0 MappingError /\ maps demo 9 m' b 0 [] 0 (VTuple []) 0.
Proof.
  exists small_linear, (the_map small_linear), small_composite, (the_map small_composite), (bs [1; 2]).
  split; [apply fine_sound; vm_compute; reflexivity|]. split; [vm_compute; reflexivity|].
  split; [apply fine_sound; vm_compute; reflexivity|]. split; [vm_compute; reflexivity|].
  split; [vm_compute; reflexivity|]. split; [vm_compute; reflexivity|].
  eexists; split; vm_compute; reflexivity.
Qed.
