(** Mappings that are interrupted and resumed. *)
From Coq Require Import String Ascii List ZArith Bool Lia.
From Verif Require Import Base Ieee PyVal PyStruct DataTypes ClassFactory DataMaps SpecPrim Demo SpecMap SpecCreate DemoProofs SpecResume ResumeProofs SeqResumeProofs GroupResumeProofs ResumeWitness.
Import ListNotations.
Open Scope string_scope.
Open Scope list_scope.
Open Scope Z_scope.

(** C29. Going on where the mapping stalled gives what mapping the whole stream at once gives. *)
Theorem C29_resume : forall orc fuel d m off vals depth bs c,
  extensional orc -> everywhere sound d -> create orc d None = Ok (Some m) -> resumable m ->
  interrupted orc fuel m off vals depth bs c ->
  exists p, off <= p <= len bs /\ stalls orc fuel bs m off vals depth p /\
    (forall q, stalls orc fuel bs m off vals depth q -> q = p) /\
    forall s,
      let r := mapbs orc fuel m (bs ++ s) p (Some c) depth in
      fst r = fst (mapbs orc fuel m (bs ++ s) off (Some (ctx_new vals)) depth) /\
      forall v n, maps orc fuel m (bs ++ s) off vals depth v n ->
        exists c', r = (Ok v, Some c') /\ c_state c' = st_empty /\ c_byte_size c' = Some (off + n - p).
Proof. exact ResumeProofs.resume. Qed.
Print Assumptions C29_resume.

Definition r_pair : dtype :=
  DStructure (meta_of "pair") BOLittle [member "x" d_uint16; member_if "y" "pair.x > 1" d_int32be].
Definition r_outer : dtype :=
  DStructure (meta_of "outer") BOLittle
    [member "n" d_uint8; member "raw" (DElems KStream (elems_size_expr "raw" d_uint8 "outer.n") d_uint8);
     member "p" r_pair; member "z" d_uint8].
Definition r_bytes : bytes := bs [3; 65; 66; 67; 2; 0; 0; 0; 0; 7; 9].

(** Three attempts: after 2, 7 and 11 bytes. *)
Example C29_example :
  everywhere sound r_outer /\ create demo r_outer None = Ok (Some (the_map r_outer)) /\ resumable (the_map r_outer) /\
  exists c1 c2 v,
    mapbs demo 9 (the_map r_outer) (firstn 2 r_bytes) 0 (Some (ctx_new [])) 0 = (Raise ByteStreamTooSmallError, Some c1) /\
    mapbs demo 9 (the_map r_outer) (firstn 7 r_bytes) 1 (Some c1) 0 = (Raise ByteStreamTooSmallError, Some c2) /\
    fst (mapbs demo 9 (the_map r_outer) r_bytes 6 (Some c2) 0) = Ok v /\
    maps demo 9 (the_map r_outer) r_bytes 0 [] 0 v 11.
Proof.
  split; [apply fine_sound; vm_compute; reflexivity|]. split; [vm_compute; reflexivity|].
  split; [vm_compute; tauto|].
  do 3 eexists. split; [vm_compute; reflexivity|]. split; [vm_compute; reflexivity|].
  split; [vm_compute; reflexivity|]. eexists; split; vm_compute; reflexivity.
Qed.

(** C29. So does a composite sequence that is mapped by itself. Unless elements are interrupted half way, the byte size it reports is that of the whole sequence. *)
Theorem C29_sequence : forall orc fuel e el x m off vals depth bs c,
  extensional orc -> everywhere sound (DElems KSequence e el) ->
  create orc (DElems KSequence e el) None = Ok (Some m) ->
  create orc (element_type e el) None = Ok (Some x) ->
  sequence_is_linear e (element_type e el) = false -> resumable x ->
  (has_data_size e = false \/ (whole x /\ everywhere exact el)) ->
  interrupted orc fuel m off vals depth bs c ->
  exists p, off <= p <= len bs /\ stalls orc fuel bs m off vals depth p /\
    (forall q, stalls orc fuel bs m off vals depth q -> q = p) /\
    forall s,
      let r := mapbs orc fuel m (bs ++ s) p (Some c) depth in
      let f := mapbs orc fuel m (bs ++ s) off (Some (ctx_new vals)) depth in
      (fst f <> OutOfFuel -> fst r = fst f) /\
      forall v n, maps orc fuel m (bs ++ s) off vals depth v n ->
        exists c' n', r = (Ok v, Some c') /\ c_state c' = st_empty /\ c_byte_size c' = Some n' /\
          n' <= n /\ (whole x -> n' = n).
Proof. exact SeqResumeProofs.sequence_resume. Qed.
Print Assumptions C29_sequence.

Definition r_pairs : elems := elems_number_expr "pairs" r_pair "count".
Definition r_seq : dtype := DElems KSequence r_pairs r_pair.
Definition r_words : elems := elems_term "words" d_uint16 (VInt 0).
Definition r_text : dtype := DElems KSequence r_words d_uint16.

(** Three elements, of which the second is interrupted half way; a terminated sequence in three attempts. *)
Example C29_example_sequence :
  everywhere sound r_seq /\ create demo r_seq None = Ok (Some (the_map r_seq)) /\
  create demo (element_type r_pairs r_pair) None = Ok (Some (the_map (element_type r_pairs r_pair))) /\
  sequence_is_linear r_pairs (element_type r_pairs r_pair) = false /\
  resumable (the_map (element_type r_pairs r_pair)) /\ has_data_size r_pairs = false /\
  (exists c c' v,
    mapbs demo 9 (the_map r_seq) (bs [0; 1; 0; 2; 0; 0]) 1 (Some (ctx_new [("count", VInt 3)])) 0 = (Raise ByteStreamTooSmallError, Some c) /\
    mapbs demo 9 (the_map r_seq) (bs [0; 1; 0; 2; 0; 0] ++ bs [0; 0; 7; 1; 0]) 5 (Some c) 0 = (Ok v, Some c') /\
    c_byte_size c' = Some 8 /\
    maps demo 9 (the_map r_seq) (bs [0; 1; 0; 2; 0; 0; 0; 0; 7; 1; 0]) 1 [("count", VInt 3)] 0 v 10) /\
  everywhere sound r_text /\ create demo r_text None = Ok (Some (the_map r_text)) /\
  (exists c1 c2 c3,
    mapbs demo 9 (the_map r_text) (bs [1; 0; 2]) 0 (Some (ctx_new [])) 0 = (Raise ByteStreamTooSmallError, Some c1) /\
    mapbs demo 9 (the_map r_text) (bs [1; 0; 2] ++ bs [0]) 2 (Some c1) 0 = (Raise ByteStreamTooSmallError, Some c2) /\
    mapbs demo 9 (the_map r_text) ((bs [1; 0; 2] ++ bs [0]) ++ bs [3; 0; 0; 0]) 4 (Some c2) 0 =
      (Ok (VTuple [VInt 1; VInt 2; VInt 3; VInt 0]), Some c3) /\ c_byte_size c3 = Some 8).
Proof.
  split; [apply fine_sound; vm_compute; reflexivity|]. split; [vm_compute; reflexivity|]. split; [vm_compute; reflexivity|].
  split; [vm_compute; reflexivity|]. split; [vm_compute; tauto|]. split; [vm_compute; reflexivity|].
  split.
  { do 3 eexists. split; [vm_compute; reflexivity|]. split; [vm_compute; reflexivity|]. split; [reflexivity|].
    eexists. split; [vm_compute; reflexivity|reflexivity]. }
  split; [apply fine_sound; vm_compute; reflexivity|]. split; [vm_compute; reflexivity|].
  do 3 eexists. split; [vm_compute; reflexivity|]. split; [vm_compute; reflexivity|]. split; [vm_compute; reflexivity|reflexivity].
Qed.

(** C29. So does a structure group whose base is read as a whole: the base is then mapped again, and the member it tells goes on where it stalled. *)
Theorem C29_group : forall orc fuel t d i x df es off vals depth bs c,
  extensional orc -> everywhere sound t -> create orc t None = Ok (Some (MGroup d i (Some x) df es)) ->
  whole x -> resumable x ->
  (forall y, df = Some y \/ (exists k, In (k, Some y) es) -> resumable y) ->
  interrupted orc fuel (MGroup d i (Some x) df es) off vals depth bs c ->
  exists p, off <= p <= len bs /\ stalls orc fuel bs (MGroup d i (Some x) df es) off vals depth p /\
    (forall q, stalls orc fuel bs (MGroup d i (Some x) df es) off vals depth q -> q = p) /\
    forall s,
      let r := mapbs orc fuel (MGroup d i (Some x) df es) (bs ++ s) p (Some c) depth in
      fst r = fst (mapbs orc fuel (MGroup d i (Some x) df es) (bs ++ s) off (Some (ctx_new vals)) depth) /\
      forall v n, maps orc fuel (MGroup d i (Some x) df es) (bs ++ s) off vals depth v n ->
        exists c', r = (Ok v, Some c') /\ c_state c' = st_empty /\ c_byte_size c' = Some (off + n - p).
Proof. exact GroupResumeProofs.group_resume. Qed.
Print Assumptions C29_group.

Definition rs_base : dtype := DStructure (meta_of "head") BOLittle [member "len" d_uint8; member "kind" d_uint8].
Definition rs_one : dtype :=
  DStructure (meta_of "one") BOLittle
    [member "len" d_uint8; member_in "kind" [VInt 1] d_uint8;
     member "raw" (DElems KStream (elems_size_expr "raw" d_uint8 "one.len") d_uint8); member "z" d_uint8].
Definition rs_group : dtype := DGroup (meta_of "g") BOLittle rs_base "kind" None [rs_one].

(** Four attempts: with one byte of the base, without the bytes, with some of them and with all. *)
Example C29_example_group :
  exists d i x df es c1 c2 c3 c4 v,
    everywhere sound rs_group /\ create demo rs_group None = Ok (Some (MGroup d i (Some x) df es)) /\
    whole x /\ resumable x /\ (forall y, df = Some y \/ (exists k, In (k, Some y) es) -> resumable y) /\
    mapbs demo 9 (MGroup d i (Some x) df es) (bs [3]) 0 (Some (ctx_new [])) 0 = (Raise ByteStreamTooSmallError, Some c1) /\
    mapbs demo 9 (MGroup d i (Some x) df es) (bs [3; 1; 65]) 0 (Some c1) 0 = (Raise ByteStreamTooSmallError, Some c2) /\
    mapbs demo 9 (MGroup d i (Some x) df es) (bs [3; 1; 65; 66; 67]) 2 (Some c2) 0 = (Raise ByteStreamTooSmallError, Some c3) /\
    mapbs demo 9 (MGroup d i (Some x) df es) (bs [3; 1; 65; 66; 67; 9]) 5 (Some c3) 0 = (Ok v, Some c4) /\
    maps demo 9 (MGroup d i (Some x) df es) (bs [3; 1; 65; 66; 67; 9]) 0 [] 0 v 6.
Proof.
  do 10 eexists. split; [apply fine_sound; vm_compute; reflexivity|]. split; [vm_compute; reflexivity|].
  split; [exact I|]. split; [vm_compute; tauto|].
  split; [intros y [H|[k [H|H]]]; [discriminate|inversion H; subst; vm_compute; tauto|destruct H]|].
  split; [vm_compute; reflexivity|]. split; [vm_compute; reflexivity|]. split; [vm_compute; reflexivity|].
  split; [vm_compute; reflexivity|]. eexists. split; vm_compute; reflexivity.
Qed.

(** C29. A group whose base is interrupted between two members cannot be resumed at any offset. *)
Theorem C29_group_refuted : exists t d i x df es b s c v n, everywhere sound t /\ create demo t None = Ok (Some (MGroup d i (Some x) df es)) /\
    resumable x /\ (forall y, df = Some y \/ (exists k, In (k, Some y) es) -> resumable y) /\
    mapbs demo 9 (MGroup d i (Some x) df es) b 0 (Some (ctx_new [])) 0 = (Raise ByteStreamTooSmallError, Some c) /\
    maps demo 9 (MGroup d i (Some x) df es) (b ++ s) 0 [] 0 v n /\
    forall p, 0 <= p <= len (b ++ s) -> fst (mapbs demo 9 (MGroup d i (Some x) df es) (b ++ s) p (Some c) 0) <> Ok v.
Proof. exact ResumeWitness.group_resume_refuted. Qed.
Print Assumptions C29_group_refuted.

(** C29. A composite sequence followed by another member cannot be resumed at any offset. *)
Theorem C29_sequence_refuted : exists d m b s c v n, everywhere sound d /\ create demo d None = Ok (Some m) /\
    mapbs demo 9 m b 0 (Some (ctx_new [])) 0 = (Raise ByteStreamTooSmallError, Some c) /\
    maps demo 9 m (b ++ s) 0 [] 0 v n /\
    forall p, 0 <= p <= len (b ++ s) -> fst (mapbs demo 9 m (b ++ s) p (Some c) 0) <> Ok v.
Proof. exact ResumeWitness.sequence_resume_refuted. Qed.
Print Assumptions C29_sequence_refuted.

(** C29. Mapping again from the start, with the context of the attempt that failed, gives a wrong value and no error. *)
Theorem C29_restart_refuted : exists d m b s c v w n, everywhere sound d /\ create demo d None = Ok (Some m) /\
    mapbs demo 9 m b 0 (Some (ctx_new [])) 0 = (Raise ByteStreamTooSmallError, Some c) /\
    maps demo 9 m (b ++ s) 0 [] 0 v n /\
    fst (mapbs demo 9 m (b ++ s) 0 (Some c) 0) = Ok w /\ w <> v.
Proof. exact ResumeWitness.restart_refuted. Qed.
Print Assumptions C29_restart_refuted.

(** C29. If an attempt to go on fails for another reason, the elements it read are there twice when a later attempt with its context succeeds. *)
Theorem C29_failed_sequence_refuted : exists d m b s t c c' v w n, everywhere sound d /\ create demo d None = Ok (Some m) /\
    mapbs demo 9 m b 0 (Some (ctx_new [])) 0 = (Raise ByteStreamTooSmallError, Some c) /\
    mapbs demo 9 m (b ++ s) (len b) (Some c) 0 = (Raise MappingError, Some c') /\
    maps demo 9 m (b ++ t) 0 [] 0 (VTuple v) n /\
    fst (mapbs demo 9 m (b ++ t) (len b) (Some c) 0) = Ok (VTuple v) /\
    fst (mapbs demo 9 m (b ++ t) (len b) (Some c') 0) = Ok (VTuple w) /\ len w = len v + 1.
Proof. exact ResumeWitness.failed_sequence_refuted. Qed.
Print Assumptions C29_failed_sequence_refuted.

(** C29. So the members it read: one that is absent later keeps its value. *)
Theorem C29_failed_structure_refuted : exists d m b s t c c' v w n, everywhere sound d /\ create demo d None = Ok (Some m) /\
    mapbs demo 9 m b 0 (Some (ctx_new [])) 0 = (Raise ByteStreamTooSmallError, Some c) /\
    mapbs demo 9 m (b ++ s) (len b) (Some c) 0 = (Raise MappingError, Some c') /\
    maps demo 9 m (b ++ t) 0 [] 0 v n /\
    fst (mapbs demo 9 m (b ++ t) (len b) (Some c) 0) = Ok v /\
    fst (mapbs demo 9 m (b ++ t) (len b) (Some c') 0) = Ok w /\
    py_getattr v "more" = VNone /\ py_getattr w "more" = VInt 5.
Proof. exact ResumeWitness.failed_structure_refuted. Qed.
Print Assumptions C29_failed_structure_refuted.
