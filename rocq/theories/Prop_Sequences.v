(** Sequences by what governs their length, and sizes of definitions. *)
From Coq Require Import String Ascii List ZArith Bool Lia.
From Verif Require Import Base Ieee PyVal PyStruct DataTypes ClassFactory DataMaps SpecPrim Demo SpecMap SpecCreate SpecAttributes DemoProofs AttributeProofs SeqKindProofs SizeProofs FindingProofs HintProofs.
Import ListNotations.
Open Scope string_scope.
Open Scope list_scope.
Open Scope Z_scope.

(** C16. A counted sequence yields exactly the requested elements, each right after the previous one. *)
Theorem C16_counted : forall orc fuel e el m x bs off vals depth,
  extensional orc -> everywhere sound (DElems KSequence e el) ->
  create orc (DElems KSequence e el) None = Ok (Some m) ->
  create orc (element_type e el) None = Ok (Some x) ->
  ~ size_given e -> e_terminator e = None -> 0 <= off <= len bs ->
  (forall v n, maps orc fuel m bs off vals depth v n ->
     exists k vs, measure orc (e_number e) (e_number_expr e) vals k /\ v = VTuple vs /\ len vs = k /\
       elements orc fuel x bs depth off vs (off + n)) /\
  (forall k vs n, measure orc (e_number e) (e_number_expr e) vals k -> len vs = k ->
     elements orc fuel x bs depth off vs (off + n) ->
     depth <= 10 -> (Z.to_nat k < fuel)%nat ->
     maps orc fuel m bs off vals depth (VTuple vs) n).
Proof. exact AttributeProofs.counted. Qed.
Print Assumptions C16_counted.

Definition q_pair : dtype := DStructure (meta_of "pair") BOLittle [member "a" d_uint8; member "b" d_uint16].
Definition q_linear := elems_number "s" d_uint16 2.
Definition q_pairs := elems_number "s" q_pair 2.

Example C16_example :
  everywhere sound (DElems KSequence q_pairs q_pair) /\ everywhere sound (DElems KSequence q_linear d_uint16) /\
  ~ size_given q_pairs /\ e_terminator q_pairs = None /\ ~ size_given q_linear /\
  (exists x, create demo (element_type q_pairs q_pair) None = Ok (Some x)) /\
  (exists x, create demo (element_type q_linear d_uint16) None = Ok (Some x)) /\
  maps demo 9 (the_map (DElems KSequence q_linear d_uint16)) (bs [9; 1; 0; 2; 0]) 1 [] 0 (VTuple [VInt 1; VInt 2]) 4 /\
  maps demo 9 (the_map (DElems KSequence q_pairs q_pair)) (bs [1; 2; 0; 3; 4; 0]) 0 [] 0
    (VTuple [VStruct "pair" [("a", VInt 1); ("b", VInt 2)]; VStruct "pair" [("a", VInt 3); ("b", VInt 4)]]) 6.
Proof.
  split; [apply fine_sound; vm_compute; reflexivity|]. split; [apply fine_sound; vm_compute; reflexivity|].
  split; [intros [H|H]; now apply H|]. split; [reflexivity|]. split; [intros [H|H]; now apply H|].
  split; [eexists; vm_compute; reflexivity|]. split; [eexists; vm_compute; reflexivity|].
  split; eexists; split; vm_compute; reflexivity.
Qed.

(** C17. A terminated sequence stops at the first terminator, whatever number of elements is also given. *)
Theorem C17_terminated : forall orc fuel e el m x t bs off vals depth,
  extensional orc -> everywhere sound (DElems KSequence e el) ->
  create orc (DElems KSequence e el) None = Ok (Some m) ->
  create orc (element_type e el) None = Ok (Some x) ->
  ~ size_given e -> e_terminator e = Some t -> 0 <= off <= len bs -> depth <= 10 ->
  (forall v n, maps orc fuel m bs off vals depth v n <->
     exists vs w, v = VTuple (vs ++ [w]) /\ py_eq w t = true /\ Forall (fun u => py_eq u t = false) vs /\
       elements orc fuel x bs depth off (vs ++ [w]) (off + n) /\ (List.length vs < fuel)%nat) /\
  (fails orc fuel m bs off vals depth ByteStreamTooSmallError <->
     exists vs n, Forall (fun u => py_eq u t = false) vs /\ elements orc fuel x bs depth off vs (off + n) /\
       (len bs <= off + n \/ fails orc fuel x bs (off + n) [] (depth + 1) ByteStreamTooSmallError) /\
       (List.length vs < fuel)%nat).
Proof. exact AttributeProofs.terminated. Qed.
Print Assumptions C17_terminated.

Example C17_example :
  everywhere sound counted_terminated /\ create demo counted_terminated None = Ok (Some (the_map counted_terminated)) /\
  maps demo 9 (the_map counted_terminated) (bs [9; 1; 2; 3; 0; 5]) 1 [] 0 (VTuple [VInt 1; VInt 2; VInt 3; VInt 0]) 4 /\
  fails demo 9 (the_map counted_terminated) (bs [9; 1; 2; 3]) 1 [] 0 ByteStreamTooSmallError.
Proof.
  split; [apply fine_sound; vm_compute; reflexivity|]. split; [vm_compute; reflexivity|].
  split; [eexists; split; vm_compute; reflexivity|]. vm_compute; reflexivity.
Qed.

(** C18. With a data size, fixed-size elements are read as often as they fit. *)
Theorem C18_sized : forall orc fuel e el m x b bs off vals depth v n,
  extensional orc -> everywhere sound (DElems KSequence e el) ->
  create orc (DElems KSequence e el) None = Ok (Some m) ->
  create orc (element_type e el) None = Ok (Some x) ->
  size_given e -> get_byte_size el = Some b -> 0 <= off <= len bs ->
  maps orc fuel m bs off vals depth v n ->
  exists s vs k, measure orc (e_data_size e) (e_data_size_expr e) vals s /\ v = VTuple vs /\
    len vs = s / b /\ elements orc fuel x bs depth off vs (off + k) /\
    (in_one_go e el -> n = s /\ k = s / b * b) /\ (~ in_one_go e el -> n = k).
Proof. exact AttributeProofs.filled. Qed.
Print Assumptions C18_sized.

Example C18_example :
  everywhere sound odd_size /\
  maps demo 9 (the_map odd_size) (bs [1; 2; 3; 4; 5]) 0 [] 0
    (VTuple [VStruct "pair" [("a", VInt 1); ("b", VInt 2)]; VStruct "pair" [("a", VInt 3); ("b", VInt 4)]]) 4 /\
  maps demo 9 (the_map (DElems KSequence (elems_size "s" d_uint16 5) d_uint16)) (bs [1; 0; 3; 0; 5]) 0 [] 0
    (VTuple [VInt 1; VInt 3]) 5.
Proof.
  split; [apply fine_sound; vm_compute; reflexivity|].
  split; eexists; split; vm_compute; reflexivity.
Qed.

(** C18. With a data size, variable-size elements are read until the size is reached or one equals the element terminator. *)
Theorem C18_variable : forall orc fuel e el m x bs off vals depth v n,
  extensional orc -> everywhere sound (DElems KSequence e el) ->
  create orc (DElems KSequence e el) None = Ok (Some m) ->
  create orc (element_type e el) None = Ok (Some x) ->
  size_given e -> get_byte_size el = None -> 0 <= off <= len bs ->
  maps orc fuel m bs off vals depth v n ->
  exists s k e' el' t vs, measure orc (e_data_size e) (e_data_size_expr e) vals s /\
    el = DElems k e' el' /\ e_terminator e' = Some t /\ v = VTuple vs /\
    elements orc fuel x bs depth off vs (off + n) /\
    (s <= n \/ (vs <> [] /\ py_eq (last vs VNone) t = true)) /\
    forall before after j, vs = before ++ after -> after <> [] ->
      elements orc fuel x bs depth off before (off + j) ->
      j < s /\ (before <> [] -> py_eq (last before VNone) t = false).
Proof. exact AttributeProofs.filled_variable. Qed.
Print Assumptions C18_variable.

Definition q_row : dtype := DElems KSequence (elems_term "row" d_uint8 (VInt 0)) d_uint8.
Definition q_rows : dtype := DElems KSequence (elems_size "rows" q_row 4) q_row.

Example C18_example_variable :
  everywhere sound q_rows /\ get_byte_size q_row = None /\
  maps demo 9 (the_map q_rows) (bs [1; 0; 2; 3; 0; 9]) 0 [] 0
    (VTuple [VTuple [VInt 1; VInt 0]; VTuple [VInt 2; VInt 3; VInt 0]]) 5.
Proof.
  split; [apply fine_sound; vm_compute; reflexivity|]. split; [vm_compute; reflexivity|].
  eexists; split; vm_compute; reflexivity.
Qed.

(** C18. The fast path consumes the data size itself, the other path the truncated size. *)
Theorem C18_size : forall orc fuel e el m x b bs off vals depth v n,
  extensional orc -> everywhere sound (DElems KSequence e el) -> everywhere exact el ->
  create orc (DElems KSequence e el) None = Ok (Some m) ->
  create orc (element_type e el) None = Ok (Some x) ->
  size_given e -> get_byte_size el = Some b -> 0 <= off <= len bs ->
  maps orc fuel m bs off vals depth v n ->
  exists s, measure orc (e_data_size e) (e_data_size_expr e) vals s /\
    (in_one_go e el -> n = s) /\ (~ in_one_go e el -> n = s / b * b).
Proof. exact AttributeProofs.filled_size. Qed.
Print Assumptions C18_size.

Example C18_example_size :
  exists el e, odd_size = DElems KSequence e el /\ everywhere exact el /\ size_given e /\
    get_byte_size el = Some 2 /\ ~ in_one_go e el.
Proof.
  do 2 eexists. split; [reflexivity|]. split; [vm_compute; tauto|]. split; [left; discriminate|].
  split; [vm_compute; reflexivity|]. intros [C _]. apply C. constructor.
Qed.

(** C18. The two paths disagree on a data size smaller than one element. *)
Theorem C18_small_refuted : exists d m d' m' b, everywhere sound d /\ create demo d None = Ok (Some m) /\
    everywhere sound d' /\ create demo d' None = Ok (Some m') /\
    get_byte_size d = get_byte_size d' /\
    fails demo 9 m b 0 [] 0 MappingError /\ maps demo 9 m' b 0 [] 0 (VTuple []) 0.
Proof. exact FindingProofs.small_data_size_refuted. Qed.
Print Assumptions C18_small_refuted.

(** C11. The size computed from a definition is the size consumed. *)
Theorem C11_exact : forall orc fuel d m s bs off vals depth v n,
  extensional orc -> everywhere sound d -> everywhere exact d ->
  create orc d None = Ok (Some m) -> get_byte_size d = Some s -> 0 <= off ->
  maps orc fuel m bs off vals depth v n -> n = s.
Proof. exact SizeProofs.exact_size. Qed.
Print Assumptions C11_exact.

Definition q_block : dtype :=
  DStructure (meta_of "block") BOLittle [member "kind" d_uint8;
    member "pairs" (DElems KSequence (elems_size "pairs" q_pair 6) q_pair);
    member "name" (DElems KString (elems_number "name" d_char 2) d_char)].

Example C11_example :
  everywhere sound q_block /\ everywhere exact q_block /\ get_byte_size q_block = Some 9 /\
  exists v, maps demo 9 (the_map q_block) (bs [0; 1; 1; 2; 0; 3; 4; 0; 65; 66]) 1 [] 0 v 9.
Proof.
  split; [apply fine_sound; vm_compute; reflexivity|]. split.
  { cbn. repeat split; auto; try discriminate. intros s H. inversion H; subst. exists 3. split; reflexivity. }
  split; [vm_compute; reflexivity|].
  do 2 eexists; split; vm_compute; reflexivity.
Qed.

(** C11. The byte size that a map reports is that of its definition. *)
Theorem C11_map : forall orc d m,
  create orc d None = Ok (Some m) -> map_byte_size m = get_byte_size d.
Proof. exact HintProofs.map_size. Qed.
Print Assumptions C11_map.

Example C11_example_map : map_byte_size (the_map q_block) = Some 9 /\ map_byte_size (the_map (DElems KSequence (elems_number "pairs" q_pair 2) q_pair)) = Some 6.
Proof.
  split.
  - rewrite (C11_map demo q_block (the_map q_block)); vm_compute; reflexivity.
  - rewrite (C11_map demo (DElems KSequence (elems_number "pairs" q_pair 2) q_pair) (the_map (DElems KSequence (elems_number "pairs" q_pair 2) q_pair))); vm_compute; reflexivity.
Qed.

(** C11. With padding it holds at offsets that are multiples of the alignments. *)
Theorem C11_padded : forall orc fuel mt bo ms m s bs off vals depth v n,
  extensional orc -> everywhere sound (DStructure mt bo ms) ->
  (forall x, In x ms -> (exists pm pb a, x = DPadding pm pb (Some a) /\ off mod a = 0) \/ everywhere exact x) ->
  create orc (DStructure mt bo ms) None = Ok (Some m) ->
  get_byte_size (DStructure mt bo ms) = Some s -> 0 <= off ->
  maps orc fuel m bs off vals depth v n -> n = s.
Proof. exact SizeProofs.padded_size. Qed.
Print Assumptions C11_padded.

Example C11_example_padded :
  everywhere sound padded /\ get_byte_size padded = Some 4 /\
  exists v, maps demo 9 (the_map padded) (bs [0; 0; 0; 0; 1; 2; 3; 4]) 4 [] 0 v 4.
Proof.
  split; [apply fine_sound; vm_compute; reflexivity|]. split; [vm_compute; reflexivity|].
  do 2 eexists; split; vm_compute; reflexivity.
Qed.

(** C11. At other offsets padding makes the two sizes differ. *)
Theorem C11_offset_refuted : exists d m b off v n s, everywhere sound d /\ create demo d None = Ok (Some m) /\
    get_byte_size d = Some s /\ 0 <= off <= len b /\ maps demo 9 m b off [] 0 v n /\ n <> s.
Proof. exact FindingProofs.padding_offset_refuted. Qed.
Print Assumptions C11_offset_refuted.

(** C11. So does a terminator beside a fixed number of elements. *)
Theorem C11_terminator_refuted : exists d m b v n s, everywhere sound d /\ create demo d None = Ok (Some m) /\
    get_byte_size d = Some s /\ maps demo 9 m b 0 [] 0 v n /\ n <> s.
Proof. exact FindingProofs.counted_terminated_refuted. Qed.
Print Assumptions C11_terminator_refuted.

(** C11. So does a data size that is not a multiple of the element size. *)
Theorem C11_multiple_refuted : exists d m b v n s, everywhere sound d /\ create demo d None = Ok (Some m) /\
    get_byte_size d = Some s /\ maps demo 9 m b 0 [] 0 v n /\ n <> s.
Proof. exact FindingProofs.odd_size_refuted. Qed.
Print Assumptions C11_multiple_refuted.
