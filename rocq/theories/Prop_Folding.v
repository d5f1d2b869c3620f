(** Folding what was mapped. *)
From Coq Require Import String Ascii List ZArith Bool Lia.
From Verif Require Import Base Ieee PyVal PyStruct DataTypes ClassFactory DataMaps SpecPrim Demo SpecMap SpecCreate DemoProofs SpecFold FoldProofs RefoldProofs.
Import ListNotations.
Open Scope string_scope.
Open Scope list_scope.
Open Scope Z_scope.

(** C22. Folding the mapped value gives back the bytes that were consumed. *)
Theorem C22_round_trip : forall orc fuel d m bs off vals depth v n,
  extensional orc -> everywhere sound d -> folds_back orc d -> create orc d None = Ok (Some m) -> 0 <= off ->
  maps orc fuel m bs off vals depth v n ->
  everywhere no_single d \/ no_nan v ->
  forall c, clean c -> sizes_agree orc d vals (ctx_values c) v ->
  fst (foldbs orc m v c) = Ok (VBytes (window bs off n)).
Proof. exact FoldProofs.map_then_fold. Qed.
Print Assumptions C22_round_trip.

Definition d_float32 : dtype := DFloat (fixed_of "float32" BOLittle 4).
Definition f_inner : dtype :=
  DStructure (meta_of "inner") BOLittle [member "x" d_uint16; member "y" d_float32].
Definition f_outer : dtype :=
  DStructure (meta_of "outer") BOLittle
    [member "n" d_uint8;
     member "id" (DUUID (fixed_of "uuid" BOBig 16));
     member_if "opt" "outer.n > 1" d_int32be;
     member "raw" (DElems KStream (elems_size_expr "raw" d_uint8 "outer.n + 1") d_uint8);
     DPadding (meta_of "pad") BOLittle (Some 4);
     member "sub" f_inner].
Definition f_bytes : bytes :=
  bs [9; 2; 1;2;3;4;5;6;7;8;9;10;11;12;13;14;15;16; 255;255;255;254; 65;66;67; 1;2;3; 5;0; 0;0;192;63; 77].

Example C22_example_round_trip :
  everywhere sound f_outer /\ folds_back demo f_outer /\
  create demo f_outer None = Ok (Some (the_map f_outer)) /\
  exists v n, maps demo 9 (the_map f_outer) f_bytes 1 [] 0 v n /\ no_nan v /\ n = 33 /\
    sizes_agree demo f_outer [] [] v /\
    fst (foldbs demo (the_map f_outer) v None) = Ok (VBytes (window f_bytes 1 n)).
Proof.
  split; [apply fine_sound; vm_compute; reflexivity|].
  split; [cbn; repeat split; discriminate|]. split; [vm_compute; reflexivity|].
  do 2 eexists. split; [eexists; split; vm_compute; reflexivity|].
  split; [vm_compute; repeat split; intros [H _]; discriminate H|]. split; [vm_compute; reflexivity|].
  split; [|vm_compute; reflexivity].
  cbn [sizes_agree f_outer member member_if]. repeat split; auto.
  intros _. apply same_size. intros x [Hx|Hx]; inversion Hx. vm_compute. reflexivity.
Qed.

(** C22. Without size expressions the sizes always agree. *)
Theorem C22_fixed_sizes : forall orc d,
  everywhere fixed_sizes d ->
  forall vals fvals v, sizes_agree orc d vals fvals v.
Proof. exact FoldProofs.fixed_sizes_agree. Qed.
Print Assumptions C22_fixed_sizes.

Definition f_fixed : dtype :=
  DStructure (meta_of "fixed") BOLittle
    [member "raw" (DElems KStream (elems_size "raw" d_uint8 3) d_uint8); member "sub" f_inner].

Example C22_example_fixed : everywhere fixed_sizes f_fixed /\ ~ everywhere fixed_sizes f_outer.
Proof. split; cbn; unfold literal; cbn; intuition discriminate. Qed.

(** C22. A structure whose nested structure has a stream sized by a member of the outer one maps but does not fold. *)
Theorem C22_enclosing_refuted : exists d m b v n, everywhere sound d /\ folds_back demo d /\ everywhere no_single d /\
    create demo d None = Ok (Some m) /\ maps demo 9 m b 0 [] 0 v n /\
    fst (foldbs demo m v None) = Raise MappingError.
Proof. exact RefoldProofs.enclosing_refuted. Qed.
Print Assumptions C22_enclosing_refuted.

(** C22. A structure with a stream sized by a value of the caller maps but does not fold, although the caller gives the value again. *)
Theorem C22_caller_refuted : exists d m b vals v n, everywhere sound d /\ folds_back demo d /\ everywhere no_single d /\
    create demo d None = Ok (Some m) /\ maps demo 9 m b 0 vals 0 v n /\
    fst (foldbs demo m v (Some (ctx_new vals))) = Raise MappingError.
Proof. exact RefoldProofs.caller_refuted. Qed.
Print Assumptions C22_caller_refuted.

(** C22. With a composite sequence inside the structure folds to None. *)
Theorem C22_sequence_none : forall orc fuel mt bo pre mem post e el m bs off vals depth v n,
  extensional orc -> everywhere sound (DStructure mt bo (pre ++ mem :: post)) ->
  create orc (DStructure mt bo (pre ++ mem :: post)) None = Ok (Some m) ->
  Forall (folds_back orc) pre -> (Forall (everywhere no_single) pre \/ no_nan v) ->
  type_of mem = DElems KSequence e el ->
  (is_composite el = true \/ e_data_size_expr e <> None \/ e_number_expr e <> None \/ e_terminator e <> None) ->
  0 <= off -> maps orc fuel m bs off vals depth v n -> py_getattr v (dt_name mem) <> VNone ->
  sizes_agree orc (DStructure mt bo pre) vals [] v ->
  forall c, clean c -> fst (foldbs orc m v c) = Ok VNone.
Proof. exact FoldProofs.sequence_folds_to_none. Qed.
Print Assumptions C22_sequence_none.

Definition f_seq : dtype := DElems KSequence (elems_number "s" f_inner 2) f_inner.
Definition f_listed : dtype :=
  DStructure (meta_of "listed") BOLittle [member "n" d_uint8; member "items" f_seq].
Definition f_listed_bytes : bytes := bs [2; 1;0;0;0;192;63; 2;0;0;0;192;63].

Example C22_example_sequence :
  everywhere sound f_listed /\ create demo f_listed None = Ok (Some (the_map f_listed)) /\
  Forall (folds_back demo) [member "n" d_uint8] /\ Forall (everywhere no_single) [member "n" d_uint8] /\
  is_composite f_inner = true /\
  exists v n, maps demo 9 (the_map f_listed) f_listed_bytes 0 [] 0 v n /\ n = 13 /\
    py_getattr v "items" <> VNone /\ fst (foldbs demo (the_map f_listed) v None) = Ok VNone.
Proof.
  split; [apply fine_sound; vm_compute; reflexivity|]. split; [vm_compute; reflexivity|].
  split; [repeat constructor|]. split; [repeat constructor|]. split; [vm_compute; reflexivity|].
  do 2 eexists. split; [eexists; split; vm_compute; reflexivity|].
  split; [reflexivity|]. split; [vm_compute; discriminate|]. vm_compute; reflexivity.
Qed.

(** C22. On the fast path a character cannot be folded. *)
Theorem C22_fast_characters : forall orc fuel mt bo ms d cls ms' attrs op mem f bs off vals depth v n c,
  everywhere sound (DStructure mt bo ms) ->
  create orc (DStructure mt bo ms) None = Ok (Some (MStructure true d cls ms' attrs op)) ->
  In mem ms -> type_of mem = DCharacter f ->
  maps orc fuel (MStructure true d cls ms' attrs op) bs off vals depth v n ->
  fst (foldbs orc (MStructure true d cls ms' attrs op) v c) = Raise FoldingError.
Proof. exact FoldProofs.fast_characters. Qed.
Print Assumptions C22_fast_characters.

Definition f_chars : dtype :=
  DStructure (meta_of "chars") BOLittle [member "n" d_uint8; member "c" d_char].

Example C22_example_characters :
  everywhere sound f_chars /\
  (exists d cls ms attrs op, create demo f_chars None = Ok (Some (MStructure true d cls ms attrs op))) /\
  exists v n, maps demo 9 (the_map f_chars) (bs [7; 65]) 0 [] 0 v n /\
    fst (foldbs demo (the_map f_chars) v None) = Raise FoldingError.
Proof.
  split; [apply fine_sound; vm_compute; reflexivity|]. split; [do 5 eexists; vm_compute; reflexivity|].
  do 2 eexists. split; [eexists; split; vm_compute; reflexivity|]. vm_compute; reflexivity.
Qed.

(** C22. On the fast path a boolean is written as 0 or 1 and the rest as it was. *)
Theorem C22_fast_booleans : forall orc fuel mt bo ms d cls ms' attrs op bs off vals depth v n c,
  everywhere sound (DStructure mt bo ms) ->
  create orc (DStructure mt bo ms) None = Ok (Some (MStructure true d cls ms' attrs op)) ->
  Forall (fun m => number_type (type_of m) \/ exists f fv tv, type_of m = DBoolean f fv tv) ms ->
  0 <= off ->
  maps orc fuel (MStructure true d cls ms' attrs op) bs off vals depth v n ->
  (Forall (fun m => no_single (type_of m)) ms \/ no_nan v) ->
  exists b, fst (foldbs orc (MStructure true d cls ms' attrs op) v c) = Ok (VBytes b) /\
    rewritten (order_on (o_host orc) bo) (map type_of ms) (map (fun m => py_getattr v (dt_name m)) ms)
      (window bs off n) b.
Proof. exact FoldProofs.fast_booleans. Qed.
Print Assumptions C22_fast_booleans.

Definition f_flags : dtype :=
  DStructure (meta_of "flags") BOLittle
    [member "n" d_uint16; member "b" (DBoolean (fixed_of "bool16" BOLittle 2) (Some 5) (Some 300)); member "m" d_uint8].

Example C22_example_booleans :
  everywhere sound f_flags /\
  (exists d cls ms attrs op, create demo f_flags None = Ok (Some (MStructure true d cls ms attrs op))) /\
  exists v n, maps demo 9 (the_map f_flags) (bs [7; 0; 44; 1; 9]) 0 [] 0 v n /\ no_nan v /\
    fst (foldbs demo (the_map f_flags) v None) = Ok (VBytes (bs [7; 0; 1; 0; 9])).
Proof.
  split; [apply fine_sound; vm_compute; reflexivity|]. split; [do 5 eexists; vm_compute; reflexivity|].
  do 2 eexists. split; [eexists; split; vm_compute; reflexivity|]. split; vm_compute; auto.
Qed.

(** C22. A signalling NaN of 4 bytes comes back quiet. *)
Theorem C22_signalling_refuted : exists d m b v n, everywhere sound d /\ folds_back demo d /\ create demo d None = Ok (Some m) /\
    maps demo 9 m b 0 [] 0 v n /\
    exists b', fst (foldbs demo m v None) = Ok (VBytes b') /\ b' <> window b 0 n.
Proof. exact RefoldProofs.signalling_refuted. Qed.
Print Assumptions C22_signalling_refuted.
