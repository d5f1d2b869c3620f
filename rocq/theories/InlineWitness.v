(** A row whose members are described in place and one whose members refer to
    definitions. *)
From Coq Require Import String List ZArith Bool Lia.
From Verif Require Import Base PyVal PyStruct DataTypes ClassFactory DataMaps Expr Demo DemoProofs.
From Verif Require Import SpecContainers SpecPrim SpecMap SpecCreate SpecReads SpecWrites SpecInline BytesProofs CreateProofs ReadsWitness.
From Verif Require SpecMake.
Import ListNotations.
Open Scope string_scope.
Open Scope list_scope.
Open Scope Z_scope.

(** A member that refers to a definition has its byte order, data_types.py:527-528. *)
Definition refers (n : string) (d : dtype) : dtype :=
  DMember (meta_of n) (order_or_native d) None (Some (dt_name d)) None d.

Definition d_cell : dtype := DStructure (meta_of "cell") BOLittle [member "x" d_uint16; member "y" d_uint8].

(** A number, as many bytes, two numbers and a structure if the number is large. *)
Definition d_in_place : dtype :=
  DStructure (meta_of "row") BOLittle
    [DInteger (fixed_of "size" BOLittle 1) true;
     DElems KStream (elems_size_expr "data" d_uint8 "row.size") d_uint8;
     DElems KSequence (elems_number "pair" d_uint16 2) d_uint16;
     DPadding (meta_of "pad") BOLittle (Some 4);
     member_if "tail" "row.size > 1" d_cell].
Definition d_by_reference : dtype :=
  DStructure (mkMeta "row" ["line"] (Some "A line of a table.")) BOLittle
    [refers "size" (DInteger (fixed_of "byte" BOLittle 1) true);
     refers "data" (DElems KStream (elems_size_expr "row_data" d_uint8 "row.size") d_uint8);
     refers "pair" (DElems KSequence (elems_number "two_numbers" d_uint16 2) d_uint16);
     DPadding (mkMeta "pad" [] (Some "To a multiple of four.")) BOLittle (Some 4);
     member_if "tail" "row.size > 1" d_cell].

Lemma row_plain : plain d_by_reference = plain d_in_place.
Proof. reflexivity. Qed.

Lemma row_different : d_by_reference <> d_in_place.
Proof. intros H. vm_compute in H. discriminate H. Qed.

Lemma in_place_regular : everywhere regular d_in_place.
Proof. apply regular_check; vm_compute; reflexivity. Qed.
Lemma by_reference_regular : everywhere regular d_by_reference.
Proof. apply regular_check; vm_compute; reflexivity. Qed.
Lemma in_place_created : create demo d_in_place None = Ok (Some (the_map d_in_place)).
Proof. vm_compute. reflexivity. Qed.
Lemma by_reference_created : create demo d_by_reference None = Ok (Some (the_map d_by_reference)).
Proof. vm_compute. reflexivity. Qed.

Definition row_bytes : bytes := bs [2; 7; 8; 1; 0; 2; 0; 99; 5; 0; 6].
Definition row_value : pyval :=
  VStruct "row" [("size", VInt 2); ("data", VBytes (bs [7; 8])); ("pair", VTuple [VInt 1; VInt 2]); ("pad", VBytes (bs [99]));
    ("tail", VStruct "cell" [("x", VInt 5); ("y", VInt 6)])].

Lemma in_place_maps : maps demo 20 (the_map d_in_place) row_bytes 0 [] 0 row_value 11.
Proof. eexists. split; vm_compute; reflexivity. Qed.
Lemma in_place_folds : fst (foldbs demo (the_map d_in_place) row_value None) = Ok (VBytes row_bytes).
Proof. vm_compute. reflexivity. Qed.
Lemma row_proper : proper row_value.
Proof. cbn. repeat split. Qed.
Lemma in_place_shaped : everywhere SpecMake.shaped d_in_place.
Proof. cbn. repeat split; repeat constructor; cbn; try (intuition discriminate); try tauto; eexists; reflexivity. Qed.
Lemma by_reference_shaped : everywhere SpecMake.shaped d_by_reference.
Proof. cbn. repeat split; repeat constructor; cbn; try (intuition discriminate); try tauto; eexists; reflexivity. Qed.
Lemma by_reference_described : everywhere described d_by_reference.
Proof. cbn. repeat split; repeat constructor; cbn; discriminate. Qed.
