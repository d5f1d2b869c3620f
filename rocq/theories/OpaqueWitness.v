(** A parcel whose body is kept as bytes and one whose body has a type. *)
From Coq Require Import String List ZArith Bool Lia.
From Verif Require Import Base PyVal PyStruct DataTypes ClassFactory DataMaps Expr Demo DemoProofs.
From Verif Require Import SpecPrim SpecMap SpecCreate SpecReads SpecGrow SpecEdit SpecHeed SpecOpaque BytesProofs CreateProofs ReadsWitness GrowWitness EditWitness HeedWitness.
Import ListNotations.
Open Scope string_scope.
Open Scope list_scope.
Open Scope Z_scope.

Definition parcel_before : list dtype := [member "kind" d_uint8; member "size" d_uint8].
Definition parcel_after : list dtype := [member_if "check" "parcel.size > 1" d_uint16].

(** As many bytes as the size says, or a count and as many numbers. *)
Definition body_bytes : dtype := member "body" (DElems KStream (elems_size_expr "raw" d_uint8 "parcel.size") d_uint8).
Definition body_typed : dtype :=
  member "body" (DStructure (meta_of "inner") BOLittle
    [member "count" d_uint8; member "words" (DElems KSequence (elems_number_expr "words" d_uint16 "inner.count") d_uint16)]).
Definition d_sealed : dtype := DStructure (meta_of "parcel") BOLittle (parcel_before ++ body_bytes :: parcel_after).
Definition d_opened : dtype := DStructure (meta_of "parcel") BOLittle (parcel_before ++ body_typed :: parcel_after).

Definition parcel_bytes : bytes := bs [9; 7; 5; 2; 1; 0; 3; 0; 4; 1].
Definition parcel_body : bytes := bs [2; 1; 0; 3; 0].
Definition parcel_inner : pyval := VStruct "inner" [("count", VInt 2); ("words", VTuple [VInt 1; VInt 3])].

Lemma sealed_regular : everywhere regular d_sealed.
Proof. apply regular_check; vm_compute; reflexivity. Qed.
Lemma opened_regular : everywhere regular d_opened.
Proof. apply regular_check; vm_compute; reflexivity. Qed.
Lemma parcel_unheeded : Forall (everywhere (unheeded demo "body")) parcel_after.
Proof.
  assert (I : ignores demo "body" "parcel.size > 1") by (apply demo_ignores; vm_compute; reflexivity).
  unfold unheeded. repeat constructor; cbn; repeat constructor; auto.
Qed.
Lemma body_heeds : everywhere (heeds demo ["inner"]) (used_type "parcel" BOLittle body_typed).
Proof.
  assert (I : looks_only_at demo ["inner"] "inner.count") by (apply demo_looks; vm_compute; reflexivity).
  unfold heeds. repeat constructor; cbn; repeat constructor; auto.
Qed.
Lemma body_unpadded : everywhere unpadded (used_type "parcel" BOLittle body_typed).
Proof. cbn. tauto. Qed.
Lemma sealed_created : create demo d_sealed None = Ok (Some (the_map d_sealed)).
Proof. vm_compute. reflexivity. Qed.
Lemma opened_created : create demo d_opened None = Ok (Some (the_map d_opened)).
Proof. vm_compute. reflexivity. Qed.
Lemma body_created : create demo (used_type "parcel" BOLittle body_typed) None = Ok (Some (the_map (used_type "parcel" BOLittle body_typed))).
Proof. vm_compute. reflexivity. Qed.
Lemma body_no_group : all_maps no_group (the_map (used_type "parcel" BOLittle body_typed)).
Proof. vm_compute. tauto. Qed.
Lemma sealed_maps : maps demo 20 (the_map d_sealed) parcel_bytes 1 [] 0
  (VStruct "parcel" ([("kind", VInt 7); ("size", VInt 5)] ++ ("body", VBytes parcel_body) :: [("check", VInt 260)])) 9.
Proof. eexists. split; vm_compute; reflexivity. Qed.
Lemma body_maps : maps demo 20 (the_map (used_type "parcel" BOLittle body_typed)) parcel_body 0 [] 0 parcel_inner 5.
Proof. eexists. split; vm_compute; reflexivity. Qed.

(** Six bytes, or two numbers. *)
Definition six_bytes : dtype := member "body" (DElems KStream (elems_size "raw" d_uint8 6) d_uint8).
Definition six_typed : dtype :=
  member "body" (DStructure (meta_of "inner") BOLittle
    [member_in "count" [VInt 2; VInt 3] d_uint16; member "words" (DElems KSequence (elems_number "words" d_uint16 2) d_uint16)]).
Definition d_six : dtype := DStructure (meta_of "parcel") BOLittle (parcel_before ++ six_bytes :: parcel_after).
Definition d_sixth : dtype := DStructure (meta_of "parcel") BOLittle (parcel_before ++ six_typed :: parcel_after).
Definition sixth_bytes : bytes := bs [9; 7; 5; 2; 0; 1; 0; 3; 0; 4; 1].
Definition sixth_inner : pyval := VStruct "inner" [("count", VInt 2); ("words", VTuple [VInt 1; VInt 3])].

Lemma six_regular : everywhere regular d_six.
Proof. apply regular_check; vm_compute; reflexivity. Qed.
Lemma sixth_regular : everywhere regular d_sixth.
Proof. apply regular_check; vm_compute; reflexivity. Qed.
Lemma six_heeds : everywhere (heeds demo ["inner"]) (used_type "parcel" BOLittle six_typed).
Proof. unfold heeds. repeat constructor; cbn; repeat constructor; auto. Qed.
Lemma six_exact : everywhere exact (used_type "parcel" BOLittle six_typed).
Proof. cbn. repeat split; auto; discriminate. Qed.
Lemma six_created : create demo d_six None = Ok (Some (the_map d_six)).
Proof. vm_compute. reflexivity. Qed.
Lemma sixth_created : create demo d_sixth None = Ok (Some (the_map d_sixth)).
Proof. vm_compute. reflexivity. Qed.
Lemma six_body_created : create demo (used_type "parcel" BOLittle six_typed) None = Ok (Some (the_map (used_type "parcel" BOLittle six_typed))).
Proof. vm_compute. reflexivity. Qed.
Lemma six_no_group : all_maps no_group (the_map (used_type "parcel" BOLittle six_typed)).
Proof. vm_compute. tauto. Qed.
Lemma six_space : all_maps (takes_space demo) (the_map (used_type "parcel" BOLittle six_typed)).
Proof. vm_compute. tauto. Qed.
Lemma sixth_maps : maps demo 20 (the_map d_sixth) sixth_bytes 1 [] 0
  (VStruct "parcel" ([("kind", VInt 7); ("size", VInt 5)] ++ ("body", sixth_inner) :: [("check", VInt 260)])) 10.
Proof. eexists. split; vm_compute; reflexivity. Qed.

(** With padding in it the body is another one inside the parcel. *)
Definition padded_bytes : dtype := member "body" (DElems KStream (elems_size "raw" d_uint8 8) d_uint8).
Definition padded_inner : dtype :=
  DStructure (meta_of "inner") BOLittle [member "a" d_uint8; DPadding (meta_of "pad") BOLittle (Some 4); member "b" d_uint32].
Definition padded_typed : dtype := member "body" padded_inner.
Definition d_packed : dtype := DStructure (meta_of "parcel") BOLittle [member "kind" d_uint8; padded_bytes].
Definition d_unpacked : dtype := DStructure (meta_of "parcel") BOLittle [member "kind" d_uint8; padded_typed].

Lemma padded_later_refuted :
  exists bs b w w' n n', maps demo 20 (the_map d_packed) bs 0 [] 0 (VStruct "parcel" [("kind", VInt 1); ("body", VBytes b)]) n /\
    maps demo 20 (the_map padded_inner) b 0 [] 0 w (len b) /\
    maps demo 20 (the_map d_unpacked) bs 0 [] 0 (VStruct "parcel" [("kind", VInt 1); ("body", w')]) n' /\
    w' <> w /\ n' <> n.
Proof.
  exists (bs [1; 2; 0; 0; 0; 4; 0; 0; 0]), (bs [2; 0; 0; 0; 4; 0; 0; 0]).
  exists (VStruct "inner" [("a", VInt 2); ("pad", VBytes (bs [0; 0; 0])); ("b", VInt 4)]).
  exists (VStruct "inner" [("a", VInt 2); ("pad", VBytes (bs [0; 0])); ("b", VInt 1024)]).
  exists 9, 8.
  split; [eexists; split; vm_compute; reflexivity|].
  split; [eexists; split; vm_compute; reflexivity|].
  split; [eexists; split; vm_compute; reflexivity|].
  split; [discriminate|lia].
Qed.
