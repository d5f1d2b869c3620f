(** C79: a member can be kept as bytes and given its type later. *)
From Coq Require Import String Ascii List ZArith Bool Lia.
From Verif Require Import Base PyVal PyStruct DataTypes ClassFactory DataMaps Expr Demo SpecPrim SpecMap SpecCreate SpecReads SpecGrow SpecEdit SpecHeed SpecOpaque ReadsProofs OpaqueProofs DemoProofs OpaqueWitness.
Import ListNotations.
Open Scope string_scope.
Open Scope list_scope.
Open Scope Z_scope.

(** C79. Bytes of a member that its type maps to a value in full are what a structure with this type in the place of the bytes maps the member to; nothing else changes. *)
Theorem C79_decoded : forall orc mt mt' bo before x y after e el names m m' t fuel fuel' bs off vals depth f1 b f2 n w,
  extensional orc -> m_name mt' = m_name mt -> in_place_of x y -> type_of x = DElems KStream e el ->
  everywhere regular (DStructure mt bo (before ++ x :: after)) ->
  everywhere regular (DStructure mt' bo (before ++ y :: after)) ->
  Forall (everywhere (unheeded orc (dt_name x))) after ->
  everywhere (heeds orc names) (used_type (m_name mt) bo y) -> ~ In (m_name mt) names ->
  everywhere unpadded (used_type (m_name mt) bo y) ->
  create orc (DStructure mt bo (before ++ x :: after)) None = Ok (Some m) ->
  create orc (DStructure mt' bo (before ++ y :: after)) None = Ok (Some m') ->
  create orc (used_type (m_name mt) bo y) None = Ok (Some t) -> all_maps no_group t ->
  0 <= off <= len bs -> depth + levels (DStructure mt' bo (before ++ y :: after)) <= 11 ->
  maps orc fuel m bs off vals depth (VStruct (m_name mt) (f1 ++ (dt_name x, VBytes b) :: f2)) n ->
  List.length f1 = List.length before ->
  maps orc fuel' t b 0 vals depth w (len b) -> allowed y w ->
  exists fuel, maps orc fuel m' bs off vals depth (VStruct (m_name mt) (f1 ++ (dt_name x, w) :: f2)) n.
Proof. exact OpaqueProofs.decoded_later. Qed.
Print Assumptions C79_decoded.

Example C79_example_decoded :
  exists fuel, maps demo fuel (the_map d_opened) parcel_bytes 1 [] 0
    (VStruct "parcel" ([("kind", VInt 7); ("size", VInt 5)] ++ ("body", parcel_inner) :: [("check", VInt 260)])) 9.
Proof.
  apply (C79_decoded demo (meta_of "parcel") (meta_of "parcel") BOLittle parcel_before body_bytes body_typed parcel_after
    (elems_size_expr "raw" d_uint8 "parcel.size") d_uint8 ["inner"] (the_map d_sealed) (the_map d_opened)
    (the_map (used_type "parcel" BOLittle body_typed)) 20%nat 20%nat parcel_bytes 1 [] 0 [("kind", VInt 7); ("size", VInt 5)] parcel_body
    [("check", VInt 260)] 9 parcel_inner extensional_demo eq_refl (conj eq_refl eq_refl) eq_refl sealed_regular opened_regular
    parcel_unheeded body_heeds).
  - intros [H|[]]. discriminate H.
  - exact body_unpadded.
  - exact sealed_created.
  - exact opened_created.
  - exact body_created.
  - exact body_no_group.
  - vm_compute. split; discriminate.
  - vm_compute. discriminate.
  - exact sealed_maps.
  - reflexivity.
  - exact body_maps.
  - exact I.
Qed.

(** C79. A member of fixed size can be replaced by a stream of as many bytes: what is read then are the bytes from which the type reads the value. *)
Theorem C79_kept : forall orc mt mt' bo before x y after e el k names m m' t fuel bs off vals depth f1 w f2 n,
  extensional orc -> m_name mt' = m_name mt -> in_place_of x y -> type_of x = DElems KStream e el ->
  e_data_size e = Some k -> k <> 0 -> get_byte_size (used_type (m_name mt) bo y) = Some k -> member_values x = None ->
  everywhere regular (DStructure mt bo (before ++ x :: after)) ->
  everywhere regular (DStructure mt' bo (before ++ y :: after)) ->
  Forall (everywhere (unheeded orc (dt_name x))) after ->
  everywhere (heeds orc names) (used_type (m_name mt) bo y) -> ~ In (m_name mt) names ->
  everywhere exact (used_type (m_name mt) bo y) ->
  create orc (DStructure mt bo (before ++ x :: after)) None = Ok (Some m) ->
  create orc (DStructure mt' bo (before ++ y :: after)) None = Ok (Some m') ->
  create orc (used_type (m_name mt) bo y) None = Ok (Some t) -> all_maps no_group t -> all_maps (takes_space orc) t ->
  0 <= off <= len bs -> depth + levels (DStructure mt' bo (before ++ y :: after)) <= 11 ->
  maps orc fuel m' bs off vals depth (VStruct (m_name mt) (f1 ++ (dt_name x, w) :: f2)) n -> w <> VNone ->
  List.length f1 = List.length before ->
  exists b, len b = k /\ allowed y w /\
    (exists fuel, maps orc fuel t b 0 vals depth w k) /\
    (exists fuel, maps orc fuel m bs off vals depth (VStruct (m_name mt) (f1 ++ (dt_name x, VBytes b) :: f2)) n).
Proof. exact OpaqueProofs.kept_opaque. Qed.
Print Assumptions C79_kept.

Example C79_example_kept :
  exists b, len b = 6 /\ allowed six_typed sixth_inner /\
    (exists fuel, maps demo fuel (the_map (used_type "parcel" BOLittle six_typed)) b 0 [] 0 sixth_inner 6) /\
    (exists fuel, maps demo fuel (the_map d_six) sixth_bytes 1 [] 0
      (VStruct "parcel" ([("kind", VInt 7); ("size", VInt 5)] ++ ("body", VBytes b) :: [("check", VInt 260)])) 10).
Proof.
  apply (C79_kept demo (meta_of "parcel") (meta_of "parcel") BOLittle parcel_before six_bytes six_typed parcel_after
    (elems_size "raw" d_uint8 6) d_uint8 6 ["inner"] (the_map d_six) (the_map d_sixth)
    (the_map (used_type "parcel" BOLittle six_typed)) 20%nat sixth_bytes 1 [] 0 [("kind", VInt 7); ("size", VInt 5)] sixth_inner
    [("check", VInt 260)] 10 extensional_demo eq_refl (conj eq_refl eq_refl) eq_refl eq_refl).
  - discriminate.
  - reflexivity.
  - reflexivity.
  - exact six_regular.
  - exact sixth_regular.
  - exact parcel_unheeded.
  - exact six_heeds.
  - intros [H|[]]. discriminate H.
  - exact six_exact.
  - exact six_created.
  - exact sixth_created.
  - exact six_body_created.
  - exact six_no_group.
  - exact six_space.
  - vm_compute. split; discriminate.
  - vm_compute. discriminate.
  - exact sixth_maps.
  - discriminate.
  - reflexivity.
Qed.

(** C79. Not so with padding in the type of the member: its size depends on where the member lies. *)
Theorem C79_padding_refuted : exists bs b w w' n n', maps demo 20 (the_map d_packed) bs 0 [] 0 (VStruct "parcel" [("kind", VInt 1); ("body", VBytes b)]) n /\
    maps demo 20 (the_map padded_inner) b 0 [] 0 w (len b) /\
    maps demo 20 (the_map d_unpacked) bs 0 [] 0 (VStruct "parcel" [("kind", VInt 1); ("body", w')]) n' /\
    w' <> w /\ n' <> n.
Proof. exact OpaqueWitness.padded_later_refuted. Qed.
Print Assumptions C79_padding_refuted.
