(** Structure groups. *)
From Coq Require Import String Ascii List ZArith Bool Lia.
From Verif Require Import Base Ieee PyVal PyStruct DataTypes ClassFactory DataMaps SpecPrim Demo SpecMap SpecCreate DemoProofs GroupProofs.
Import ListNotations.
Open Scope string_scope.
Open Scope list_scope.
Open Scope Z_scope.

(** C23. Mapping a group: the base gives the identifier, the identifier chooses the map, which maps at the same offset. *)
Theorem C23_mapping : forall orc fuel d identifier base default entries bs off vals depth,
  extensional orc ->
  let m := MGroup d identifier base default entries in
  (forall v n, maps orc fuel m bs off vals depth v n <->
     exists id y, identified orc fuel identifier base bs off depth id /\ id <> VNone /\
       chosen default entries id (Some y) /\ maps orc fuel y bs off [] depth v n) /\
  (fails orc fuel m bs off vals depth ByteStreamTooSmallError <->
     (exists x, base = Some x /\ fails orc fuel x bs off [] depth ByteStreamTooSmallError) \/
     (exists id y, identified orc fuel identifier base bs off depth id /\ id <> VNone /\
        chosen default entries id (Some y) /\ fails orc fuel y bs off [] depth ByteStreamTooSmallError)) /\
  (fails orc fuel m bs off vals depth MappingError <->
     base = None \/
     (exists x e, base = Some x /\ e <> ByteStreamTooSmallError /\ fails orc fuel x bs off [] depth e) \/
     identified orc fuel identifier base bs off depth VNone \/
     (exists id, identified orc fuel identifier base bs off depth id /\ id <> VNone /\
        (chosen default entries id None \/
         exists y e, chosen default entries id (Some y) /\ e <> ByteStreamTooSmallError /\
           fails orc fuel y bs off [] depth e))) /\
  (forall e, fails orc fuel m bs off vals depth e -> e = ByteStreamTooSmallError \/ e = MappingError).
Proof. exact GroupProofs.group_layout. Qed.
Print Assumptions C23_mapping.

Definition g_base : dtype := DStructure (meta_of "head") BOLittle [member "kind" d_uint8].
Definition g_one : dtype := DStructure (meta_of "one") BOLittle [member_in "kind" [VInt 1; VInt 3] d_uint8; member "a" d_uint16].
Definition g_two : dtype := DStructure (meta_of "two") BOLittle [member_in "kind" [VInt 2] d_uint8; member "b" d_uint8].
Definition g_other : dtype := DStructure (meta_of "other") BOLittle [member "kind" d_uint8; member "c" d_uint32].
Definition g_plain : dtype := DGroup (meta_of "g") BOLittle g_base "kind" None [g_one; g_two].
Definition g_default : dtype := DGroup (meta_of "g") BOLittle g_base "kind" (Some g_other) [g_one; g_two].

Example C23_example_mapping :
  (exists v, run g_plain (bs [9; 3; 5; 0]) 1 = (Ok v, Some 3) /\ py_getattr v "a" = VInt 5) /\
  (exists v, run g_plain (bs [9; 2; 5; 0]) 1 = (Ok v, Some 2) /\ py_getattr v "b" = VInt 5) /\
  (exists v, run g_default (bs [9; 8; 7; 0; 0; 0]) 1 = (Ok v, Some 5) /\ py_getattr v "c" = VInt 7) /\
  fst (run g_plain (bs [9; 8; 7; 0; 0; 0]) 1) = Raise MappingError /\
  fst (run g_plain (bs [9; 3; 5]) 1) = Raise ByteStreamTooSmallError.
Proof.
  split; [eexists; split; vm_compute; reflexivity|]. split; [eexists; split; vm_compute; reflexivity|].
  split; [eexists; split; vm_compute; reflexivity|]. split; vm_compute; reflexivity.
Qed.

(** C23. A group map that could be created has the maps of its base, default and members, each member under the values its identifier member lists, and no two listed values are equal. *)
Theorem C23_created : forall orc mt bo base identifier default ms m,
  create orc (DGroup mt bo base identifier default ms) None = Ok (Some m) ->
  exists d b df vss entries,
    m = MGroup d identifier b df entries /\
    create orc base None = Ok b /\
    match default with Some x => create orc x None = Ok df | None => df = None end /\
    Forall2 (lists identifier) ms vss /\
    map fst entries = concat vss /\
    ForallOrdPairs (fun v w => py_eq w v = false) (concat vss) /\
    forall v y, In (v, y) entries <->
      exists i x vs, nth_error ms i = Some x /\ nth_error vss i = Some vs /\ In v vs /\ create orc x None = Ok y.
Proof. exact GroupProofs.group_created. Qed.
Print Assumptions C23_created.

Example C23_example_created :
  exists d b entries, create demo g_plain None = Ok (Some (MGroup d "kind" b None entries)) /\
    map fst entries = [VInt 1; VInt 3; VInt 2].
Proof. do 3 eexists. split; vm_compute; reflexivity. Qed.

(** C23. Two members that list the same identifier value: no map. *)
Theorem C23_duplicates : forall orc mt bo base identifier default ms m,
  create orc (DGroup mt bo base identifier default ms) None = Ok (Some m) ->
  exists vss, Forall2 (lists identifier) ms vss /\
    forall i j v w, (i < j)%nat -> nth_error (concat vss) i = Some v -> nth_error (concat vss) j = Some w ->
      py_eq w v = false.
Proof. exact GroupProofs.group_duplicates. Qed.
Print Assumptions C23_duplicates.

Example C23_example_duplicates :
  create demo (DGroup (meta_of "g") BOLittle g_base "kind" None [g_one; g_two; g_one]) None = Raise FormatError.
Proof. vm_compute. reflexivity. Qed.
