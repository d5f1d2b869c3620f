(** Byte streams that end inside of a value. *)
From Coq Require Import String Ascii List ZArith Bool Lia.
From Verif Require Import Base Ieee PyVal PyStruct DataTypes ClassFactory DataMaps SpecPrim Demo SpecMap SpecCreate DemoProofs SpecMap SpecCreate TruncProofs.
Import ListNotations.
Open Scope string_scope.
Open Scope list_scope.
Open Scope Z_scope.

(** C53. On a stream that ends inside of the bytes of a value no value is returned, and the only error is ByteStreamTooSmallError. *)
Theorem C53_truncated : forall orc fuel d m bs off vals depth v n k,
  extensional orc -> everywhere sound d -> create orc d None = Ok (Some m) ->
  maps orc fuel m bs off vals depth v n -> 0 <= off <= k -> k <= len bs -> k < off + n ->
  (forall v', fst (mapbs orc fuel m (firstn (Z.to_nat k) bs) off (Some (ctx_new vals)) depth) <> Ok v') /\
  (forall e, fails orc fuel m (firstn (Z.to_nat k) bs) off vals depth e -> e = ByteStreamTooSmallError) /\
  (all_maps (takes_space orc) m -> (Z.to_nat (k - off) < fuel)%nat ->
   fails orc fuel m (firstn (Z.to_nat k) bs) off vals depth ByteStreamTooSmallError).
Proof. exact TruncProofs.truncated. Qed.
Print Assumptions C53_truncated.

Definition t_record : dtype :=
  DStructure (meta_of "record") BOLittle
    [member "n" d_uint8; member_if "x" "record.n == 3" d_uint16;
     member "data" (DElems KStream (elems_size_expr "data" d_uint8 "record.n") d_uint8)].

Example C53_example :
  everywhere sound t_record /\ create demo t_record None = Ok (Some (the_map t_record)) /\
  all_maps (takes_space demo) (the_map t_record) /\
  run t_record (bs [9; 3; 1; 0; 5; 6; 7; 8]) 1 =
    (Ok (VStruct "record" [("n", VInt 3); ("x", VInt 1); ("data", VBytes (bs [5; 6; 7]))]), Some 6) /\
  fst (run t_record (bs [9; 3; 1; 0; 5; 6]) 1) = Raise ByteStreamTooSmallError.
Proof.
  split; [apply fine_sound; vm_compute; reflexivity|]. split; [vm_compute; reflexivity|].
  split; [vm_compute; tauto|]. split; vm_compute; reflexivity.
Qed.
