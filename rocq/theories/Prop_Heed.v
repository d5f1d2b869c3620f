(** C76: external values at which no expression looks do not matter. *)
From Coq Require Import String Ascii List ZArith Bool Lia.
From Verif Require Import Base PyVal PyStruct DataTypes ClassFactory DataMaps Expr Demo DemoProofs SpecPrim SpecMap SpecCreate SpecReads SpecGrow SpecHeed HeedProofs HeedWitness.
Import ListNotations.
Open Scope string_scope.
Open Scope list_scope.
Open Scope Z_scope.

(** C76. With external values that agree on the names at which expressions look, mapping gives the same value in the same number of bytes or fails in the same way. *)
Theorem C76_mapping : forall orc names d m fuel bs off vals vals' depth,
  everywhere (heeds orc names) d -> create orc d None = Ok (Some m) -> agree_on names vals vals' ->
  (forall v n, maps orc fuel m bs off vals depth v n <-> maps orc fuel m bs off vals' depth v n) /\
  (forall e, fails orc fuel m bs off vals depth e <-> fails orc fuel m bs off vals' depth e).
Proof. exact HeedProofs.overlooked_mapping. Qed.
Print Assumptions C76_mapping.

Example C76_example :
  maps demo 20 (the_map d_scaled) scaled_bytes 0 [("other", VInt 9); ("scale", VInt 2)] 0 scaled_value 7 /\
  fails demo 20 (the_map d_scaled) (bs [2; 10]) 0 [("other", VInt 9); ("scale", VInt 2)] 0 ByteStreamTooSmallError.
Proof.
  assert (A : agree_on scaled_names [("scale", VInt 2)] [("other", VInt 9); ("scale", VInt 2)]).
  { intros k [<-|[<-|[]]]; reflexivity. }
  split.
  - apply (proj1 (C76_mapping demo scaled_names d_scaled (the_map d_scaled) 20%nat scaled_bytes 0 [("scale", VInt 2)]
      [("other", VInt 9); ("scale", VInt 2)] 0 scaled_heeds scaled_created A)). exact scaled_maps.
  - apply (proj2 (C76_mapping demo scaled_names d_scaled (the_map d_scaled) 20%nat (bs [2; 10]) 0 [("scale", VInt 2)]
      [("other", VInt 9); ("scale", VInt 2)] 0 scaled_heeds scaled_created A)). exact scaled_fails.
Qed.

(** C76. So for size hints. *)
Theorem C76_hint : forall orc names d m off vals vals',
  everywhere (heeds orc names) d -> create orc d None = Ok (Some m) -> agree_on names vals vals' ->
  fst (hint orc m off (Some (ctx_new vals))) = fst (hint orc m off (Some (ctx_new vals'))).
Proof. exact HeedProofs.overlooked_hint. Qed.
Print Assumptions C76_hint.

Example C76_example_hint :
  fst (hint demo (the_map d_scaled_body) 0 (Some (ctx_new [("other", VInt 9); ("scale", VInt 2)]))) = Ok (Some 4).
Proof.
  rewrite <- (C76_hint demo scaled_names d_scaled_body (the_map d_scaled_body) 0 [("scale", VInt 2)]
    [("other", VInt 9); ("scale", VInt 2)] scaled_body_heeds scaled_body_created).
  - vm_compute. reflexivity.
  - intros k [<-|[<-|[]]]; reflexivity.
Qed.

(** C76. So for folding. *)
Theorem C76_folding : forall orc names d m v vals vals',
  everywhere (heeds orc names) d -> create orc d None = Ok (Some m) -> agree_on names vals vals' ->
  fst (foldbs orc m v (Some (ctx_new vals))) = fst (foldbs orc m v (Some (ctx_new vals'))).
Proof. exact HeedProofs.overlooked_folding. Qed.
Print Assumptions C76_folding.

Example C76_example_folding :
  fst (foldbs demo (the_map d_scaled_body) (VBytes (bs [1; 2; 3; 4])) (Some (ctx_new [("other", VInt 9); ("scale", VInt 2)]))) =
  Ok (VBytes (bs [1; 2; 3; 4])).
Proof.
  rewrite <- (C76_folding demo scaled_names d_scaled_body (the_map d_scaled_body) (VBytes (bs [1; 2; 3; 4])) [("scale", VInt 2)]
    [("other", VInt 9); ("scale", VInt 2)] scaled_body_heeds scaled_body_created).
  - vm_compute. reflexivity.
  - intros k [<-|[<-|[]]]; reflexivity.
Qed.

(** C76. The name of the structure itself is such a name: an external value of that name makes mapping fail. *)
Theorem C76_hidden_refuted : exists names d m b vals vals' v n e,
  (forall k, In k names -> k <> "scaled" -> dict_get k vals = dict_get k vals') /\
  everywhere (heeds demo names) d /\ create demo d None = Ok (Some m) /\
  maps demo 20 m b 0 vals 0 v n /\ fails demo 20 m b 0 vals' 0 e.
Proof. exact HeedWitness.hidden_structure_refuted. Qed.
Print Assumptions C76_hidden_refuted.
