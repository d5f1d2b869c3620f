(** C59: values are no larger than the bytes they are mapped from allow. *)
From Coq Require Import String Ascii List ZArith Bool Lia.
From Verif Require Import Base Ieee PyVal PyStruct DataTypes ClassFactory DataMaps SpecPrim Demo SpecMap SpecCreate DemoProofs SpecSize PartsWitness DemoProofs.
Import ListNotations.
Open Scope string_scope.
Open Scope list_scope.
Open Scope Z_scope.

(** C59. A value that takes up n bytes has at most 2 * s * max(1, n) parts, where s is the size of the definition. *)
Theorem C59_size : forall orc fuel d m bs off vals depth v n,
  extensional orc -> never_longer orc -> everywhere sound d -> everywhere elements_occupy d ->
  create orc d None = Ok (Some m) -> 0 <= off <= len bs ->
  maps orc fuel m bs off vals depth v n ->
  parts v <= 2 * nodes d * Z.max 1 n.
Proof. exact PartsProofs.value_size. Qed.
Print Assumptions C59_size.

Example C59_example_size :
  extensional demo /\ never_longer demo /\ everywhere sound d_table /\ everywhere elements_occupy d_table /\
  create demo d_table None = Ok (Some (the_map d_table)) /\ nodes d_table = 13 /\
  exists v, run d_table (bs [2; 0; 0; 0; 65; 0; 1; 0; 0; 1; 9; 9; 9; 9]) 0 = (Ok v, Some 14) /\ parts v = 11.
Proof.
  split; [exact extensional_demo|]. split; [exact never_longer_demo|]. split; [exact table_sound|]. split; [exact table_occupied|].
  split; [vm_compute; reflexivity|]. split; [vm_compute; reflexivity|].
  eexists; split; [vm_compute; reflexivity|vm_compute; reflexivity].
Qed.

(** C59. Values of the definitions that are said to take up space take up at least one byte. *)
Theorem C59_space : forall orc fuel d m bs off vals depth v n,
  extensional orc -> everywhere sound d -> occupies d ->
  create orc d None = Ok (Some m) -> 0 <= off <= len bs ->
  maps orc fuel m bs off vals depth v n -> 0 < n.
Proof. exact PartsProofs.value_space. Qed.
Print Assumptions C59_space.

Example C59_example_space :
  everywhere sound d_entry /\ occupies d_entry /\ run d_entry (bs [1; 0]) 0 = (Ok (VStruct "entry" [("tag", VInt 1); ("more", VNone)]), Some 2).
Proof.
  split; [apply fine_sound; vm_compute; reflexivity|]. split; [cbn; auto|]. vm_compute; reflexivity.
Qed.

(** C59. Mapping with such definitions ends, after as many steps per sequence as there are bytes left. *)
Theorem C59_terminates : forall orc fuel d m bs off vals depth,
  extensional orc -> everywhere sound d -> everywhere elements_occupy d -> create orc d None = Ok (Some m) ->
  0 <= off <= len bs -> (Z.to_nat (len bs - off) < fuel)%nat ->
  fst (mapbs orc fuel m bs off (Some (ctx_new vals)) depth) <> OutOfFuel /\
  forall fuel', (fuel <= fuel')%nat ->
    mapbs orc fuel' m bs off (Some (ctx_new vals)) depth = mapbs orc fuel m bs off (Some (ctx_new vals)) depth.
Proof. exact PartsProofs.occupied_terminates. Qed.
Print Assumptions C59_terminates.

Example C59_example_terminates :
  run d_table (bs [255; 255; 255; 255; 0; 1; 0]) 0 = (Raise ByteStreamTooSmallError, None).
Proof. vm_compute. reflexivity. Qed.

(** C59. If elements need not take up space then five bytes can map to a value of billions of parts that reports four bytes. *)
Theorem C59_empty_refuted : exists d m, everywhere sound d /\ create demo d None = Ok (Some m) /\
  forall z, 0 < z < 2 ^ 32 -> exists fuel b v, len b = 5 /\ maps demo fuel m b 0 [] 0 v 4 /\ z < parts v.
Proof. exact PartsWitness.swarm_refuted. Qed.
Print Assumptions C59_empty_refuted.
