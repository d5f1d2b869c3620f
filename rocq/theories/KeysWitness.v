(** Documents with their keys in another order, for the examples. *)
From Coq Require Import String List ZArith Bool Lia Permutation.
From Verif Require Import Base Ieee PyVal Yaml DataTypes DataMaps Reader SpecReader SpecDescribe Fabric SpecFabric SpecKeys
  Demo DemoYaml ReaderProofs DescribeProofs FabricProofs KeysProofs.
Import ListNotations.
Open Scope Z_scope.
Local Open Scope string_scope.
Local Open Scope list_scope.

Definition k_pair : yval :=
  doc [("name", Y "pair"); ("type", Y "structure"); ("attributes", doc [("byte_order", Y "big-endian")]);
       ("members", YList [y_member "a" "BYTE";
                          doc [("type", Y "union"); ("members", YList [y_member "b" "uint8"; y_member "c" "uint8"])]])].

Definition k_pair' : yval :=
  doc [("members", YList [doc [("data_type", Y "BYTE"); ("name", Y "a")];
                          doc [("members", YList [doc [("data_type", Y "uint8"); ("name", Y "b")]; y_member "c" "uint8"]);
                               ("type", Y "union")]]);
       ("attributes", doc [("byte_order", Y "big-endian")]); ("type", Y "structure"); ("name", Y "pair")].

Definition k_uint8 : yval :=
  doc [("attributes", doc [("size", YInt 1); ("units", Y "bytes"); ("format", Y "unsigned")]);
       ("type", Y "integer"); ("aliases", YList [Y "BYTE"]); ("name", Y "uint8")].

Ltac keys_distinct := repeat constructor; cbn; intuition discriminate.

Lemma uint8_shuffled : shuffle_document y_uint8 k_uint8.
Proof.
  exists 0%nat. do 3 eexists. split; [reflexivity|]. split; [reflexivity|]. split; [keys_distinct|].
  split; [apply Permutation_rev|]. cbn [rev app].
  constructor.
  { cbn [fst snd]. split; [reflexivity|]. right. exists "attributes". split; [reflexivity|]. left. split; [reflexivity|].
    do 3 eexists. split; [reflexivity|]. split; [reflexivity|]. split; [keys_distinct|].
    split; [apply (Permutation_app_comm [_] [_; _])|]. cbn [app]. repeat constructor. }
  repeat constructor; left; reflexivity.
Qed.

Lemma member_shuffled n a b : shuffle_member (S n) (y_member a b) (doc [("data_type", Y b); ("name", Y a)]).
Proof.
  do 3 eexists. split; [reflexivity|]. split; [reflexivity|]. split; [keys_distinct|].
  split; [apply Permutation_rev|]. cbn [rev app]. repeat constructor; left; reflexivity.
Qed.

Lemma pair_shuffled : shuffle_document k_pair k_pair'.
Proof.
  exists 2%nat. do 3 eexists. split; [reflexivity|]. split; [reflexivity|]. split; [keys_distinct|].
  split; [apply Permutation_rev|]. cbn [rev app].
  constructor.
  { cbn [fst snd]. split; [reflexivity|]. right. exists "members". split; [reflexivity|]. right. left. split; [reflexivity|].
    do 2 eexists. split; [reflexivity|]. split; [reflexivity|]. constructor; [right; apply member_shuffled|].
    constructor; [|constructor]. right. do 3 eexists. split; [reflexivity|]. split; [reflexivity|]. split; [keys_distinct|].
    split; [apply Permutation_rev|]. cbn [rev app map]. constructor; [|repeat constructor; left; reflexivity].
    cbn [fst snd]. split; [reflexivity|]. right. exists "members". split; [reflexivity|]. right. split; [reflexivity|].
    do 2 eexists. split; [reflexivity|]. split; [reflexivity|]. constructor; [right; apply member_shuffled|].
    constructor; [left; reflexivity|constructor]. }
  repeat constructor; left; reflexivity.
Qed.

(** Members of a family given as the keys of a mapping. *)
Definition k_family (l : list (string * yval)) : yval :=
  doc [("name", Y "f"); ("type", Y "structure-family"); ("base", Y "a"); ("members", doc l)].

Definition k_docs (l : list (string * yval)) : list yval :=
  [y_uint8; y_struct "a" [y_member "x" "uint8"]; y_struct "b" [y_member "x" "uint8"]; y_struct "c" [y_member "x" "uint8"]; k_family l].

Lemma keys_names_refuted : exists l l' r r',
  NoDup (map fst l) /\ Permutation.Permutation l l' /\
  read_file demo_env rreg_empty (Some (k_docs l, YEnd)) = (Ok tt, r) /\
  read_file demo_env rreg_empty (Some (k_docs l', YEnd)) = (Ok tt, r') /\ registered r <> registered r'.
Proof.
  exists [("b", YNull); ("c", YNull)], [("c", YNull); ("b", YNull)]. do 2 eexists.
  split; [keys_distinct|]. split; [constructor|]. split; [vm_compute; reflexivity|]. split; [vm_compute; reflexivity|].
  intros H. vm_compute in H. discriminate H.
Qed.
