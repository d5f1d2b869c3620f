(** Hosts of different byte orders. *)
From Coq Require Import String Ascii List ZArith Bool Lia.
From Verif Require Import Base Ieee PyVal PyStruct DataTypes ClassFactory DataMaps SpecPrim Demo SpecMap SpecCreate DemoProofs SpecHost HostProofs HostWitness DemoProofs.
Import ListNotations.
Open Scope string_scope.
Open Scope list_scope.
Open Scope Z_scope.

(** C57. If byte orders are written down where they matter, every host gives the same error or a map that maps, folds and hints the same. *)
Theorem C57_hosts : forall h h' orc d,
  portable False d ->
  match create (on_host h orc) d None, create (on_host h' orc) d None with
  | Ok (Some m), Ok (Some m') => indistinguishable (on_host h orc) m (on_host h' orc) m'
  | Ok None, Ok None => True
  | Raise e, Raise e' => e = e'
  | _, _ => False
  end.
Proof. exact HostProofs.portable_hosts. Qed.
Print Assumptions C57_hosts.

Example C57_example :
  portable False h_packet /\
  (exists m, create (on_host Little demo) h_packet None = Ok (Some m) /\
    fst (mapbs (on_host Little demo) 9 m (bs [1; 2; 3; 4; 65; 66; 5; 6; 7; 8]) 0 None 0) =
      Ok (VStruct "packet" [("kind", VInt 258); ("flags", VInt 1027); ("body", VBytes (bs [65; 66])); ("words", VTuple [VInt 1541; VInt 2055])])) /\
  (exists m, create (on_host Big demo) h_packet None = Ok (Some m) /\
    fst (mapbs (on_host Big demo) 9 m (bs [1; 2; 3; 4; 65; 66; 5; 6; 7; 8]) 0 None 0) =
      Ok (VStruct "packet" [("kind", VInt 258); ("flags", VInt 1027); ("body", VBytes (bs [65; 66])); ("words", VTuple [VInt 1541; VInt 2055])])).
Proof.
  split; [exact packet_portable|].
  split; (eexists; split; [vm_compute; reflexivity|vm_compute; reflexivity]).
Qed.

(** C57. Whether a map can be created and what size it hints at never depends on the host, whatever the byte orders. *)
Theorem C57_hint : forall h h' orc d,
  match create (on_host h orc) d None, create (on_host h' orc) d None with
  | Ok (Some m), Ok (Some m') => forall off c, hint (on_host h orc) m off c = hint (on_host h' orc) m' off c
  | Ok None, Ok None => True
  | Raise e, Raise e' => e = e'
  | _, _ => False
  end.
Proof. exact HostProofs.hosts_hint. Qed.
Print Assumptions C57_hint.

Example C57_example_hint :
  (exists m, create (on_host Little demo) d_word None = Ok (Some m) /\ fst (hint (on_host Little demo) m 0 None) = Ok (Some 2) /\
     fst (mapbs (on_host Little demo) 9 m (bs [1; 2]) 0 None 0) = Ok (VInt 513)) /\
  (exists m, create (on_host Big demo) d_word None = Ok (Some m) /\ fst (hint (on_host Big demo) m 0 None) = Ok (Some 2) /\
     fst (mapbs (on_host Big demo) 9 m (bs [1; 2]) 0 None 0) = Ok (VInt 258)).
Proof.
  split; (eexists; split; [vm_compute; reflexivity|]; split; [vm_compute; reflexivity|vm_compute; reflexivity]).
Qed.

(** C57. Byte orders at all numbers are not enough: a structure without a byte order of its own reads its members in the byte order of the host. *)
Theorem C57_structure_refuted : exists d m m' b v v' n, everywhere numbers_explicit d /\
    create (on_host Little demo) d None = Ok (Some m) /\ create (on_host Big demo) d None = Ok (Some m') /\
    maps (on_host Little demo) 9 m b 0 [] 0 v n /\ maps (on_host Big demo) 9 m' b 0 [] 0 v' n /\ v <> v'.
Proof. exact HostWitness.structure_host_refuted. Qed.
Print Assumptions C57_structure_refuted.
