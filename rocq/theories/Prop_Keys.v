(** C60: the order of keys in definition files. *)
From Coq Require Import String Ascii List ZArith Bool Lia.
From Verif Require Import Base Ieee Yaml DataTypes Reader Validator SpecReader DemoYaml SpecDescribe Fabric SpecKeys Demo KeysWitness.
Import ListNotations.
Open Scope string_scope.
Open Scope list_scope.
Open Scope Z_scope.

(** C60. A file with its keys in another order is read without error into a registry exactly if the file is. *)
Theorem C60_order : forall env docs docs' r,
  Forall2 (fun v v' => v = v' \/ shuffle_document v v') docs docs' ->
  (read_file env rreg_empty (Some (docs, YEnd)) = (Ok tt, r) <->
   read_file env rreg_empty (Some (docs', YEnd)) = (Ok tt, r)).
Proof. exact KeysProofs.key_order. Qed.
Print Assumptions C60_order.

Example C60_example_order :
  Forall2 (fun v v' => v = v' \/ shuffle_document v v') [y_uint8; k_pair] [k_uint8; k_pair'] /\
  (exists r, read_file demo_env rreg_empty (Some ([y_uint8; k_pair], YEnd)) = (Ok tt, r)) /\
  y_uint8 <> k_uint8 /\ k_pair <> k_pair'.
Proof.
  split; [constructor; [right; exact uint8_shuffled|constructor; [right; exact pair_shuffled|constructor]]|].
  split; [eexists; vm_compute; reflexivity|]. split; discriminate.
Qed.

(** C60. The maps created by name are the same. *)
Theorem C60_maps : forall orc env docs docs' r r',
  Forall2 (fun v v' => v = v' \/ shuffle_document v v') docs docs' ->
  fabric env (Some (docs, YEnd)) = Ok r -> fabric env (Some (docs', YEnd)) = Ok r' ->
  forall name, create_map orc env r name = create_map orc env r' name.
Proof. exact KeysProofs.key_order_maps. Qed.
Print Assumptions C60_maps.

Example C60_example_maps : exists r m,
  fabric demo_env (Some ([k_uint8; k_pair'], YEnd)) = Ok r /\ create_map demo demo_env r (Y "UINT8") = Made (Some m).
Proof. do 2 eexists. split; [vm_compute; reflexivity|vm_compute; reflexivity]. Qed.

(** C60. A file that is refused is refused in any other order of keys. *)
Theorem C60_fails : forall env docs docs',
  Forall2 (fun v v' => v = v' \/ shuffle_document v v') docs docs' ->
  (exists x, fabric env (Some (docs, YEnd)) = Raise x) -> exists x, fabric env (Some (docs', YEnd)) = Raise x.
Proof. exact KeysProofs.key_order_fails. Qed.
Print Assumptions C60_fails.

Example C60_example_fails :
  Forall2 (fun v v' => v = v' \/ shuffle_document v v') [k_pair] [k_pair'] /\
  fabric demo_env (Some ([k_pair], YEnd)) = Raise FormatError.
Proof.
  split; [constructor; [right; exact pair_shuffled|constructor]|vm_compute; reflexivity].
Qed.

(** C60. The members of a family given as the keys of a mapping are taken in the order of the keys. *)
Theorem C60_names_refuted : exists l l' r r',
  NoDup (map fst l) /\ Permutation.Permutation l l' /\
  read_file demo_env rreg_empty (Some (k_docs l, YEnd)) = (Ok tt, r) /\
  read_file demo_env rreg_empty (Some (k_docs l', YEnd)) = (Ok tt, r') /\ registered r <> registered r'.
Proof. exact KeysWitness.keys_names_refuted. Qed.
Print Assumptions C60_names_refuted.
