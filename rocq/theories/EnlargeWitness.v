(** A log whose entries are of several kinds, and of more kinds in a later version. *)
From Coq Require Import String List ZArith Bool Lia Permutation.
From Verif Require Import Base PyVal PyStruct DataTypes ClassFactory DataMaps Expr Demo DemoProofs.
From Verif Require Import SpecPrim SpecMap SpecCreate SpecReads SpecEnlarge BytesProofs CreateProofs ReadsWitness.
From Verif Require SpecMake.
Import ListNotations.
Open Scope string_scope.
Open Scope list_scope.
Open Scope Z_scope.

Definition entry_base : dtype := DStructure (meta_of "entry_base") BOLittle [member "kind" d_uint8].
Definition entry_open : dtype :=
  DStructure (meta_of "entry_open") BOLittle [member_in "kind" [VInt 1] d_uint8; member "handle" d_uint16].
Definition entry_write : dtype :=
  DStructure (meta_of "entry_write") BOLittle
    [member_in "kind" [VInt 2] d_uint8; member "size" d_uint8;
     member "data" (DElems KStream (elems_size_expr "data" d_uint8 "entry_write.size") d_uint8)].
Definition entry_close : dtype :=
  DStructure (meta_of "entry_close") BOLittle [member_in "kind" [VInt 3; VInt 4] d_uint8; member "status" d_uint32].
Definition entry_other : dtype := DStructure (meta_of "entry_other") BOLittle [member "kind" d_uint8].

(** The first version knows two kinds of entries. *)
Definition d_entry : dtype := DGroup (meta_of "entry") BOLittle entry_base "kind" None [entry_open; entry_write].
(** The second knows a third, and what to do with others. *)
Definition d_entry_more : dtype :=
  DGroup (meta_of "entry") BOLittle entry_base "kind" (Some entry_other) [entry_close; entry_write; entry_open].
(** The first version, with the kinds in the other order. *)
Definition d_entry_turned : dtype := DGroup (meta_of "entry") BOLittle entry_base "kind" None [entry_write; entry_open].

Definition log_of (d : dtype) : dtype :=
  DStructure (meta_of "log") BOLittle
    [member "count" d_uint8; member "entries" (DElems KSequence (elems_number_expr "entries" d "log.count") d)].
Definition d_log : dtype := log_of d_entry.
Definition d_log_more : dtype := log_of d_entry_more.

Lemma entry_enlarged : enlarged d_entry d_entry_more.
Proof.
  apply MoreStructures with (ms' := [entry_open; entry_write]) (more := [entry_close]); [apply AsBefore|repeat constructor|].
  apply (perm_trans (l' := [entry_write; entry_close; entry_open])); [apply perm_swap|].
  apply (perm_trans (l' := [entry_write; entry_open; entry_close])); [apply perm_skip, perm_swap|apply perm_swap].
Qed.
Lemma entry_turned : Permutation [entry_open; entry_write] [entry_write; entry_open].
Proof. apply perm_swap. Qed.
Lemma log_enlarged : enlarged d_log d_log_more.
Proof. apply InStructure. constructor; [apply AsBefore|]. constructor; [|constructor]. apply InMember, InElements, entry_enlarged. Qed.

Definition log_bytes : bytes := bs [3; 1; 5; 0; 2; 2; 65; 66; 1; 6; 1].
Definition log_value : pyval :=
  VStruct "log" [("count", VInt 3); ("entries", VTuple
    [VStruct "entry_open" [("kind", VInt 1); ("handle", VInt 5)];
     VStruct "entry_write" [("kind", VInt 2); ("size", VInt 2); ("data", VBytes (bs [65; 66]))];
     VStruct "entry_open" [("kind", VInt 1); ("handle", VInt 262)]])].
Definition entry_bytes : bytes := bs [2; 2; 65; 66].
Definition entry_value : pyval := VStruct "entry_write" [("kind", VInt 2); ("size", VInt 2); ("data", VBytes (bs [65; 66]))].

Lemma log_regular : everywhere regular d_log.
Proof. apply regular_check; vm_compute; reflexivity. Qed.
Lemma log_more_regular : everywhere regular d_log_more.
Proof. apply regular_check; vm_compute; reflexivity. Qed.
Lemma entry_regular : everywhere regular d_entry.
Proof. apply regular_check; vm_compute; reflexivity. Qed.
Lemma log_more_shaped : everywhere SpecMake.shaped d_log_more.
Proof. cbn. repeat split; repeat constructor; cbn; try (intuition discriminate); try tauto; eexists; reflexivity. Qed.
Lemma entry_shaped : everywhere SpecMake.shaped d_entry.
Proof. cbn. repeat split; repeat constructor; cbn; try (intuition discriminate); try tauto; eexists; reflexivity. Qed.
Lemma log_created : create demo d_log None = Ok (Some (the_map d_log)).
Proof. vm_compute. reflexivity. Qed.
Lemma log_more_created : create demo d_log_more None = Ok (Some (the_map d_log_more)).
Proof. vm_compute. reflexivity. Qed.
Lemma entry_created : create demo d_entry None = Ok (Some (the_map d_entry)).
Proof. vm_compute. reflexivity. Qed.
Lemma turned_created : create demo d_entry_turned None = Ok (Some (the_map d_entry_turned)).
Proof. vm_compute. reflexivity. Qed.
Lemma log_maps : maps demo 20 (the_map d_log) log_bytes 0 [] 0 log_value 11.
Proof. eexists. split; vm_compute; reflexivity. Qed.
Lemma log_more_maps : maps demo 20 (the_map d_log_more) log_bytes 0 [] 0 log_value 11.
Proof. eexists. split; vm_compute; reflexivity. Qed.
Lemma entry_maps : maps demo 20 (the_map d_entry) entry_bytes 0 [] 0 entry_value 4.
Proof. eexists. split; vm_compute; reflexivity. Qed.
Lemma log_offset : 0 <= 0 <= len log_bytes.
Proof. vm_compute. split; discriminate. Qed.
Lemma entry_offset : 0 <= 0 <= len entry_bytes.
Proof. vm_compute. split; discriminate. Qed.
Lemma log_levels : 0 + levels d_log <= 11.
Proof. vm_compute. discriminate. Qed.
Lemma log_more_levels : 0 + levels d_log_more <= 11.
Proof. vm_compute. discriminate. Qed.
Lemma entry_levels : 0 + levels d_entry <= 11.
Proof. vm_compute. discriminate. Qed.
