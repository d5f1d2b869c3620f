(** Padding depends on where in the stream it lies. *)
From Coq Require Import String List ZArith Bool Lia.
From Verif Require Import Base PyVal PyStruct DataTypes ClassFactory DataMaps Expr Codec Demo SpecPrim SpecMap SpecCreate SpecShift MapProofs DemoProofs.
Import ListNotations.
Open Scope Z_scope.
Open Scope string_scope.
Open Scope list_scope.

(** A counted text, padding to a multiple of four and a number. *)
Definition h_entry : dtype :=
  DStructure (meta_of "entry") BOLittle
    [member "count" d_uint8;
     member "text" (DElems KStream (elems_size_expr "text" d_uint8 "entry.count") d_uint8);
     DPadding (meta_of "pad") BOLittle (Some 4);
     member "value" d_uint16].

Lemma entry_sound : everywhere sound h_entry.
Proof. apply fine_sound; vm_compute; reflexivity. Qed.

Lemma entry_aligned k : k mod 4 = 0 -> everywhere (keeps_alignment k) h_entry.
Proof. intros K. cbn. repeat split; auto. Qed.

Lemma padding_shift_refuted :
  exists d m pre b v v' n n', everywhere sound d /\ create demo d None = Ok (Some m) /\
    maps demo 9 m b 0 [] 0 v n /\ maps demo 9 m (pre ++ b) (len pre) [] 0 v' n' /\ v <> v' /\ n <> n'.
Proof.
  exists h_entry, (the_map h_entry), (bs [9; 9]), (bs [2; 65; 66; 1; 2; 3; 4; 5]).
  exists (VStruct "entry" [("count", VInt 2); ("text", VBytes (bs [65; 66])); ("pad", VBytes (bs [1])); ("value", VInt 770)]).
  exists (VStruct "entry" [("count", VInt 2); ("text", VBytes (bs [65; 66])); ("pad", VBytes (bs [1; 2; 3])); ("value", VInt 1284)]).
  exists 6, 8.
  split; [exact entry_sound|]. split; [vm_compute; reflexivity|].
  split; [eexists; split; [vm_compute; reflexivity|vm_compute; reflexivity]|].
  split; [eexists; split; [vm_compute; reflexivity|vm_compute; reflexivity]|].
  split; [discriminate|lia].
Qed.
