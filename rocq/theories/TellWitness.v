(** Definitions with which different bytes are mapped to a value. *)
From Coq Require Import String List ZArith Bool Lia.
From Verif Require Import Base PyVal PyStruct DataTypes ClassFactory DataMaps Expr Codec SpecCodec Demo SpecPrim SpecMap SpecCreate SpecReads
  SpecFold SpecTell CodecProofs ReadsProofs DemoProofs ReadsWitness TellProofs.
Import ListNotations.
Open Scope Z_scope.
Open Scope string_scope.
Open Scope list_scope.

Lemma faithful_demo enc : SpecCodec.known enc -> faithful demo enc.
Proof. intros K b s D. now apply encode_decode. Qed.

Lemma shape_telling : everywhere (telling demo) d_shape.
Proof.
  cbn. repeat split; auto; [apply faithful_demo; cbn; tauto|]. right. vm_compute. tauto.
Qed.

(** A boolean that is false for 0 and true for everything else: what a definition
    file gives that says nothing about its values. *)
Definition d_flag : dtype := DBoolean (fixed_of "flag" BOLittle 1) (Some 0) None.
(** Four bytes of text, of which those from the first null byte on are dropped. *)
Definition padded : elems := mkElems (meta_of "padded") BOLittle (Some 4) None (Some "char") (Some (VBytes (bs [0]))) None None "utf8".
Definition d_padded : dtype := DElems KString padded d_char.
Definition d_single : dtype := DFloat (fixed_of "float32" BOLittle 4).
Definition d_guid : dtype := DUUID (fixed_of "guid" BONative 16).

(** Both values of [d] are [v], and the bytes are not the same. *)
Definition blurs (d : dtype) (a b : bytes) (v : pyval) (n : Z) : Prop :=
  everywhere regular d /\ create demo d None = Ok (Some (the_map d)) /\ a <> b /\
  maps demo 10 (the_map d) a 0 [] 0 v n /\ maps demo 10 (the_map d) b 0 [] 0 v n /\ window a 0 n <> window b 0 n.

Lemma flag_blurs : blurs d_flag (bs [1]) (bs [2]) (VBool true) 1.
Proof.
  split; [apply regular_check; vm_compute; reflexivity|]. split; [vm_compute; reflexivity|]. split; [discriminate|].
  split; [eexists; split; vm_compute; reflexivity|]. split; [eexists; split; vm_compute; reflexivity|]. vm_compute. discriminate.
Qed.

Lemma padded_blurs : blurs d_padded (bs [65; 0; 66; 66]) (bs [65; 0; 67; 67]) (VStr [65]) 4.
Proof.
  split; [apply regular_check; vm_compute; reflexivity|]. split; [vm_compute; reflexivity|]. split; [discriminate|].
  split; [eexists; split; vm_compute; reflexivity|]. split; [eexists; split; vm_compute; reflexivity|]. vm_compute. discriminate.
Qed.

Lemma guid_blurs : blurs d_guid (bs [0;0;0;0;0;0;0;0;0;0;0;0;0;0;0;0]) (bs [1;0;0;0;0;0;0;0;0;0;0;0;0;0;0;0]) VNone 16.
Proof.
  split; [apply regular_check; vm_compute; reflexivity|]. split; [vm_compute; reflexivity|]. split; [discriminate|].
  split; [eexists; split; vm_compute; reflexivity|]. split; [eexists; split; vm_compute; reflexivity|]. vm_compute. discriminate.
Qed.

Lemma single_blurs : exists v, blurs d_single (bs [1; 0; 128; 127]) (bs [1; 0; 192; 127]) v 4.
Proof.
  eexists. split; [apply regular_check; vm_compute; reflexivity|]. split; [vm_compute; reflexivity|]. split; [discriminate|].
  split; [eexists; split; vm_compute; reflexivity|]. split; [eexists; split; vm_compute; reflexivity|]. vm_compute. discriminate.
Qed.

#[local] Ltac blurred H := destruct H as (R & C & _ & M & M' & W).

Lemma tell_boolean_refuted : exists f m bs bs' v n, let d := DBoolean f (Some 0) None in
  everywhere regular d /\ create demo d None = Ok (Some m) /\
  maps demo 10 m bs 0 [] 0 v n /\ maps demo 10 m bs' 0 [] 0 v n /\ window bs 0 n <> window bs' 0 n.
Proof. blurred flag_blurs. do 6 eexists. split; [exact R|]. split; [exact C|]. split; [exact M|]. split; [exact M'|exact W]. Qed.

Lemma tell_string_refuted : exists e el m bs bs' v n, let d := DElems KString e el in
  faithful demo (e_encoding e) /\ e_terminator e <> None /\ e_data_size e <> None /\
  everywhere regular d /\ create demo d None = Ok (Some m) /\
  maps demo 10 m bs 0 [] 0 v n /\ maps demo 10 m bs' 0 [] 0 v n /\ window bs 0 n <> window bs' 0 n.
Proof.
  blurred padded_blurs. exists padded. do 6 eexists. split; [apply faithful_demo; cbn; tauto|]. split; [discriminate|]. split; [discriminate|].
  split; [exact R|]. split; [exact C|]. split; [exact M|]. split; [exact M'|exact W].
Qed.

Lemma tell_uuid_refuted : exists f m bs bs' v n, let d := DUUID f in f_bo f = BONative /\
  everywhere regular d /\ create demo d None = Ok (Some m) /\
  maps demo 10 m bs 0 [] 0 v n /\ maps demo 10 m bs' 0 [] 0 v n /\ window bs 0 n <> window bs' 0 n.
Proof. blurred guid_blurs. exists (fixed_of "guid" BONative 16). do 5 eexists. split; [reflexivity|]. split; [exact R|]. split; [exact C|]. split; [exact M|]. split; [exact M'|exact W]. Qed.

Lemma tell_nan_refuted : exists f m bs bs' v n, let d := DFloat f in f_size f = Some 4 /\
  everywhere regular d /\ create demo d None = Ok (Some m) /\
  maps demo 10 m bs 0 [] 0 v n /\ maps demo 10 m bs' 0 [] 0 v n /\ window bs 0 n <> window bs' 0 n.
Proof.
  destruct single_blurs as [v H]. blurred H. exists (fixed_of "float32" BOLittle 4). do 5 eexists. split; [reflexivity|]. split; [exact R|]. split; [exact C|]. split; [exact M|]. split; [exact M'|exact W].
Qed.
