(** A box with supported values at two depths, and with them taken away. *)
From Coq Require Import String List ZArith Bool Lia.
From Verif Require Import Base PyVal PyStruct DataTypes ClassFactory DataMaps Expr Demo DemoProofs.
From Verif Require Import SpecContainers SpecPrim SpecMap SpecCreate SpecReads SpecWrites SpecFilter BytesProofs CreateProofs ReadsProofs ReadsWitness.
From Verif Require SpecMake.
Import ListNotations.
Open Scope string_scope.
Open Scope list_scope.
Open Scope Z_scope.

Definition box_entry (vs : list pyval) : dtype :=
  DStructure (meta_of "entry") BOLittle [member_in "tag" vs d_uint8; member "size" d_uint16].
Definition box (kinds tags : list pyval) : dtype :=
  DStructure (meta_of "box") BOLittle
    [member_in "kind" kinds d_uint8;
     member "entries" (DElems KSequence (elems_number "entries" (box_entry tags) 2) (box_entry tags));
     member_if "check" "box.kind > 1" d_uint8].

Definition d_box : dtype := box [VInt 1; VInt 2] [VInt 3; VInt 4].
Definition d_other_box : dtype := box [VInt 2; VInt 9] [VInt 4; VInt 3; VInt 5].

Definition box_bytes : bytes := bs [2; 3; 1; 0; 4; 2; 0; 8].
Definition box_value : pyval :=
  VStruct "box" [("kind", VInt 2);
    ("entries", VTuple [VStruct "entry" [("tag", VInt 3); ("size", VInt 1)]; VStruct "entry" [("tag", VInt 4); ("size", VInt 2)]]);
    ("check", VInt 8)].
Definition bad_bytes : bytes := bs [2; 3; 1; 0; 6; 2; 0; 8].
Definition bad_value : pyval :=
  VStruct "box" [("kind", VInt 2);
    ("entries", VTuple [VStruct "entry" [("tag", VInt 3); ("size", VInt 1)]; VStruct "entry" [("tag", VInt 6); ("size", VInt 2)]]);
    ("check", VInt 8)].

Lemma box_regular : everywhere regular d_box.
Proof. apply regular_check; vm_compute; reflexivity. Qed.
Lemma other_box_regular : everywhere regular d_other_box.
Proof. apply regular_check; vm_compute; reflexivity. Qed.
Lemma box_shaped : everywhere SpecMake.shaped d_box.
Proof. cbn. repeat split; repeat constructor; cbn; try (intuition discriminate); try tauto; eexists; reflexivity. Qed.
Lemma box_listed : everywhere listed d_box.
Proof.
  cbn. repeat match goal with |- _ /\ _ => split end; auto;
    intros m x r I0 V; repeat (destruct I0 as [<-|I0]; [exact I|]); contradiction.
Qed.
Lemma box_created : create demo d_box None = Ok (Some (the_map d_box)).
Proof. vm_compute. reflexivity. Qed.
Lemma other_box_created : create demo d_other_box None = Ok (Some (the_map d_other_box)).
Proof. vm_compute. reflexivity. Qed.
Lemma relaxed_box_created : create demo (relaxed d_box) None = Ok (Some (the_map (relaxed d_box))).
Proof. vm_compute. reflexivity. Qed.
Lemma box_maps : maps demo 20 (the_map d_box) box_bytes 0 [] 0 box_value 8.
Proof. eexists. split; vm_compute; reflexivity. Qed.
Lemma other_box_maps : maps demo 20 (the_map d_other_box) box_bytes 0 [] 0 box_value 8.
Proof. eexists. split; vm_compute; reflexivity. Qed.
Lemma relaxed_box_maps : maps demo 20 (the_map (relaxed d_box)) box_bytes 0 [] 0 box_value 8.
Proof. eexists. split; vm_compute; reflexivity. Qed.
Lemma relaxed_bad_maps : maps demo 20 (the_map (relaxed d_box)) bad_bytes 0 [] 0 bad_value 8.
Proof. eexists. split; vm_compute; reflexivity. Qed.
Lemma bad_not_within : ~ within d_box bad_value.
Proof.
  cbn. intros (_ & [Q|[_ [_ [([Q|[A _]] & _) _]]]] & _); try discriminate.
  destruct A as (w & [<-|[<-|[]]] & Q); discriminate Q.
Qed.
Lemma boxes_alike : relaxed d_box = relaxed d_other_box.
Proof. reflexivity. Qed.
Lemma box_offset : 0 <= 0 <= len box_bytes.
Proof. vm_compute. split; discriminate. Qed.
Lemma bad_offset : 0 <= 0 <= len bad_bytes.
Proof. vm_compute. split; discriminate. Qed.
Lemma box_levels : 0 + levels d_box <= 11.
Proof. vm_compute. discriminate. Qed.

(** Folding does not look at supported values. *)
Definition slip (vs : list pyval) : dtype :=
  DStructure (meta_of "slip") BOLittle [member_in "kind" vs d_uint16; member "inner" (box_entry vs)].
Definition slip_value : pyval :=
  VStruct "slip" [("kind", VInt 258); ("inner", VStruct "entry" [("tag", VInt 6); ("size", VInt 5)])].
Definition slip_bytes : bytes := bs [2; 1; 6; 5; 0].
Lemma slip_sound vs : everywhere sound (slip vs).
Proof. apply regular_sound. apply regular_check; vm_compute; reflexivity. Qed.
Lemma slip_created vs : create demo (slip vs) None = Ok (Some (the_map (slip vs))).
Proof. vm_compute. reflexivity. Qed.
Lemma slip_proper : proper slip_value.
Proof. cbn. tauto. Qed.
Lemma slip_folds : fst (foldbs demo (the_map (slip [])) slip_value None) = Ok (VBytes slip_bytes).
Proof. vm_compute. reflexivity. Qed.
