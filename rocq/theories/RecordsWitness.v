(** A header and two records. *)
From Coq Require Import String List ZArith Bool Lia.
From Verif Require Import Base PyVal PyStruct DataTypes ClassFactory DataMaps Expr Demo DemoProofs.
From Verif Require Import SpecPrim SpecMap SpecCreate SpecReads SpecFold SpecFits SpecShift SpecRecords BytesProofs CreateProofs FoldProofs ReadsProofs FitProofs
  ReadsWitness FitWitness.
Import ListNotations.
Open Scope string_scope.
Open Scope list_scope.
Open Scope Z_scope.

Definition d_top : dtype := DStructure (meta_of "top") BOLittle [member "magic" d_uint16; member "count" d_uint8].
Definition d_rec : dtype :=
  DStructure (meta_of "rec") BOLittle
    [member "size" d_uint8; member "data" (DElems KStream (elems_size_expr "data" d_uint8 "rec.size") d_uint8)].
Definition rec_value (l : list Z) : pyval := VStruct "rec" [("size", VInt (len l)); ("data", VBytes (bs l))].
Definition top_item : item := mkItem d_top (the_map d_top) [] (VStruct "top" [("magic", VInt 1793); ("count", VInt 2)]) 3.
Definition rec_item (l : list Z) : item := mkItem d_rec (the_map d_rec) [] (rec_value l) (1 + len l).
Definition file_items : list item := [top_item; rec_item [65; 66; 67]; rec_item [90]].
Definition file_bytes : bytes := bs [1; 7; 2; 3; 65; 66; 67; 1; 90].

Lemma top_created : create demo d_top None = Ok (Some (the_map d_top)).
Proof. vm_compute. reflexivity. Qed.
Lemma rec_created : create demo d_rec None = Ok (Some (the_map d_rec)).
Proof. vm_compute. reflexivity. Qed.
Lemma top_regular : everywhere regular d_top.
Proof. apply regular_check; vm_compute; reflexivity. Qed.
Lemma rec_regular : everywhere regular d_rec.
Proof. apply regular_check; vm_compute; reflexivity. Qed.
Lemma top_folds_back : folds_back demo d_top.
Proof. cbn. tauto. Qed.
Lemma rec_folds_back : folds_back demo d_rec.
Proof. cbn. tauto. Qed.

Lemma file_row : in_a_row demo file_bytes 0 file_items 9.
Proof.
  apply NextItem; [exists 20%nat; eexists; split; vm_compute; reflexivity|].
  apply NextItem; [exists 20%nat; eexists; split; vm_compute; reflexivity|].
  apply NextItem; [exists 20%nat; eexists; split; vm_compute; reflexivity|].
  apply NoMore.
Qed.

Lemma top_writable : writable_item demo top_item.
Proof.
  split; [exact top_regular|]. split; [exact top_folds_back|]. split; [exact top_created|]. split; [vm_compute; discriminate|].
  split; [right; cbn; tauto|]. cbn. tauto.
Qed.
Lemma rec_writable_first : writable_item demo (rec_item [65; 66; 67]).
Proof.
  split; [exact rec_regular|]. split; [exact rec_folds_back|]. split; [exact rec_created|]. split; [vm_compute; discriminate|].
  split; [right; cbn; tauto|]. cbn [sizes_agree i_type rec_item d_rec member]. repeat split; auto.
  intros _. intros n. apply FoldProofs.same_size. intros x [Hx|Hx]; inversion Hx. vm_compute. reflexivity.
Qed.
Lemma rec_writable_second : writable_item demo (rec_item [90]).
Proof.
  split; [exact rec_regular|]. split; [exact rec_folds_back|]. split; [exact rec_created|]. split; [vm_compute; discriminate|].
  split; [right; cbn; tauto|]. cbn [sizes_agree i_type rec_item d_rec member]. repeat split; auto.
  intros _. intros n. apply FoldProofs.same_size. intros x [Hx|Hx]; inversion Hx. vm_compute. reflexivity.
Qed.
Lemma file_writable : Forall (writable_item demo) file_items.
Proof. constructor; [exact top_writable|]. constructor; [exact rec_writable_first|]. constructor; [exact rec_writable_second|constructor]. Qed.

Lemma file_fit : fit_in_a_row demo 0 file_items.
Proof.
  split; [|split; [|split; [|exact I]]].
  - apply (fits_iff demo d_top (the_map d_top)); auto using extensional_demo, top_regular, top_folds_back, top_created; try (vm_compute; discriminate).
    exists 20%nat, file_bytes. split; [vm_compute; discriminate|]. eexists. split; vm_compute; reflexivity.
  - apply (fits_iff demo d_rec (the_map d_rec)); auto using extensional_demo, rec_regular, rec_folds_back, rec_created; try (vm_compute; discriminate).
    exists 20%nat, file_bytes. split; [vm_compute; discriminate|]. eexists. split; vm_compute; reflexivity.
  - apply (fits_iff demo d_rec (the_map d_rec)); auto using extensional_demo, rec_regular, rec_folds_back, rec_created; try (vm_compute; discriminate).
    exists 20%nat, file_bytes. split; [vm_compute; discriminate|]. eexists. split; vm_compute; reflexivity.
Qed.

Lemma top_plain : plain_item demo top_item.
Proof. split; [apply regular_sound, top_regular|]. split; [exact top_created|]. split; vm_compute; tauto. Qed.
Lemma rec_plain l : plain_item demo (rec_item l).
Proof. split; [apply regular_sound, rec_regular|]. split; [exact rec_created|]. split; vm_compute; tauto. Qed.
Lemma file_plain : Forall (plain_item demo) file_items.
Proof. constructor; [exact top_plain|]. constructor; [apply rec_plain|]. constructor; [apply rec_plain|constructor]. Qed.
Lemma file_items_created : Forall (created_item demo) (file_items ++ [rec_item [80; 81]]).
Proof.
  assert (T : created_item demo top_item) by (split; [apply regular_sound, top_regular|exact top_created]).
  assert (R : forall l, created_item demo (rec_item l)) by (intros l; split; [apply regular_sound, rec_regular|exact rec_created]).
  constructor; [exact T|]. constructor; [apply R|]. constructor; [apply R|]. constructor; [apply R|constructor].
Qed.
Lemma more_aligned : Forall (fun i => everywhere (keeps_alignment (len file_bytes)) (i_type i)) [rec_item [80; 81]].
Proof. constructor; [|constructor]. cbn. tauto. Qed.
Lemma more_row : in_a_row demo (bs [2; 80; 81]) 0 [rec_item [80; 81]] 3.
Proof. apply NextItem; [exists 20%nat; eexists; split; vm_compute; reflexivity|]. apply NoMore. Qed.
Lemma file_cut : 0 <= 0 <= 6 /\ 6 <= len file_bytes.
Proof. vm_compute. repeat split; discriminate. Qed.
Lemma file_offset : 0 <= 0 <= len file_bytes.
Proof. vm_compute. split; discriminate. Qed.
Lemma file_same : Forall2 same_map file_items file_items.
Proof. repeat constructor. Qed.
