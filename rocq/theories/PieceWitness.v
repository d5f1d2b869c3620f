(** A terminated sequence and a terminated stream read as their first element and the rest. *)
From Coq Require Import String List ZArith Bool Lia.
From Verif Require Import Base PyVal PyStruct DataTypes ClassFactory DataMaps Expr Demo DemoProofs.
From Verif Require Import SpecPrim SpecMap SpecCreate SpecReads SpecExtent BytesProofs CreateProofs ReadsWitness ExtentWitness.
Import ListNotations.
Open Scope string_scope.
Open Scope list_scope.
Open Scope Z_scope.

Definition e_until : elems := elems_term "until" d_uint16 (VInt 0).
Definition e_first : elems := elems_number "first" d_uint16 1.
Definition d_first : dtype := DElems KSequence e_first d_uint16.

Lemma first_regular : everywhere regular d_first.
Proof. apply regular_check; vm_compute; reflexivity. Qed.
Lemma first_created : create demo d_first None = Ok (Some (the_map d_first)).
Proof. vm_compute. reflexivity. Qed.
Lemma first_maps : maps demo 20 (the_map d_first) until_bytes 1 [] 0 (VTuple [VInt 1]) 2.
Proof. eexists. split; vm_compute; reflexivity. Qed.
Lemma rest_maps : maps demo 20 (the_map d_until) until_bytes 3 [] 0 (VTuple [VInt 2; VInt 0]) 4.
Proof. eexists. split; vm_compute; reflexivity. Qed.

Lemma first_asks : asks_for demo e_first d_uint16 [] [VInt 1].
Proof. left. split; [reflexivity|]. split; [reflexivity|]. left. split; [discriminate|split; [reflexivity|discriminate]]. Qed.
Lemma rest_asks : asks_for demo e_until d_uint16 [] [VInt 2; VInt 0].
Proof.
  right. left. split; [reflexivity|]. exists (VInt 0), [VInt 2], (VInt 0). split; [reflexivity|]. split; [reflexivity|].
  split; [repeat constructor|reflexivity].
Qed.
Lemma until_asks : asks_for demo e_until d_uint16 [] ([VInt 1] ++ [VInt 2; VInt 0]).
Proof.
  right. left. split; [reflexivity|]. exists (VInt 0), [VInt 1; VInt 2], (VInt 0). split; [reflexivity|]. split; [reflexivity|].
  split; [repeat constructor|reflexivity].
Qed.

Definition e_letter : elems := elems_number "letter" d_uint8 1.
Definition d_letter : dtype := DElems KStream e_letter d_uint8.
Lemma letter_regular : everywhere regular d_letter.
Proof. apply regular_check; vm_compute; reflexivity. Qed.
Lemma letter_created : create demo d_letter None = Ok (Some (the_map d_letter)).
Proof. vm_compute. reflexivity. Qed.
Lemma letter_asks : asks_for_bytes demo e_letter d_uint8 [] (bs [104]).
Proof.
  left. split; [intros [_ [H|H]]; discriminate H|]. right. split; [reflexivity|]. exists 1, 1. split; [reflexivity|].
  split; [left; split; [discriminate|split; [reflexivity|discriminate]]|reflexivity].
Qed.
Lemma letters_asks : asks_for_bytes demo e_word d_char [] (bs [105; 0]).
Proof.
  right. split; [split; [reflexivity|left; reflexivity]|]. exists (bs [0]), 1. split; [reflexivity|]. split; [|reflexivity].
  split; [discriminate|]. split; [vm_compute; reflexivity|]. intros j Hj. assert (J : j = 0) by lia. subst j. vm_compute. discriminate.
Qed.
