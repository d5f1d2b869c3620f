(** The same elements, bytes and texts by terminator, number and data size. *)
From Coq Require Import String List ZArith Bool Lia.
From Verif Require Import Base PyVal PyStruct DataTypes ClassFactory DataMaps Expr Demo DemoProofs.
From Verif Require Import SpecPrim SpecMap SpecCreate SpecReads SpecExtent BytesProofs CreateProofs ReadsWitness.
Import ListNotations.
Open Scope string_scope.
Open Scope list_scope.
Open Scope Z_scope.

Definition d_until : dtype := DElems KSequence (elems_term "until" d_uint16 (VInt 0)) d_uint16.
Definition d_many : dtype := DElems KSequence (elems_number_expr "many" d_uint16 "count + 1") d_uint16.
Definition d_bytes : dtype := DElems KSequence (elems_size "bytes" d_uint16 6) d_uint16.
Definition until_bytes : bytes := bs [9; 1; 0; 2; 0; 0; 0; 5].
Definition until_values : list pyval := [VInt 1; VInt 2; VInt 0].

Lemma until_regular : everywhere regular d_until.
Proof. apply regular_check; vm_compute; reflexivity. Qed.
Lemma many_regular : everywhere regular d_many.
Proof. apply regular_check; vm_compute; reflexivity. Qed.
Lemma bytes_regular : everywhere regular d_bytes.
Proof. apply regular_check; vm_compute; reflexivity. Qed.
Lemma until_created : create demo d_until None = Ok (Some (the_map d_until)).
Proof. vm_compute. reflexivity. Qed.
Lemma many_created : create demo d_many None = Ok (Some (the_map d_many)).
Proof. vm_compute. reflexivity. Qed.
Lemma bytes_created : create demo d_bytes None = Ok (Some (the_map d_bytes)).
Proof. vm_compute. reflexivity. Qed.
Lemma until_maps : maps demo 20 (the_map d_until) until_bytes 1 [] 0 (VTuple until_values) 6.
Proof. eexists. split; vm_compute; reflexivity. Qed.

Lemma many_asks : asks_for demo (elems_number_expr "many" d_uint16 "count + 1") d_uint16 [("count", VInt 2)] until_values.
Proof.
  left. split; [reflexivity|]. split; [reflexivity|]. right. split; [left; reflexivity|]. exists "count + 1". split; [reflexivity|].
  split; [discriminate|]. left. split; [vm_compute; reflexivity|discriminate].
Qed.

Lemma bytes_asks : asks_for demo (elems_size "bytes" d_uint16 6) d_uint16 [] until_values.
Proof.
  right. right. split; [reflexivity|]. exists 6, 2. split; [reflexivity|]. split; [reflexivity|].
  split; [left; split; [discriminate|split; [reflexivity|discriminate]]|reflexivity].
Qed.

(** Strings: terminated, and of a data size with the same terminator. *)
Definition e_word : elems := elems_term "word" d_char (VBytes (bs [0])).
Definition e_fixed_word : elems := mkElems (meta_of "fixed_word") BOLittle (Some 3) None (Some "char") (Some (VBytes (bs [0]))) None None "utf8".
Definition word_bytes : bytes := bs [9; 104; 105; 0; 5].

Lemma word_regular : everywhere regular (DElems KString e_word d_char).
Proof. apply regular_check; vm_compute; reflexivity. Qed.
Lemma fixed_word_regular : everywhere regular (DElems KString e_fixed_word d_char).
Proof. apply regular_check; vm_compute; reflexivity. Qed.
Lemma word_created : create demo (DElems KString e_word d_char) None = Ok (Some (the_map (DElems KString e_word d_char))).
Proof. vm_compute. reflexivity. Qed.
Lemma fixed_word_created : create demo (DElems KString e_fixed_word d_char) None = Ok (Some (the_map (DElems KString e_fixed_word d_char))).
Proof. vm_compute. reflexivity. Qed.
Lemma word_maps : maps demo 20 (the_map (DElems KString e_word d_char)) word_bytes 1 [] 0 (VStr [104; 105]) 3.
Proof. eexists. split; vm_compute; reflexivity. Qed.
Lemma fixed_word_maps : maps demo 20 (the_map (DElems KString e_fixed_word d_char)) word_bytes 1 [] 0 (VStr [104; 105]) 3.
Proof. eexists. split; vm_compute; reflexivity. Qed.

Lemma fixed_word_asks : asks_for_bytes demo e_fixed_word d_char [] (window word_bytes 1 3).
Proof.
  left. split; [intros [H _]; discriminate H|]. left. split; [reflexivity|]. left. split; [discriminate|split; [reflexivity|discriminate]].
Qed.

Lemma word_asks : asks_for_bytes demo e_word d_char [] (window word_bytes 1 3).
Proof.
  right. split; [split; [reflexivity|left; reflexivity]|]. exists (bs [0]), 2. split; [reflexivity|]. split; [|reflexivity].
  split; [discriminate|]. split; [vm_compute; reflexivity|]. intros j Hj. assert (J : j = 0 \/ j = 1) by lia.
  destruct J as [-> | ->]; vm_compute; discriminate.
Qed.

(** Streams: terminated and counted. *)
Lemma stream_regular : everywhere regular (DElems KStream e_word d_char) /\ everywhere regular (DElems KStream (elems_number "raw" d_uint8 3) d_uint8).
Proof. split; apply regular_check; vm_compute; reflexivity. Qed.
Lemma stream_created : create demo (DElems KStream e_word d_char) None = Ok (Some (the_map (DElems KStream e_word d_char))) /\
  create demo (DElems KStream (elems_number "raw" d_uint8 3) d_uint8) None = Ok (Some (the_map (DElems KStream (elems_number "raw" d_uint8 3) d_uint8))).
Proof. split; vm_compute; reflexivity. Qed.
Lemma stream_maps : maps demo 20 (the_map (DElems KStream e_word d_char)) word_bytes 1 [] 0 (VBytes (bs [104; 105; 0])) 3.
Proof. eexists. split; vm_compute; reflexivity. Qed.
Lemma stream_asks : asks_for_bytes demo (elems_number "raw" d_uint8 3) d_uint8 [] (bs [104; 105; 0]).
Proof.
  left. split; [intros [_ [H|H]]; discriminate H|]. right. split; [reflexivity|]. exists 3, 1. split; [reflexivity|].
  split; [left; split; [discriminate|split; [reflexivity|discriminate]]|reflexivity].
Qed.

(** A string of a data size without the terminator keeps it as text. *)
Lemma kept_terminator_refuted : exists e e' el m m' b n v v',
  e_encoding e' = e_encoding e /\
  everywhere regular (DElems KString e el) /\ everywhere regular (DElems KString e' el) /\
  create demo (DElems KString e el) None = Ok (Some m) /\ create demo (DElems KString e' el) None = Ok (Some m') /\
  asks_for_bytes demo e' el [] (window b 0 n) /\
  maps demo 20 m b 0 [] 0 v n /\ maps demo 20 m' b 0 [] 0 v' n /\ v <> v'.
Proof.
  exists e_word, (elems_size "fixed_word" d_char 3), d_char.
  exists (the_map (DElems KString e_word d_char)), (the_map (DElems KString (elems_size "fixed_word" d_char 3) d_char)).
  exists (bs [104; 105; 0]), 3, (VStr [104; 105]), (VStr [104; 105; 0]).
  split; [reflexivity|]. split; [exact word_regular|]. split; [apply regular_check; vm_compute; reflexivity|].
  split; [exact word_created|]. split; [vm_compute; reflexivity|].
  split. { left. split; [intros [H _]; discriminate H|]. left. split; [reflexivity|]. left. split; [discriminate|split; [reflexivity|discriminate]]. }
  split; [eexists; split; vm_compute; reflexivity|]. split; [eexists; split; vm_compute; reflexivity|]. discriminate.
Qed.
