(** A letter in both byte orders. *)
From Coq Require Import String List ZArith Bool Lia.
From Verif Require Import Base PyVal PyStruct DataTypes ClassFactory DataMaps Expr Codec Demo SpecPrim SpecMap SpecCreate SpecReads
  SpecFold SpecFits SpecWrites SpecTurn CreateProofs SteadyProofs FoldProofs ReadsProofs FitProofs WritesProofs TurnProofs DemoProofs ReadsWitness.
From Verif Require SpecMake.
Import ListNotations.
Open Scope Z_scope.
Open Scope string_scope.
Open Scope list_scope.

Definition d_word : dtype := DInteger (fixed_of "word" BONative 2) true.

(** A size, a big-endian and a little-endian number, one without a byte order of its
    own if the size is not zero, a UUID, two numbers, as many bytes as the size says
    and a structure of numbers. *)
Definition d_letter : dtype :=
  DStructure (meta_of "letter") BOBig
    [member "size" d_uint8;
     member "sum" d_int32be;
     member "code" d_uint16;
     member_if "port" "letter.size > 0" d_word;
     member "id" (DUUID (fixed_of "uuid" BOLittle 16));
     member "pair" (DElems KSequence (elems_number "pair" d_word 2) d_word);
     member "raw" (DElems KStream (elems_size_expr "raw" d_uint8 "letter.size") d_uint8);
     member "sub" (DStructure (meta_of "sub") BOBig [member "x" d_word; member "y" d_int32be])].

Definition letter_bytes : bytes :=
  bs ([3] ++ [1; 2; 3; 4] ++ [1; 2] ++ [1; 2]
    ++ [1; 2; 3; 4; 5; 6; 7; 8; 9; 10; 11; 12; 13; 14; 15; 16] ++ [1; 0; 2; 0] ++ [65; 66; 67] ++ [1; 2; 1; 2; 3; 4]).
Definition letter_turned : bytes :=
  bs ([3] ++ [4; 3; 2; 1] ++ [2; 1] ++ [2; 1]
    ++ [4; 3; 2; 1; 6; 5; 8; 7; 9; 10; 11; 12; 13; 14; 15; 16] ++ [0; 1; 0; 2] ++ [65; 66; 67] ++ [2; 1; 4; 3; 2; 1]).
Definition letter_value : pyval :=
  VStruct "letter" [("size", VInt 3); ("sum", VInt 16909060); ("code", VInt 513); ("port", VInt 258);
    ("id", VUUID (bs [4; 3; 2; 1; 6; 5; 8; 7; 9; 10; 11; 12; 13; 14; 15; 16]));
    ("pair", VTuple [VInt 1; VInt 2]); ("raw", VBytes (bs [65; 66; 67]));
    ("sub", VStruct "sub" [("x", VInt 258); ("y", VInt 16909060)])].

Lemma letter_regular : everywhere regular d_letter.
Proof. apply regular_check; vm_compute; reflexivity. Qed.

Lemma letter_created : create demo d_letter None = Ok (Some (the_map d_letter)).
Proof. vm_compute. reflexivity. Qed.

Lemma letter_turned_created : create demo (turned d_letter) None = Ok (Some (the_map (turned d_letter))).
Proof. vm_compute. reflexivity. Qed.

Lemma letter_folds_back : folds_back demo d_letter.
Proof.
  cbn. repeat split; try tauto; try discriminate.
Qed.

Lemma letter_no_single : everywhere no_single d_letter.
Proof. cbn. repeat split; auto; discriminate. Qed.

Lemma letter_agrees : sizes_agree demo d_letter [] [] letter_value.
Proof.
  cbn [sizes_agree d_letter member member_if member_in]. repeat split; auto.
  intros _. intros n. apply same_size. intros x [Hx|Hx]; inversion Hx. vm_compute. reflexivity.
Qed.

Lemma letter_maps : maps demo 20 (the_map d_letter) (bs [7] ++ letter_bytes) 1 [] 0 letter_value 38.
Proof. eexists. split; vm_compute; reflexivity. Qed.

Lemma letter_proper : proper letter_value.
Proof. cbn. repeat split. Qed.

Lemma letter_folds : fst (foldbs demo (the_map d_letter) letter_value None) = Ok (VBytes letter_bytes).
Proof. vm_compute. reflexivity. Qed.

Lemma letter_turned_folds : fst (foldbs demo (the_map (turned d_letter)) letter_value None) = Ok (VBytes letter_turned).
Proof. vm_compute. reflexivity. Qed.

Lemma letter_shaped : everywhere SpecMake.shaped d_letter.
Proof.
  cbn. repeat split; repeat constructor; cbn; try (intuition discriminate); try tauto; eexists; reflexivity.
Qed.
