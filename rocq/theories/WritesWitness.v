(** Values that are written and values that are not. *)
From Coq Require Import String Ascii List ZArith Bool Lia.
From Verif Require Import Base PyVal PyStruct DataTypes ClassFactory DataMaps SpecPrim SpecMap SpecCreate SpecReads SpecFold SpecShort SpecWrites
  MapProofs CreateProofs SteadyProofs ReadsProofs WritesProofs Demo DemoProofs ReadsWitness.
Import ListNotations.
Open Scope string_scope.
Open Scope list_scope.
Open Scope Z_scope.

(** A note: a size, a ratio, something extra, as many bytes as the size says, a pair
    of numbers and a name that ends with a zero byte. *)
Definition d_note : dtype :=
  DStructure (meta_of "note") BOLittle
    [member "size" d_uint8;
     member "ratio" (DFloat (fixed_of "ratio" BONative 4));
     member "extra" d_int32be;
     member "data" (DElems KStream (elems_size_expr "data" d_uint8 "note.size") d_uint8);
     member "pair" (DElems KSequence (elems_number "pair" d_uint16 2) d_uint16);
     member "name" (DElems KString (elems_term "name" d_char (VBytes (bs [0]))) d_char)].
(** Nothing extra, an integer for the ratio and a name without the zero byte. *)
Definition note_value : pyval :=
  VStruct "note" [("size", VInt 2); ("ratio", VInt 1); ("extra", VNone); ("data", VBytes (bs [7; 8]));
    ("pair", VTuple [VInt 1; VBool true]); ("name", VStr [104; 105])].
Definition note_bytes : bytes := bs [2; 0; 0; 128; 63; 7; 8; 1; 0; 1; 0; 104; 105; 0].

Lemma note_sound : everywhere sound d_note.
Proof. apply fine_sound. vm_compute. reflexivity. Qed.

Lemma note_created : create demo d_note None = Ok (Some (the_map d_note)).
Proof. vm_compute. reflexivity. Qed.

Lemma note_proper : proper note_value.
Proof. cbn. tauto. Qed.

Lemma note_blobs : blobs d_note note_value.
Proof. cbn. repeat split; auto. right. eexists. reflexivity. Qed.

Lemma note_writes : writes demo d_note [] note_value note_bytes.
Proof.
  apply (folding_writes demo d_note (the_map d_note) note_value (Some (ctx_new [])) note_bytes extensional_demo note_sound note_created
    note_proper eq_refl). vm_compute. reflexivity.
Qed.

(** One byte too few in the data; and no size for them. *)
Definition note_short : pyval :=
  VStruct "note" [("size", VInt 2); ("ratio", VInt 1); ("extra", VNone); ("data", VBytes (bs [7]));
    ("pair", VTuple [VInt 1; VInt 258]); ("name", VStr [104; 105])].
Definition note_sizeless : pyval :=
  VStruct "note" [("size", VNone); ("ratio", VInt 1); ("extra", VNone); ("data", VBytes (bs [7]));
    ("pair", VTuple [VInt 1; VInt 258]); ("name", VStr [104; 105])].

Lemma short_unwritten b : ~ writes demo d_note [] note_short b.
Proof.
  intros W.
  apply (folding_writes demo d_note (the_map d_note) note_short (Some (ctx_new [])) b extensional_demo note_sound note_created
    ltac:(cbn; tauto) eq_refl) in W. vm_compute in W. discriminate.
Qed.

(** The same without an expression. *)
Definition d_card : dtype :=
  DStructure (meta_of "card") BOLittle
    [member "size" d_uint8;
     member "data" (DElems KStream (elems_size "data" d_uint8 2) d_uint8);
     member "pair" (DElems KSequence (elems_number "pair" d_uint16 2) d_uint16)].
Definition card_value (data : pyval) : pyval :=
  VStruct "card" [("size", VInt 2); ("data", data); ("pair", VTuple [VInt 1; VInt 258])].

Lemma card_sound : everywhere sound d_card.
Proof. apply fine_sound. vm_compute. reflexivity. Qed.

Lemma card_created : create demo d_card None = Ok (Some (the_map d_card)).
Proof. vm_compute. reflexivity. Qed.

Lemma card_writable : everywhere writable d_card /\ everywhere fixed_sizes d_card.
Proof. split; cbn; repeat split; auto. Qed.

Lemma card_writes : writes demo d_card [] (card_value (VBytes (bs [7; 8]))) (bs [2; 7; 8; 1; 0; 2; 1]).
Proof.
  apply (folding_writes demo d_card (the_map d_card) (card_value (VBytes (bs [7; 8]))) (Some (ctx_new [])) (bs [2; 7; 8; 1; 0; 2; 1]) extensional_demo card_sound card_created
    ltac:(cbn; tauto) eq_refl). vm_compute. reflexivity.
Qed.

(** A stream that is a number raises TypeError, *)
Lemma folding_stream_refuted : exists d m v,
  everywhere sound d /\ everywhere writable d /\ everywhere fixed_sizes d /\ create demo d None = Ok (Some m) /\ proper v /\
  fst (foldbs demo m v None) = Raise TypeError.
Proof.
  exists d_card, (the_map d_card), (card_value (VInt 3)). split; [exact card_sound|]. destruct card_writable as [W F].
  split; auto. split; auto. split; [exact card_created|]. split; [cbn; tauto|]. vm_compute. reflexivity.
Qed.

(** and so does padding that is a number, *)
Definition d_padded : dtype :=
  DStructure (meta_of "padded") BOLittle [member "size" d_uint8; DPadding (meta_of "pad") BOLittle (Some 2)].

Lemma folding_padding_refuted : exists d m v,
  everywhere sound d /\ everywhere writable d /\ everywhere fixed_sizes d /\ create demo d None = Ok (Some m) /\ proper v /\
  fst (foldbs demo m v None) = Raise TypeError.
Proof.
  exists d_padded, (the_map d_padded), (VStruct "padded" [("size", VInt 2); ("pad", VInt 0)]).
  split; [apply fine_sound; vm_compute; reflexivity|]. split; [cbn; repeat split; auto|]. split; [cbn; repeat split; auto|].
  split; [vm_compute; reflexivity|]. split; [cbn; tauto|]. vm_compute. reflexivity.
Qed.

(** and a tuple of as many values as a stream has bytes is returned as it is. *)
Lemma folding_tuple_refuted : exists d m l,
  everywhere sound d /\ everywhere writable d /\ everywhere fixed_sizes d /\ create demo d None = Ok (Some m) /\ proper (VTuple l) /\
  fst (foldbs demo m (VTuple l) None) = Ok (VTuple l).
Proof.
  exists (DElems KStream (elems_size "data" d_uint8 2) d_uint8), (the_map (DElems KStream (elems_size "data" d_uint8 2) d_uint8)), [VInt 1; VInt 2].
  split; [apply fine_sound; vm_compute; reflexivity|]. split; [cbn; repeat split; auto|]. split; [cbn; repeat split; auto|].
  split; [vm_compute; reflexivity|]. split; [cbn; tauto|]. vm_compute. reflexivity.
Qed.
