(** Texts and their encodings. *)
From Coq Require Import String Ascii List ZArith Bool Lia.
From Verif Require Import Base Ieee PyVal PyStruct DataTypes ClassFactory DataMaps SpecPrim Demo SpecMap SpecCreate DemoProofs Codec SpecCodec CodecProofs CodecMapProofs CodecWitness DemoProofs.
Import ListNotations.
Open Scope string_scope.
Open Scope list_scope.
Open Scope Z_scope.

(** C58. The texts that an encoding has bytes for are those of its code points. *)
Theorem C58_encodable : forall enc s,
  known enc -> ((exists b, encode enc s = Some b) <-> Forall (encodable enc) s).
Proof. exact CodecMapProofs.encodes. Qed.
Print Assumptions C58_encodable.

Example C58_example_encodable :
  known "utf-16-le" /\ encode "utf-16-le" [65; 233; 128512] = Some (bs [65; 0; 233; 0; 61; 216; 0; 222]) /\
  encode "utf8" [65; 233; 128512] = Some (bs [65; 195; 169; 240; 159; 152; 128]) /\
  encode "ascii" [65; 233] = None /\ encode "utf8" [55296] = None.
Proof.
  split; [cbn; tauto|]. split; [vm_compute; reflexivity|]. split; [vm_compute; reflexivity|].
  split; vm_compute; reflexivity.
Qed.

(** C58. Encoding and decoding are inverse in both directions: no two byte strings decode to the same text. *)
Theorem C58_inverse : forall enc s b,
  known enc -> (encode enc s = Some b <-> decode enc b = Some s).
Proof. exact CodecProofs.encode_decode. Qed.
Print Assumptions C58_inverse.

Example C58_example_inverse :
  decode "utf8" (bs [195; 169]) = Some [233] /\ decode "utf8" (bs [192; 128]) = None /\
  decode "utf-16-be" (bs [216; 61; 222; 0]) = Some [128512] /\ decode "utf-16-be" (bs [216; 61]) = None.
Proof.
  split; [vm_compute; reflexivity|]. split; [vm_compute; reflexivity|]. split; vm_compute; reflexivity.
Qed.

(** C58. A string that ends with a null character maps to a text exactly if the bytes at the offset are the encoded text and a null character, and the text has no null characters. *)
Theorem C58_mapping : forall orc fuel e ed em bs off vals depth,
  python_codecs orc -> known (e_encoding e) -> null_terminated e ed ->
  0 <= off ->
  forall v n, maps orc fuel (MString e ed em) bs off vals depth v n <->
    exists s b, v = VStr s /\ ~ In 0 s /\ encode (e_encoding e) s = Some b /\
      n = len b + unit_size (e_encoding e) /\ window bs off n = b ++ nulls (unit_size (e_encoding e)).
Proof. exact CodecMapProofs.text_maps. Qed.
Print Assumptions C58_mapping.

Example C58_example_mapping :
  python_codecs demo /\ known (e_encoding e_wide) /\ null_terminated e_wide d_wchar /\
  maps demo 9 (MString e_wide d_wchar None) (bs [7; 65; 0; 61; 216; 0; 222; 0; 0; 9]) 1 [] 0 (VStr [65; 128512]) 8.
Proof.
  split; [exact demo_codecs|]. split; [exact wide_known|]. split; [exact wide_null|]. vm_compute. eexists; split; reflexivity.
Qed.

(** C58. A text without null characters folds to the encoded text and a null character, or fails with FoldingError exactly if the encoding does not have all of its characters. *)
Theorem C58_folding : forall orc e ed em vals s,
  python_codecs orc -> known (e_encoding e) -> null_terminated e ed -> ~ In 0 s ->
  let m := MString e ed em in
  (forall r, folds orc m (VStr s) vals r <->
     exists b, encode (e_encoding e) s = Some b /\ r = b ++ nulls (unit_size (e_encoding e))) /\
  (~ Forall (encodable (e_encoding e)) s <-> fold_fails orc m (VStr s) vals FoldingError).
Proof. exact CodecMapProofs.text_fold. Qed.
Print Assumptions C58_folding.

Example C58_example_folding :
  folds demo (MString e_wide d_wchar None) (VStr [65; 128512]) [] (bs [65; 0; 61; 216; 0; 222; 0; 0]) /\
  fold_fails demo (MString e_wide d_wchar None) (VStr [65; 55296]) [] FoldingError.
Proof. split; vm_compute; reflexivity. Qed.

(** C58. A text of characters of the encoding other than null characters folds to bytes that map back to it, whatever precedes and follows. *)
Theorem C58_round_trip : forall orc fuel e ed em vals s pre post depth,
  python_codecs orc -> known (e_encoding e) -> null_terminated e ed -> ~ In 0 s ->
  Forall (encodable (e_encoding e)) s ->
  exists r, folds orc (MString e ed em) (VStr s) vals r /\
    maps orc fuel (MString e ed em) (pre ++ r ++ post) (len pre) vals depth (VStr s) (len r).
Proof. exact CodecMapProofs.text_round_trip. Qed.
Print Assumptions C58_round_trip.

Example C58_example_round_trip :
  ~ In 0 [65; 128512] /\ Forall (encodable "utf-16-le") [65; 128512].
Proof. split; [cbn; lia|repeat constructor; cbn; lia]. Qed.

(** C58. A text that was mapped folds to the very bytes it was mapped from. *)
Theorem C58_bytes : forall orc fuel e ed em bs off vals depth,
  python_codecs orc -> known (e_encoding e) -> null_terminated e ed ->
  0 <= off ->
  forall v n, maps orc fuel (MString e ed em) bs off vals depth v n ->
    folds orc (MString e ed em) v vals (window bs off n).
Proof. exact CodecMapProofs.text_back. Qed.
Print Assumptions C58_bytes.

Example C58_example_bytes :
  maps demo 9 (MString e_wide d_wchar None) (bs [7; 65; 0; 0; 0; 9]) 1 [] 0 (VStr [65]) 4 /\
  folds demo (MString e_wide d_wchar None) (VStr [65]) [] (bs [65; 0; 0; 0]).
Proof. split; [vm_compute; eexists; split; reflexivity|vm_compute; reflexivity]. Qed.

(** C58. A text with a null character in it folds without an error but does not map back. *)
Theorem C58_null_refuted : exists orc e ed em s r, python_codecs orc /\ known (e_encoding e) /\ null_terminated e ed /\
    Forall (encodable (e_encoding e)) s /\ folds orc (MString e ed em) (VStr s) [] r /\
    forall fuel depth n, ~ maps orc fuel (MString e ed em) r 0 [] depth (VStr s) n.
Proof. exact CodecWitness.text_null_refuted. Qed.
Print Assumptions C58_null_refuted.

(** C58. With one-byte elements and a one-byte terminator, a text in UTF-16 folds without an error to bytes that do not map. *)
Theorem C58_unit_refuted : exists orc e ed em s r, python_codecs orc /\ known (e_encoding e) /\
    e_terminator e = Some (VBytes (nulls 1)) /\ get_byte_size ed = Some 1 /\ ~ In 0 s /\
    Forall (encodable (e_encoding e)) s /\ folds orc (MString e ed em) (VStr s) [] r /\
    forall fuel depth, fails orc fuel (MString e ed em) r 0 [] depth MappingError.
Proof. exact CodecWitness.text_unit_refuted. Qed.
Print Assumptions C58_unit_refuted.
