(** Strings of two encodings. *)
From Coq Require Import String List ZArith Bool Lia.
From Verif Require Import Base PyVal PyStruct DataTypes DataMaps Expr Codec Demo SpecPrim SpecMap SpecCodec StreamProofs CodecProofs CodecMapProofs.
Import ListNotations.
Open Scope Z_scope.
Open Scope string_scope.
Open Scope list_scope.

Lemma demo_codecs : python_codecs demo.
Proof. intros enc _. split; reflexivity. Qed.

Definition d_wchar : dtype := DCharacter (fixed_of "wchar" BOLittle 2).

(** A string in UTF-16 of two-byte elements that ends with two null bytes. *)
Definition e_wide : elems :=
  mkElems (meta_of "wide") BOLittle None None (Some "wchar") (Some (VBytes (bs [0; 0]))) None None "utf-16-le".

Lemma wide_null : null_terminated e_wide d_wchar.
Proof. vm_compute. repeat split; reflexivity. Qed.

Lemma wide_known : known (e_encoding e_wide).
Proof. cbn. tauto. Qed.

(** The same with one-byte elements and one null byte. *)
Definition e_bad : elems :=
  mkElems (meta_of "bad") BOLittle None None (Some "char") (Some (VBytes (bs [0]))) None None "utf-16-le".

Lemma text_null_refuted :
  exists orc e ed em s r, python_codecs orc /\ known (e_encoding e) /\ null_terminated e ed /\
    Forall (encodable (e_encoding e)) s /\ folds orc (MString e ed em) (VStr s) [] r /\
    forall fuel depth n, ~ maps orc fuel (MString e ed em) r 0 [] depth (VStr s) n.
Proof.
  exists demo, e_wide, d_wchar, None, [65; 0; 66], (bs [65; 0; 0; 0; 66; 0; 0; 0]).
  split; [exact demo_codecs|]. split; [exact wide_known|]. split; [exact wide_null|].
  split; [repeat constructor; cbn; lia|]. split; [vm_compute; reflexivity|].
  intros fuel depth n M. apply (text_maps _ _ _ _ _ _ _ _ _ demo_codecs wide_known wide_null (Z.le_refl 0)) in M.
  destruct M as (s & b & E & N & _). injection E as <-. apply N. cbn. tauto.
Qed.

Lemma text_unit_refuted :
  exists orc e ed em s r, python_codecs orc /\ known (e_encoding e) /\
    e_terminator e = Some (VBytes (nulls 1)) /\ get_byte_size ed = Some 1 /\ ~ In 0 s /\
    Forall (encodable (e_encoding e)) s /\ folds orc (MString e ed em) (VStr s) [] r /\
    forall fuel depth, fails orc fuel (MString e ed em) r 0 [] depth MappingError.
Proof.
  exists demo, e_bad, d_char, None, [65], (bs [65; 0]).
  split; [exact demo_codecs|]. split; [exact wide_known|]. split; [reflexivity|]. split; [reflexivity|].
  split; [cbn; lia|]. split; [repeat constructor; cbn; lia|]. split; [vm_compute; reflexivity|].
  intros fuel depth. destruct fuel; vm_compute; reflexivity.
Qed.
