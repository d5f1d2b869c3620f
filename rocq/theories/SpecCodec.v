(** Specification vocabulary for texts and their encodings. *)
From Coq Require Import String List ZArith Bool.
From Verif Require Import Base PyVal PyStruct DataTypes DataMaps Codec.
Import ListNotations.
Open Scope Z_scope.
Open Scope string_scope.
Open Scope list_scope.

(** The encodings under consideration. *)
Definition known (enc : string) : Prop :=
  In enc ["ascii"; "iso-8859-1"; "utf8"; "utf-8"; "utf-16-le"; "utf-16-be"; "utf-32-le"; "utf-32-be"].

(** The size of the smallest piece of an encoded text. *)
Definition unit_size (enc : string) : Z :=
  if in_dec string_dec enc ["utf-16-le"; "utf-16-be"] then 2
  else if in_dec string_dec enc ["utf-32-le"; "utf-32-be"] then 4
  else 1.

(** The code points that an encoding has: all of Unicode but the surrogates for
    the UTF encodings. *)
Definition encodable (enc : string) (c : Z) : Prop :=
  0 <= c /\
  if string_dec enc "ascii" then c <= 127
  else if string_dec enc "iso-8859-1" then c <= 255
  else c <= 1114111 /\ ~ (55296 <= c <= 57343).

(** Python's encode and decode are the ones of [Codec.v] for these encodings. *)
Definition python_codecs (orc : oracle) : Prop :=
  forall enc, known enc ->
    (forall s, o_encode orc enc s = encode enc s) /\ (forall b, o_decode orc enc b = decode enc b).

(** Null bytes. *)
Definition nulls (n : Z) : bytes := repeat (Zbyte 0) (Z.to_nat n).

(** A string with the encoding [enc] that ends with a null character: elements of the
    size of the pieces of the encoding, no data size, no number of elements. *)
Definition null_terminated (e : elems) (ed : dtype) : Prop :=
  e_data_size e = None /\ e_data_size_expr e = None /\ e_number e = None /\ e_number_expr e = None /\
  e_terminator e = Some (VBytes (nulls (unit_size (e_encoding e)))) /\
  get_byte_size ed = Some (unit_size (e_encoding e)).
