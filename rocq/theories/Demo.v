(** Concrete definitions used by the examples. *)
From Coq Require Import String List ZArith Bool.
From Verif Require Import Base PyVal PyStruct DataTypes DataMaps Expr Codec.
Import ListNotations.
Open Scope Z_scope.

(** A little-endian host with the evaluator of Expr.v and the codecs of
    Codec.v. *)
Definition demo : oracle := mkOracle Little expr_eval expr_parses encode decode.

Definition bs (l : list Z) : bytes := map Zbyte l.

Definition meta_of (n : string) : meta := mkMeta n [] None.
Definition fixed_of (n : string) (bo : byte_order) (size : Z) : fixed :=
  mkFixed (meta_of n) bo (Some size) "bytes".

Definition d_uint8 : dtype := DInteger (fixed_of "uint8" BOLittle 1) true.
Definition d_uint16 : dtype := DInteger (fixed_of "uint16" BOLittle 2) true.
Definition d_uint32 : dtype := DInteger (fixed_of "uint32" BOLittle 4) true.
Definition d_int32be : dtype := DInteger (fixed_of "int32be" BOBig 4) false.
Definition d_char : dtype := DCharacter (fixed_of "char" BOLittle 1).

(** A member with a data type. *)
Definition member (n : string) (d : dtype) : dtype :=
  DMember (meta_of n) BONative None (Some (dt_name d)) None d.
Definition member_if (n cond : string) (d : dtype) : dtype :=
  DMember (meta_of n) BONative (Some cond) (Some (dt_name d)) None d.
Definition member_in (n : string) (vs : list pyval) (d : dtype) : dtype :=
  DMember (meta_of n) BONative None (Some (dt_name d)) (Some vs) d.

Definition no_elems (n : string) (bo : byte_order) (d : dtype) : elems :=
  mkElems (meta_of n) bo None None (Some (dt_name d)) None None None "utf8".
Definition elems_size (n : string) (d : dtype) (size : Z) : elems :=
  mkElems (meta_of n) BOLittle (Some size) None (Some (dt_name d)) None None None "utf8".
Definition elems_size_expr (n : string) (d : dtype) (x : string) : elems :=
  mkElems (meta_of n) BOLittle None (Some x) (Some (dt_name d)) None None None "utf8".
Definition elems_number (n : string) (d : dtype) (k : Z) : elems :=
  mkElems (meta_of n) BOLittle None None (Some (dt_name d)) None (Some k) None "utf8".
Definition elems_number_expr (n : string) (d : dtype) (x : string) : elems :=
  mkElems (meta_of n) BOLittle None None (Some (dt_name d)) None None (Some x) "utf8".
Definition elems_term (n : string) (d : dtype) (t : pyval) : elems :=
  mkElems (meta_of n) BOLittle None None (Some (dt_name d)) (Some t) None None "utf8".

(** The map of a definition, for computing. *)
Definition the_map (d : dtype) : dmap :=
  match create demo d None with Ok (Some m) => m | _ => MSemantic d end.

(** Mapping at an offset with a fresh context: outcome and reported size. *)
Definition run (d : dtype) (b : bytes) (off : Z) : res pyval * option Z :=
  let '(r, c) := mapbs demo 1000 (the_map d) b off (Some (ctx_new [])) 0 in
  (r, opt_bind c c_byte_size).
