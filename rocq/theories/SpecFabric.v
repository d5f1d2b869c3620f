(** Specification vocabulary for the way from definition files to values. *)
From Coq Require Import String Ascii List ZArith Bool.
From Verif Require Import Base PyVal PyStruct DataTypes ClassFactory DataMaps SpecPrim SpecMap SpecCreate SpecReads
  Yaml Reader SpecReader SpecDescribe Fabric.
Import ListNotations.
Open Scope Z_scope.
Local Open Scope string_scope.
Local Open Scope list_scope.

(** * One definition in two representations *)

(** The YAML value is the ASCII text. *)
Definition text (v : yval) (s : string) : Prop :=
  v = Y s /\ Forall (fun c => (nat_of_ascii c < 128)%nat) (list_ascii_of_string s).

Definition opt_text (v : yval) (o : option string) : Prop :=
  match o with None => v = YNull | Some s => text v s end.

(** The bytes of a character in UTF-8 (RFC 3629, 3). *)
Inductive utf8 : Z -> list Z -> Prop :=
| UTF8_1 : forall c, 0 <= c < 128 -> utf8 c [c]
| UTF8_2 : forall c, 128 <= c < 2048 -> utf8 c [192 + c / 64; 128 + c mod 64]
| UTF8_3 : forall c, 2048 <= c < 65536 -> ~ 55296 <= c <= 57343 ->
    utf8 c [224 + c / 4096; 128 + (c / 64) mod 64; 128 + c mod 64]
| UTF8_4 : forall c, 65536 <= c < 1114112 ->
    utf8 c [240 + c / 262144; 128 + (c / 4096) mod 64; 128 + (c / 64) mod 64; 128 + c mod 64].

(** The YAML value is the text with these bytes in UTF-8. *)
Definition unicode_text (v : yval) (s : string) : Prop :=
  exists cs bs, v = YStr cs /\ Forall2 utf8 cs bs /\ map byteZ (list_byte_of_string s) = concat bs.

Definition opt_unicode_text (v : yval) (o : option string) : Prop :=
  match o with None => v = YNull | Some s => unicode_text v s end.

Definition texts (v : yval) (l : list string) : Prop :=
  exists vs, v = YList vs /\ Forall2 text vs l.

(** Both unset, or both set and related. *)
Definition both {A B} (R : A -> B -> Prop) (a : option A) (b : option B) : Prop :=
  match a, b with
  | None, None => True
  | Some a, Some b => R a b
  | _, _ => False
  end.

(** No name is the empty string. *)
Definition same_name (v : yval) (s : string) : Prop :=
  v = YNull /\ s = EmptyString \/ text v s /\ s <> EmptyString.

Definition same_meta (m : rmeta) (m' : meta) : Prop :=
  same_name (rm_name m) (m_name m') /\ texts (rm_aliases m) (m_aliases m') /\ opt_unicode_text (rm_desc m) (m_desc m').

Definition same_order (v : yval) (bo : byte_order) : Prop :=
  v = Y match bo with BONative => "native" | BOBig => "big-endian" | BOLittle => "little-endian" end.

Definition same_size (v : yval) (o : option Z) : Prop :=
  match o with None => v = Y "native" | Some n => v = YInt n end.

Definition same_fixed (f : rfixed) (f' : fixed) : Prop :=
  same_meta (rf_meta f) (f_meta f') /\ same_order (rf_bo f) (f_bo f') /\
  same_size (rf_size f) (f_size f') /\ text (rf_units f) (f_units f').

(** The same Python value. *)
Inductive same_value : yval -> pyval -> Prop :=
| SameNone : same_value YNull VNone
| SameBool : forall b, same_value (YBool b) (VBool b)
| SameInt : forall z, same_value (YInt z) (VInt z)
| SameFloat : forall b, same_value (YFloat b) (VFloat b)
| SameStr : forall s, same_value (YStr s) (VStr s)
| SameBytes : forall b, same_value (YBytes b) (VBytes b).

Definition same_elems (e : relems) (e' : elems) : Prop :=
  same_meta (re_meta e) (e_meta e') /\ same_order (re_bo e) (e_bo e') /\
  re_data_size e = e_data_size e' /\ both text (re_data_size_expr e) (e_data_size_expr e') /\
  both text (Some (re_data_type e)) (e_data_type e') /\ both same_value (re_terminator e) (e_terminator e') /\
  re_number e = e_number e' /\ both text (re_number_expr e) (e_number_expr e') /\
  text (re_encoding e) (e_encoding e').

Definition same_enum (v : renum) (v' : enum_value) : Prop :=
  text (rv_name v) (ev_name v') /\ same_value (rv_number v) (ev_number v') /\
  texts (rv_aliases v) (ev_aliases v') /\ opt_unicode_text (rv_desc v) (ev_desc v').

(** The enumeration that results from adding the values one by one. *)
Inductive adding : enum_def -> list enum_value -> enum_def -> Prop :=
| AddNone : forall en, adding en [] en
| AddOne : forall en v en' vs en'',
    enum_add en v = (Ok tt, en') -> adding en' vs en'' -> adding en (v :: vs) en''.

Definition same_layout (x : yval * yval) (x' : string * option Z) : Prop :=
  text (fst x) (fst x') /\ match snd x' with None => snd x = YNull | Some z => snd x = YInt z end.

(** [same d d']: [d] as read and [d'] as mapped are the same definition, attribute
    by attribute.  Attributes that do not matter to maps (URLs, sections, metadata
    of formats) are left out of [d'].  A boolean read from a file has the false
    value 0 and no true value. *)
Inductive same : rdef -> dtype -> Prop :=
| SameBoolean : forall f f', same_fixed f f' -> same (RBoolean f) (DBoolean f' (Some 0) None)
| SameCharacter : forall f f', same_fixed f f' -> same (RCharacter f) (DCharacter f')
| SameFloating : forall f f', same_fixed f f' -> same (RFloat f) (DFloat f')
| SameInteger : forall f f' format s u,
    same_fixed f f' -> text format s -> (u = true <-> s = "unsigned"%string) ->
    same (RInteger f format) (DInteger f' u)
| SameUUID : forall f f', same_fixed f f' -> same (RUUID f) (DUUID f')
| SamePadding : forall m m' bo bo' n,
    same_meta m m' -> same_order bo bo' -> same (RPadding m bo (YInt n)) (DPadding m' bo' (Some n))
| SameElems : forall k e e' el el', same_elems e e' -> same el el' -> same (RElems k e el) (DElems k e' el')
| SameStructure : forall m m' bo bo' sections ms ms',
    same_meta m m' -> same_order bo bo' -> Forall2 same ms ms' ->
    same (RStructure m bo sections ms) (DStructure m' bo' ms')
| SameUnion : forall m m' bo bo' sections ms ms',
    same_meta m m' -> same_order bo bo' -> Forall2 same ms ms' ->
    same (RUnion m bo sections ms) (DUnion m' bo' ms')
| SameMember : forall m m' bo bo' c c' dt dt' vs vs' d d',
    same_meta m m' -> same_order bo bo' -> opt_text c c' -> opt_text dt dt' ->
    both (Forall2 same_value) vs vs' -> same d d' ->
    same (RMember m bo c dt vs d) (DMember m' bo' c' dt' vs' d')
| SameConstant : forall m m' v v', same_meta m m' -> same_value v v' -> same (RConstant m v) (DConstant m' v')
| SameEnumeration : forall m m' vs vs' en,
    same_meta m m' -> Forall2 same_enum vs vs' -> adding (mkEnum [] [] [] []) vs' en ->
    same (REnumeration m vs) (DEnumeration m' en)
| SameFormat : forall m m' bo bo' l l' metadata,
    same_meta m m' -> both same_order bo bo' -> Forall2 same_layout l l' ->
    same (RFormat m bo l metadata) (DFormat m' bo' l')
| SameFamily : forall m m' b b' ms ms',
    same_meta m m' -> same b b' -> Forall2 same ms ms' -> same (RFamily m b ms) (DFamily m' b' ms')
| SameGroup : forall m m' bo bo' b b' i i' df df' ms ms',
    same_meta m m' -> same_order bo bo' -> same b b' -> text i i' ->
    (df = None <-> df' = None) -> (forall x y, df = Some x -> df' = Some y -> same x y) ->
    Forall2 same ms ms' -> same (RGroup m bo b i df ms) (DGroup m' bo' b' i' df' ms').

(** * Care *)

(** What the format of definition files does not ensure, for one definition apart
    from what it refers to: fixed data sizes and numbers of elements are positive,
    a sequence terminator is not None, the terminator of a stream or string is one
    element, and the data types of the members of a structure can be told apart by
    name. *)
Definition careful (d : dtype) : Prop :=
  match d with
  | DElems k e el =>
      (forall n, e_data_size e = Some n -> 0 < n) /\
      (forall n, e_number e = Some n -> 0 < n) /\
      match k with
      | KSequence => e_terminator e <> Some VNone
      | KStream | KString =>
          forall t, e_terminator e = Some t ->
            exists b, t = VBytes b /\ get_byte_size el = Some (len b) /\ 0 < len b
      end
  | DStructure _ _ _ => well_named d
  | _ => True
  end.
