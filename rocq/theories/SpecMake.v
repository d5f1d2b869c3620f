(** Specification vocabulary: which definitions a data type map can be created
    for. *)
From Coq Require Import String Ascii List ZArith Bool.
From Verif Require Import Base PyVal PyStruct DataTypes ClassFactory DataMaps SpecContainers SpecPrim SpecMap SpecCreate.
Import ListNotations.
Open Scope Z_scope.

(** The definition has a byte order. *)
Definition ordered (d : dtype) : Prop := exists b, dt_byte_order d = Some b.

(** The number of bytes a value of the type takes when it is read together with
    others; None if it cannot be. *)
Definition unit_size (d : dtype) : option Z :=
  let among sizes f :=
    match f_size f with Some n => if existsb (Z.eqb n) sizes then Some n else None | None => None end in
  match d with
  | DBoolean f _ _ | DCharacter f => among [1; 2; 4] f
  | DFloat f => among [4; 8] f
  | DInteger f _ => among [1; 2; 4; 8] f
  | _ => None
  end.

(** Constants and enumerations. *)
Definition semantic (d : dtype) : Prop :=
  match d with DConstant _ _ | DEnumeration _ _ => True | _ => False end.

(** An expression is absent, empty or can be parsed. *)
Definition readable (orc : oracle) (x : option string) : Prop :=
  forall s, x = Some s -> s <> EmptyString -> o_parses orc s = true.

(** The structure is read in one go: no member is composite or padding, and no
    two consecutive byte orders, starting with that of the structure, are
    different and not native. *)
Fixpoint one_go (last : byte_order) (ms : list dtype) : Prop :=
  match ms with
  | [] => True
  | m :: r =>
      is_composite m = false /\ is_padding m = false /\
      forall b, dt_byte_order m = Some b -> (last = BONative \/ b = BONative \/ last = b) /\ one_go b r
  end.

(** The structure can be read in one go: every constant or enumeration comes after
    a member without a unit size, and the members are not larger than a signed 64
    bit number of bytes. *)
Definition one_go_fits (ms : list dtype) : Prop :=
  (forall before m after, ms = before ++ m :: after -> semantic (type_of m) ->
     exists x, In x before /\ unit_size (type_of x) = None) /\
  (forall sizes, Forall2 (fun m n => unit_size (type_of m) = Some n) ms sizes ->
     fold_right Z.add 0 sizes < 2 ^ 63).

(** The sequence is read in one go: the elements are not composite and it has
    neither expressions nor a terminator. *)
Definition seq_one_go (e : elems) (el : dtype) : Prop :=
  is_composite el = false /\ e_data_size_expr e = None /\ e_number_expr e = None /\ e_terminator e = None.

(** The sequence can be read in one go: the elements are no padding, and the data
    is not larger than a signed 64 bit number of bytes. *)
Definition seq_one_go_fits (e : elems) (el : dtype) : Prop :=
  is_padding el = false /\
  forall b, unit_size el = Some b ->
    (forall n, e_data_size e = None -> e_number e = Some n -> n * b < 2 ^ 63) /\
    (forall s b', e_data_size e = Some s -> get_byte_size el = Some b' -> s / b' * b < 2 ^ 63).

(** [identifies identifier d vs]: the member [identifier] of the group member [d]
    lists the values [vs]. *)
Definition identifies (identifier : string) (d : dtype) (vs : list pyval) : Prop := lists identifier d vs.

(** No two of the values are equal. *)
Definition all_different (vs : list pyval) : Prop := ForallOrdPairs (fun a b => py_eq b a = false) vs.

(** The definitions for which creating a map does not fail.  Unions, families and
    members have no map: that is no failure. *)
Inductive mappable (orc : oracle) : dtype -> Prop :=
| MakeBoolean : forall f fv tv, fv <> None \/ tv <> None -> mappable orc (DBoolean f fv tv)
| MakeCharacter : forall f, mappable orc (DCharacter f)
| MakeFloat : forall f, mappable orc (DFloat f)
| MakeInteger : forall f u, mappable orc (DInteger f u)
| MakeUUID : forall f, mappable orc (DUUID f)
| MakePadding : forall m bo a, mappable orc (DPadding m bo a)
| MakeConstant : forall m v, mappable orc (DConstant m v)
| MakeEnumeration : forall m en, mappable orc (DEnumeration m en)
| MakeFormat : forall m bo l, mappable orc (DFormat m bo l)
| MakeUnion : forall m bo ms, mappable orc (DUnion m bo ms)
| MakeFamily : forall m b ms, mappable orc (DFamily m b ms)
| MakeMember : forall m bo c dt vs d, mappable orc (DMember m bo c dt vs d)
| MakeElems : forall k e el,
    ordered el -> mappable orc (element_type e el) ->
    readable orc (e_data_size_expr e) -> readable orc (e_number_expr e) ->
    match k with
    | KSequence => seq_one_go e el -> seq_one_go_fits e el
    | KStream | KString => is_composite el = false
    end ->
    mappable orc (DElems k e el)
| MakeStructure : forall mt bo ms,
    assignable (m_name mt) -> ms <> [] -> Forall SpecContainers.usable (map dt_name ms) ->
    Forall (fun n => forall r, n <> String "_"%char r) (map dt_name ms) ->
    NoDup (map dt_name ms) -> Forall describable ms -> ~ In "self"%string (map dt_name ms) ->
    (forall m, In m ms -> bo = BONative \/ ordered (type_of m)) ->
    (forall m, In m ms -> mappable orc (used_type (m_name mt) bo m)) ->
    (one_go bo ms -> one_go_fits ms) ->
    mappable orc (DStructure mt bo ms)
| MakeGroup : forall m bo base identifier default ms vss,
    (forall d, default = Some d -> mappable orc d) -> mappable orc base -> ms <> [] ->
    Forall2 (identifies identifier) ms vss -> all_different (concat vss) ->
    Forall2 (fun d vs => vs <> [] -> mappable orc d) ms vss ->
    mappable orc (DGroup m bo base identifier default ms).

(** Conditions on a definition, apart from what it refers to, that the reader
    ensures: members of structures have a byte order, and members have different
    names. *)
Definition shaped (d : dtype) : Prop :=
  match d with
  | DStructure _ _ ms => NoDup (map dt_name ms) /\ Forall ordered ms
  | DUnion _ _ ms => NoDup (map dt_name ms)
  | _ => True
  end.

(** The exceptions that creating a map raises for a definition without a map. *)
Definition creation_errors : list exc := [FormatError; AttributeError; SyntaxError; ValueError; TypeError].

(** Unions, families and members have no map. *)
Definition has_map (d : dtype) : Prop :=
  match d with DUnion _ _ _ | DFamily _ _ _ | DMember _ _ _ _ _ _ => False | _ => True end.
