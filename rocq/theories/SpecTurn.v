(** Specification vocabulary for definitions in the other byte order. *)
From Coq Require Import String List ZArith Bool.
From Verif Require Import Base PyVal PyStruct DataTypes ClassFactory DataMaps SpecPrim SpecMap SpecCreate SpecWrites.
Import ListNotations.
Open Scope Z_scope.

Definition turned_order (bo : byte_order) : byte_order :=
  match bo with BOBig => BOLittle | BOLittle => BOBig | BONative => BONative end.

Definition turned_fixed (f : fixed) : fixed := mkFixed (f_meta f) (turned_order (f_bo f)) (f_size f) (f_units f).

(** The definition with little-endian for big-endian and the other way around, at
    any depth.  What has no byte order of its own still has none. *)
Fixpoint turned (d : dtype) : dtype :=
  match d with
  | DBoolean f fv tv => DBoolean (turned_fixed f) fv tv
  | DCharacter f => DCharacter (turned_fixed f)
  | DFloat f => DFloat (turned_fixed f)
  | DInteger f u => DInteger (turned_fixed f) u
  | DUUID f => DUUID (turned_fixed f)
  | DPadding m bo a => DPadding m (turned_order bo) a
  | DElems k e el =>
      DElems k (mkElems (e_meta e) (turned_order (e_bo e)) (e_data_size e) (e_data_size_expr e) (e_data_type e)
                  (e_terminator e) (e_number e) (e_number_expr e) (e_encoding e)) (turned el)
  | DStructure m bo ms => DStructure m (turned_order bo) (map turned ms)
  | DUnion m bo ms => DUnion m (turned_order bo) (map turned ms)
  | DMember m bo c dt vs i => DMember m (turned_order bo) c dt vs (turned i)
  | DConstant m v => DConstant m v
  | DEnumeration m e => DEnumeration m e
  | DFormat m bo l => DFormat m (option_map turned_order bo) l
  | DFamily m b ms => DFamily m (turned b) (map turned ms)
  | DGroup m bo b i df ms => DGroup m (turned_order bo) (turned b) i (option_map turned df) (map turned ms)
  end.

(** Numbers, booleans and characters. *)
Definition number_part (d : dtype) : option fixed :=
  match d with
  | DInteger f _ | DFloat f | DBoolean f _ _ | DCharacter f => Some f
  | _ => None
  end.

(** [mirrored orc d v b b']: [b] are the bytes of the value [v] of the definition
    [d], and [b'] are those bytes with each number the other way around if it has a
    byte order.  The first three fields of a UUID are numbers, the rest is not.
    Streams, strings and padding stay as they are. *)
Inductive mirrored (orc : oracle) : dtype -> pyval -> bytes -> bytes -> Prop :=
| MirrorNumber : forall d f v b,
    number_part d = Some f -> f_size f = Some (len b) ->
    mirrored orc d v b (match f_bo f with BONative => b | _ => rev b end)
| MirrorUUID : forall f v b b',
    swap_fields b = Some b' -> mirrored orc (DUUID f) v b b'
| MirrorBytes : forall d vals v b,
    match d with DPadding _ _ _ | DElems KStream _ _ | DElems KString _ _ => True | _ => False end ->
    writes orc d vals v b ->
    mirrored orc d v b b
| MirrorSequence : forall e el v b b',
    mirrored_elements orc (element_type e el) b b' ->
    mirrored orc (DElems KSequence e el) v b b'
| MirrorStructure : forall mt bo ms v b b',
    mirrored_members orc (m_name mt) bo v ms b b' ->
    mirrored orc (DStructure mt bo ms) v b b'

with mirrored_elements (orc : oracle) : dtype -> bytes -> bytes -> Prop :=
| MirrorNoElement : forall d, mirrored_elements orc d [] []
| MirrorElement : forall d v b b' r r',
    mirrored orc d v b b' -> mirrored_elements orc d r r' ->
    mirrored_elements orc d (b ++ r) (b' ++ r')

(** Members that are None or of a kind that has no map have no bytes. *)
with mirrored_members (orc : oracle) : string -> byte_order -> pyval -> list dtype -> bytes -> bytes -> Prop :=
| MirrorNoMember : forall cls bo v, mirrored_members orc cls bo v [] [] []
| MirrorAbsent : forall cls bo v m ms b b',
    (py_getattr v (dt_name m) = VNone \/
     match used_type cls bo m with DUnion _ _ _ | DFamily _ _ _ | DMember _ _ _ _ _ _ => True | _ => False end) ->
    mirrored_members orc cls bo v ms b b' ->
    mirrored_members orc cls bo v (m :: ms) b b'
| MirrorPresent : forall cls bo v m ms b b' r r',
    py_getattr v (dt_name m) <> VNone ->
    mirrored orc (used_type cls bo m) (py_getattr v (dt_name m)) b b' ->
    mirrored_members orc cls bo v ms r r' ->
    mirrored_members orc cls bo v (m :: ms) (b ++ r) (b' ++ r').
