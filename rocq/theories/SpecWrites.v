(** A reference writing of values: which bytes a definition describes for a value,
    in terms of the definition alone.  No map, loop, struct format or context
    occurs here. *)
From Coq Require Import String Ascii List ZArith Bool.
From Verif Require Import Base PyVal PyStruct DataTypes ClassFactory DataMaps SpecPrim SpecMap SpecCreate SpecReads SpecRound SpecFold SpecShort.
Import ListNotations.
Open Scope Z_scope.

(** The double [w] that a Python number is taken for. *)
Definition as_double (v : pyval) (w : Z) : Prop :=
  match v with
  | VFloat b => w = b
  | _ => exists z, as_integer v = Some z /\ ~ too_large_for_double z /\
           nearest_double (integer_number z) w /\ w / 2 ^ 63 = (if z <? 0 then 1 else 0)
  end.

(** [stores en d v b]: the bytes [b] hold the number [v] in the byte order [en], as
    a number of the kind and size of [d]. *)
Inductive stores (en : endian) : dtype -> pyval -> bytes -> Prop :=
| StoreInteger : forall f u n v b,
    In n [1; 2; 4; 8] -> f_size f = Some n -> len b = n ->
    as_integer v = Some (stored_integer (negb u) en b) ->
    stores en (DInteger f u) v b
| StoreBoolean : forall f fv tv n v b,
    In n [1; 2; 4] -> f_size f = Some n -> len b = n ->
    as_integer v = Some (stored_number en b) ->
    stores en (DBoolean f fv tv) v b
| StoreCharacter : forall f n v b,
    In n [1; 2; 4] -> f_size f = Some n -> len b = n ->
    as_integer v = Some (stored_integer true en b) ->
    stores en (DCharacter f) v b
| StoreDouble : forall f v b,
    f_size f = Some 8 -> len b = 8 -> as_double v (stored_number en b) ->
    stores en (DFloat f) v b
| StoreSingle : forall f v w b,
    f_size f = Some 4 -> len b = 4 -> as_double v w -> ~ too_large_for_single w ->
    narrowed w (stored_number en b) ->
    stores en (DFloat f) v b.

(** Numbers one right after the other. *)
Inductive stores_all (en : endian) : list dtype -> list pyval -> bytes -> Prop :=
| StoreNone : stores_all en [] [] []
| StoreNext : forall d ds v vs b bs,
    stores en d v b -> stores_all en ds vs bs ->
    stores_all en (d :: ds) (v :: vs) (b ++ bs).

(** The numbers of a tuple, or those of the bytes of a byte string. *)
Inductive numbers_of : pyval -> list pyval -> Prop :=
| OfTuple : forall l, numbers_of (VTuple l) l
| OfBytes : forall b, numbers_of (VBytes b) (map (fun x => VInt (byteZ x)) b).

(** How many elements a sequence that is written at once has. *)
Definition holds_elements (e : elems) (el : dtype) (k : Z) : Prop :=
  0 < k /\
  ((exists s b, e_data_size e = Some s /\ get_byte_size el = Some b /\ b <> 0 /\ k = s / b) \/
   (e_data_size e = None /\ e_number e = Some k)).

(** [writes orc d vals v b]: the value [v] of the definition [d] is written as [b];
    expressions see [vals]. *)
Inductive writes (orc : oracle) : dtype -> env -> pyval -> bytes -> Prop :=
| WriteNumber : forall d bo vals v b,
    number_type d -> dt_byte_order d = Some bo -> stores (order_on (o_host orc) bo) d v b ->
    writes orc d vals v b
| WriteBoolean : forall f fv tv (x : bool) z vals b,
    (if x then tv else fv) = Some z ->
    stores (order_on (o_host orc) (f_bo f)) (DBoolean f fv tv) (VInt z) b ->
    writes orc (DBoolean f fv tv) vals (VBool x) b
| WriteCharacter : forall f z vals b,
    stores (order_on (o_host orc) (f_bo f)) (DCharacter f) (VInt z) b ->
    writes orc (DCharacter f) vals (VStr [z]) b
| WriteCharacterByte : forall f x vals b,
    stores (order_on (o_host orc) (f_bo f)) (DCharacter f) (VInt (byteZ x)) b ->
    writes orc (DCharacter f) vals (VBytes [x]) b
| WriteUUID : forall f u vals b,
    match f_bo f with
    | BOBig => b = u
    | BOLittle => swap_fields u = Some b
    | BONative => False
    end ->
    writes orc (DUUID f) vals (VUUID u) b
| WritePadding : forall mt bo a vals b,
    writes orc (DPadding mt bo a) vals (VBytes b) b
(* as many numbers as the definition says *)
| WriteSequence : forall e el bo l vals v b,
    at_once (DElems KSequence e el) -> numbers_of v l -> holds_elements e el (len l) ->
    dt_byte_order (element_type e el) = Some bo ->
    stores_all (order_on (o_host orc) bo) (map (fun _ => el) l) l b ->
    writes orc (DElems KSequence e el) vals v b
(* bytes of the given size *)
| WriteStream : forall e el vals b,
    ~ unsized_stream e el -> stream_size orc e el vals (len b) ->
    writes orc (DElems KStream e el) vals (VBytes b) b
(* bytes that end with the terminator, which is added if it is not there *)
| WriteStreamTerminated : forall e el t vals b,
    unsized_stream e el -> e_terminator e = Some (VBytes t) ->
    writes orc (DElems KStream e el) vals (VBytes (b ++ t)) (b ++ t)
| WriteStreamAdded : forall e el t vals b,
    unsized_stream e el -> e_terminator e = Some (VBytes t) -> (forall p, b <> p ++ t) ->
    writes orc (DElems KStream e el) vals (VBytes b) (b ++ t)
| WriteString : forall e el s l vals b,
    o_encode orc (e_encoding e) s = Some l ->
    writes orc (DElems KStream e el) vals (VBytes l) b ->
    writes orc (DElems KString e el) vals (VStr s) b
(* all members, as numbers in the byte order of the structure *)
| WriteStructureOnce : forall mt bo ms vals v b,
    at_once (DStructure mt bo ms) ->
    stores_all (order_on (o_host orc) bo) (map type_of ms) (map (fun m => py_getattr v (dt_name m)) ms) b ->
    writes orc (DStructure mt bo ms) vals v b
| WriteStructure : forall mt bo ms vals v b,
    ~ at_once (DStructure mt bo ms) ->
    writes_members orc (m_name mt) bo v ms b ->
    writes orc (DStructure mt bo ms) vals v b

(** The members of the structure value [v] that are not None, one right after the
    other.  Expressions see the whole structure under the name of its class. *)
with writes_members (orc : oracle) : string -> byte_order -> pyval -> list dtype -> bytes -> Prop :=
| WriteNoMember : forall cls bo v, writes_members orc cls bo v [] []
| WriteAbsent : forall cls bo v m ms b,
    (py_getattr v (dt_name m) = VNone \/
     match used_type cls bo m with DUnion _ _ _ | DFamily _ _ _ | DMember _ _ _ _ _ _ => True | _ => False end) ->
    writes_members orc cls bo v ms b ->
    writes_members orc cls bo v (m :: ms) b
| WritePresent : forall cls bo v m ms b bs,
    py_getattr v (dt_name m) <> VNone ->
    writes orc (used_type cls bo m) [(type_name v, v)] (py_getattr v (dt_name m)) b ->
    writes_members orc cls bo v ms bs ->
    writes_members orc cls bo v (m :: ms) (b ++ bs).

(** What the values of the model stand for: floats have 64 bits, UUIDs 16 bytes. *)
Fixpoint proper (v : pyval) : Prop :=
  match v with
  | VFloat b => 0 <= b < 2 ^ 64
  | VUUID b => len b = 16
  | VTuple l => (fix go (l : list pyval) : Prop := match l with [] => True | x :: r => proper x /\ go r end) l
  | VStruct _ attrs =>
      (fix go (l : list (string * pyval)) : Prop :=
         match l with [] => True | (_, x) :: r => proper x /\ go r end) attrs
  | _ => True
  end.

(** ** What folding needs to give bytes or a FoldingError *)

(** Padding and streams inside the value are byte strings. *)
Fixpoint blobs (d : dtype) (v : pyval) : Prop :=
  match d with
  | DPadding _ _ _ | DElems KStream _ _ => exists b, v = VBytes b
  | DStructure _ _ ms =>
      (fix go (l : list dtype) : Prop :=
         match l with
         | [] => True
         | m :: r => (py_getattr v (dt_name m) = VNone \/ blobs m (py_getattr v (dt_name m))) /\ go r
         end) ms
  | DMember _ _ _ _ _ i => blobs i v
  | _ => True
  end.

(** Not a sequence that is read element by element, nor a UUID in native byte order. *)
Definition writable (d : dtype) : Prop :=
  match d with
  | DUUID f => f_bo f <> BONative
  | DElems KSequence _ _ => at_once d
  | _ => True
  end.
