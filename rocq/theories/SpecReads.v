(** A reference reading of byte streams: which value a definition describes at an
    offset, and how many bytes it takes, in terms of the definition alone.  No
    map, loop, struct format, context or fuel occurs here. *)
From Coq Require Import String Ascii List ZArith Bool.
From Verif Require Import Base PyVal PyStruct DataTypes ClassFactory DataMaps SpecPrim SpecMap SpecCreate.
Import ListNotations.
Open Scope Z_scope.

(** ** Single precision numbers as Python floats *)

(** The magnitude of a finite single in units of the smallest subnormal,
    2^-149. *)
Definition single_units (b : Z) : Z :=
  if single_exponent b =? 0 then single_mantissa b
  else (2 ^ 23 + single_mantissa b) * 2 ^ (single_exponent b - 1).

(** The double [w] is the single [b]: the same sign, and the same number, or
    infinity, or a quiet NaN with the same payload. *)
Definition widened (b w : Z) : Prop :=
  0 <= w < 2 ^ 64 /\ w / 2 ^ 63 = b / 2 ^ 31 /\
  (single_exponent b <> 255 ->
     finite_double w /\ double_units w = single_units b * 2 ^ (1074 - 149)) /\
  (single_exponent b = 255 ->
     double_exponent w = 2047 /\
     double_mantissa w =
       if single_mantissa b =? 0 then 0
       else (2 ^ 22 + single_mantissa b mod 2 ^ 22) * 2 ^ (52 - 23)).

(** ** Definitions *)

(** The number of bytes taken up by consecutive elements, each given with its own
    number of bytes. *)
Definition span (rs : list (pyval * Z)) : Z := fold_right (fun r a => snd r + a) 0 rs.

(** [selects identifier default ms id d]: the group members [ms] or the default
    provide the definition [d] for the identifier value [id]. *)
Definition selects (identifier : string) (default : option dtype) (ms : list dtype)
    (id : pyval) (d : dtype) : Prop :=
  let has x := exists vs w, lists identifier x vs /\ In w vs /\ py_eq id w = true in
  (exists before after, ms = before ++ d :: after /\ has d /\ Forall (fun x => ~ has x) before) \/
  (Forall (fun x => ~ has x) ms /\ default = Some d).

(** [reads orc bs d off vals v n]: at offset [off] of [bs] the definition [d]
    describes the value [v], which takes [n] bytes; expressions see [vals]. *)
Inductive reads (orc : oracle) (bs : bytes) : dtype -> Z -> env -> pyval -> Z -> Prop :=
| ReadInteger : forall f u n off vals,
    In n [1; 2; 4; 8] -> sized f n -> off + n <= len bs ->
    reads orc bs (DInteger f u) off vals
      (VInt (stored_integer (negb u) (order_on (o_host orc) (f_bo f)) (window bs off n))) n
| ReadDouble : forall f off vals,
    sized f 8 -> off + 8 <= len bs ->
    reads orc bs (DFloat f) off vals
      (VFloat (stored_number (order_on (o_host orc) (f_bo f)) (window bs off 8))) 8
| ReadSingle : forall f w off vals,
    sized f 4 -> off + 4 <= len bs ->
    widened (stored_number (order_on (o_host orc) (f_bo f)) (window bs off 4)) w ->
    reads orc bs (DFloat f) off vals (VFloat w) 4
| ReadBoolean : forall f fv tv n b off vals,
    In n [1; 2; 4] -> sized f n -> off + n <= len bs ->
    (let z := stored_number (order_on (o_host orc) (f_bo f)) (window bs off n) in
     if b : bool then stands_for_true fv tv z else stands_for_false fv tv z) ->
    reads orc bs (DBoolean f fv tv) off vals (VBool b) n
| ReadCharacter : forall f n z off vals,
    In n [1; 2; 4] -> sized f n -> off + n <= len bs ->
    z = stored_integer true (order_on (o_host orc) (f_bo f)) (window bs off n) -> code_point z ->
    reads orc bs (DCharacter f) off vals (VStr [z]) n
| ReadUUID : forall f v off vals,
    sized f 16 -> off + 16 <= len bs ->
    match f_bo f with
    | BOBig => v = VUUID (window bs off 16)
    | BOLittle => exists u, swap_fields (window bs off 16) = Some u /\ v = VUUID u
    | BONative => v = VNone
    end ->
    reads orc bs (DUUID f) off vals v 16
| ReadPadding : forall mt bo a n off vals,
    0 < a -> aligns a off n -> off + n <= len bs ->
    reads orc bs (DPadding mt bo (Some a)) off vals (VBytes (window bs off n)) n
(* a sequence with a number of elements *)
| ReadCounted : forall e el rs off vals,
    has_data_size e = false -> e_terminator e = None ->
    measure orc (e_number e) (e_number_expr e) vals (len rs) ->
    reads_elements orc bs (element_type e el) off rs ->
    reads orc bs (DElems KSequence e el) off vals (VTuple (map fst rs)) (span rs)
(* up to and including the first element that equals the terminator *)
| ReadTerminated : forall e el t rs w k off vals,
    has_data_size e = false -> e_terminator e = Some t ->
    Forall (fun r => py_eq (fst r) t = false) rs -> py_eq w t = true ->
    reads_elements orc bs (element_type e el) off (rs ++ [(w, k)]) ->
    reads orc bs (DElems KSequence e el) off vals (VTuple (map fst rs ++ [w])) (span rs + k)
(* as many elements of a known size as fit into the data size, each of them
   starting inside it *)
| ReadSized : forall e el s b rs off vals,
    has_data_size e = true -> get_byte_size el = Some b -> 0 < b ->
    measure orc (e_data_size e) (e_data_size_expr e) vals s -> len rs = s / b ->
    reads_elements orc bs (element_type e el) off rs ->
    (forall before after, rs = before ++ after -> after <> [] -> span before < s) ->
    reads orc bs (DElems KSequence e el) off vals (VTuple (map fst rs)) (span rs)
(* terminated elements up to the data size or an element that is only the
   terminator *)
| ReadSizedVariable : forall e k e' el' s t rs off vals,
    has_data_size e = true -> get_byte_size (DElems k e' el') = None ->
    measure orc (e_data_size e) (e_data_size_expr e) vals s ->
    e_terminator e' = Some t ->
    reads_elements orc bs (element_type e (DElems k e' el')) off rs ->
    (s <= span rs \/ (rs <> [] /\ py_eq (last (map fst rs) VNone) t = true)) ->
    (forall before after, rs = before ++ after -> after <> [] ->
       span before < s /\ (before <> [] -> py_eq (last (map fst before) VNone) t = false)) ->
    reads orc bs (DElems KSequence e (DElems k e' el')) off vals (VTuple (map fst rs)) (span rs)
| ReadStream : forall e el n off vals,
    ~ unsized_stream e el -> stream_size orc e el vals n -> off + n <= len bs ->
    reads orc bs (DElems KStream e el) off vals (VBytes (window bs off n)) n
| ReadStreamTerminated : forall e el t k off vals,
    unsized_stream e el -> e_terminator e = Some (VBytes t) -> first_at t bs off k ->
    reads orc bs (DElems KStream e el) off vals
      (VBytes (window bs off ((k + 1) * len t))) ((k + 1) * len t)
| ReadString : forall e el l r s n off vals,
    reads orc bs (DElems KStream e el) off vals (VBytes l) n ->
    text_part (e_terminator e) l r -> o_decode orc (e_encoding e) r = Some s ->
    reads orc bs (DElems KString e el) off vals (VStr s) n
| ReadStructure : forall mt bo ms rs off vals,
    reads_members orc bs (m_name mt) bo (map dt_name ms) vals [] ms off rs ->
    reads orc bs (DStructure mt bo ms) off vals
      (VStruct (m_name mt) (combine (map dt_name ms) (map value_of rs))) (total rs)
| ReadGroup : forall mt bo base identifier default ms b k d v n off vals,
    reads orc bs base off [] b k -> py_getattr b identifier <> VNone ->
    selects identifier default ms (py_getattr b identifier) d ->
    reads orc bs d off [] v n ->
    reads orc bs (DGroup mt bo base identifier default ms) off vals v n

(** Consecutive elements, each starting inside the stream. *)
with reads_elements (orc : oracle) (bs : bytes) : dtype -> Z -> list (pyval * Z) -> Prop :=
| ReadNoElement : forall d off, reads_elements orc bs d off []
| ReadElement : forall d off v n rs,
    off < len bs -> reads orc bs d off [] v n -> reads_elements orc bs d (off + n) rs ->
    reads_elements orc bs d off ((v, n) :: rs)

(** [reads_members ... done ms off rs]: the members [ms] of a structure of class
    [cls], after those read as [done], are read as [rs].  Conditions and nested
    expressions see the structure with the members read so far; the others are
    None. *)
with reads_members (orc : oracle) (bs : bytes)
    : string -> byte_order -> list string -> env -> list reading -> list dtype -> Z -> list reading -> Prop :=
| ReadNoMember : forall cls bo names vals done off,
    reads_members orc bs cls bo names vals done [] off []
| ReadPresent : forall cls bo names vals done m ms off v n rs,
    condition_is orc m (scope cls (partly cls names done) vals) true ->
    reads orc bs (used_type cls bo m) off (scope cls (partly cls names done) vals) v n ->
    allowed m v ->
    reads_members orc bs cls bo names vals (done ++ [Some (v, n)]) ms (off + n) rs ->
    reads_members orc bs cls bo names vals done (m :: ms) off (Some (v, n) :: rs)
| ReadAbsent : forall cls bo names vals done m ms off rs,
    condition_is orc m (scope cls (partly cls names done) vals) false ->
    reads_members orc bs cls bo names vals (done ++ [None]) ms off rs ->
    reads_members orc bs cls bo names vals done (m :: ms) off (None :: rs).

(** ** Definitions for which mapping is the reference reading *)

(** Apart from what the definition refers to: the names in a structure do not hide
    one another and those of its members do not start with an underscore; in a
    structure with a byte order and a name without leading underscore, structures
    of native byte order are nested one deep; the members of a structure that is
    read in one go do not have a byte order that
    differs from that of the structure; the elements of a sequence are of a kind that can be mapped, and a
    fixed data size is a multiple of their size; and the members of a group are
    structures with distinct member names. *)
Definition orderly (d : dtype) : Prop :=
  match d with
  | DStructure mt bo ms =>
      clear_names (m_name mt) (map dt_name ms) /\
      (forall m r, In m ms -> dt_name m <> String.append "_" r) /\
      (forall m mt1 ms1, bo <> BONative -> In m ms -> type_of m = DStructure mt1 BONative ms1 ->
         (exists c r, m_name mt = String c r /\ c <> "_"%char) /\
         forall x mt2 ms2, In x ms1 -> type_of x <> DStructure mt2 BONative ms2) /\
      ((exists m, In m ms /\ (is_composite m = true \/ is_padding m = true)) \/
       (forall m, In m ms -> is_padding (type_of m) = false /\
          forall b, dt_byte_order (type_of m) = Some b -> b = BONative \/ b = bo))
  | DElems KSequence e el =>
      match el with DUnion _ _ _ | DFamily _ _ _ | DMember _ _ _ _ _ _ => False | _ => True end /\
      forall s b, e_data_size e = Some s -> get_byte_size el = Some b -> s mod b = 0
  | DGroup _ _ _ _ _ ms =>
      forall x, In x ms -> exists mt bo l, x = DStructure mt bo l /\ NoDup (map dt_name l)
  | _ => True
  end.

Definition regular (d : dtype) : Prop := sound d /\ orderly d.

(** The number of structures and sequences nested in each other. *)
Fixpoint levels (d : dtype) : Z :=
  match d with
  | DElems KSequence _ el => 1 + levels el
  | DStructure _ _ ms => 1 + fold_right (fun m a => Z.max (levels m) a) 0 ms
  | DMember _ _ _ _ _ i => levels i
  | DGroup _ _ b _ df ms =>
      Z.max (levels b) (Z.max (match df with Some x => levels x | None => 0 end)
        (fold_right (fun m a => Z.max (levels m) a) 0 ms))
  | _ => 0
  end.
