(** dtfabric/runtime/data_maps.py: data type maps. *)
From Coq Require Import String List ZArith Bool Lia.
From Verif Require Import Base Ieee PyVal PyStruct DataTypes ClassFactory.
Import ListNotations.
Open Scope Z_scope.

(** * Environment *)

(** A Python namespace.  As passed to eval, data_maps.py:690-697, 731-736 and
    1753-1758. *)
Definition env := dict pyval.

(** Outcome of [eval(expression, namespace)].  Simplification: expressions are
    pure and do not give floats.  [EvOther] is a result for which [< 0] raises
    TypeError, such as a text or a tuple.  The calls of eval are at
    data_maps.py:697, 736 and 1758. *)
Inductive evres : Type :=
| EvInt (z : Z)
| EvBool (b : bool)
| EvNone
| EvOther
| EvExc.

(** What the model takes from its environment: the byte order of the host,
    evaluation of an expression in a namespace, whether [ast.parse] accepts an
    expression, and [str.encode] / [bytes.decode] per encoding name (None is an
    exception).  They are used at data_maps.py:697, 736 and 1758 (eval), 1533
    (encode), 1579 (decode) and 143-146 (native byte order). *)
Record oracle : Type := mkOracle {
  o_host : endian;
  o_eval : string -> env -> evres;
  o_parses : string -> bool;
  o_encode : string -> list Z -> option bytes;
  o_decode : string -> bytes -> option (list Z) }.

(** * Contexts *)

(** The objects kept under 'mapped_values' in a state: the list of a sequence
    or the instance of a structure.  Kept at data_maps.py:1067 and 1779. *)
Inductive mvals : Type :=
| MVList (l : list pyval)
| MVStruct (v : pyval).

(** The state dict of a context: one field per key that the code uses.  A key
    that is absent and a key that holds None behave alike (.get(key, None)).
    The keys are set at data_maps.py:1063-1068, 1169, 1346, 1377, 1777-1780,
    2344, 2357 and 2379. *)
Record state (C : Type) : Type := mkSt {
  s_attribute_index : option Z;
  s_context : option C;
  s_element_index : option Z;
  s_elements_data_offset : option Z;
  s_elements_data_size : option Z;
  s_mapped_values : option mvals;
  s_members_data_size : option Z;
  s_member_identifier : option pyval;
  s_number_of_elements : option Z }.
Arguments mkSt {C}.
Arguments s_attribute_index {C}.
Arguments s_context {C}.
Arguments s_element_index {C}.
Arguments s_elements_data_offset {C}.
Arguments s_elements_data_size {C}.
Arguments s_mapped_values {C}.
Arguments s_members_data_size {C}.
Arguments s_member_identifier {C}.
Arguments s_number_of_elements {C}.

(** DataTypeMapContext, data_maps.py:17-37.  [c_self] is not a Python
    attribute: it records that the value stored under that key of [c_values] is
    the very structure object that is being filled in (the alias created at
    data_maps.py:1735), so that setattr on the object shows up in the values. *)
Inductive ctx : Type := mkCtx {
  c_byte_size : option Z;
  c_requested_size : option Z;
  c_state : state ctx;
  c_values : env;
  c_self : option string }.

(** The empty state, data_maps.py:36. *)
Definition st_empty {C} : state C :=
  mkSt None None None None None None None None None.

(** DataTypeMapContext(values=values), data_maps.py:27-37. *)
Definition ctx_new (values : env) : ctx := mkCtx None None st_empty values None.

(** Assignment to byte_size, data_maps.py:306, 319, 1037, 1111, 1741 and 1815.
    *)
Definition set_byte_size (b : option Z) (c : ctx) : ctx :=
  mkCtx b (c_requested_size c) (c_state c) (c_values c) (c_self c).
(** Assignment to byte_size and requested_size, data_maps.py:306-307, 588-589,
    1159-1160, 1335-1336 and 1485-1486. *)
Definition set_sizes (b r : option Z) (c : ctx) : ctx :=
  mkCtx b r (c_state c) (c_values c) (c_self c).
(** Assignment to state, data_maps.py:1112, 1186, 1387, 1816, 1968 and 2387. *)
Definition set_state (s : state ctx) (c : ctx) : ctx :=
  mkCtx (c_byte_size c) (c_requested_size c) s (c_values c) (c_self c).
(** Assignment to keys of values, data_maps.py:733 and 1774. *)
Definition set_values (v : env) (c : ctx) : ctx :=
  mkCtx (c_byte_size c) (c_requested_size c) (c_state c) v (c_self c).

(** getattr(context, 'state', {}) and getattr(context, 'values', {}).  As at
    data_maps.py:651, 862, 1025, 1330 and 1725. *)
Definition ctx_state (c : option ctx) : state ctx :=
  match c with Some c => c_state c | None => st_empty end.
(** As at data_maps.py:731 and 1726. *)
Definition ctx_values (c : option ctx) : env :=
  match c with Some c => c_values c | None => [] end.

(** context.byte_size = n; context.state = dict() on success.  As at
    data_maps.py:1110-1112, 1184-1186, 1385-1387, 1814-1816, 1966-1968 and
    2385-2387. *)
Definition ctx_done (n : Z) (c : option ctx) : option ctx :=
  option_map (fun c => set_state st_empty (set_byte_size (Some n) c)) c.

(** * Maps *)

(** The data type map classes.  The definition kept in a map is the one passed
    to the constructor, after byte order propagation.  None as member or
    element map is Python's None (DataTypeMapFactory.CreateDataTypeMapByType for
    a type without a map, data_maps.py:2454-2457). *)
Inductive dmap : Type :=
| MPrim (d : dtype) (op : option structop)
| MUUID (d : dtype)
| MPadding (d : dtype)
| MSequence (linear : bool) (e : elems) (ed : dtype) (em : option dmap) (op : option structop)
| MStream (e : elems) (ed : dtype) (em : option dmap)
| MString (e : elems) (ed : dtype) (em : option dmap)
| MStructure (linear : bool) (d : dtype) (cls : string) (members : list dtype)
    (attrs : list (string * option dmap)) (op : option structop)
| MSemantic (d : dtype)
| MFormat (d : dtype)
| MGroup (d : dtype) (identifier : string) (base : option dmap)
    (default : option dmap) (maps : list (pyval * option dmap)).

Section WithOracle.
Variable orc : oracle.

(** _BYTE_ORDER_STRINGS, data_maps.py:143-146, resolved by struct ('=' is the
    order of the host). *)
Definition resolve (bo : byte_order) : endian :=
  match bo with BOBig => Big | BOLittle => Little | BONative => o_host orc end.

(** * Creation *)

(** The _FORMAT_STRINGS tables: data_maps.py:343-347, 428-432, 476-479,
    497-511, indexed by the size attribute (units are not consulted). *)
Definition prim_code (d : dtype) : option fcode :=
  match d with
  | DBoolean f _ _ =>
      match f_size f with
      | Some 1 => Some CB | Some 2 => Some CH | Some 4 => Some CI | _ => None
      end
  | DCharacter f =>
      match f_size f with
      | Some 1 => Some Cb | Some 2 => Some Ch | Some 4 => Some Ci | _ => None
      end
  | DFloat f =>
      match f_size f with Some 4 => Some Cf | Some 8 => Some Cd | _ => None end
  | DInteger f true =>
      match f_size f with
      | Some 1 => Some CB | Some 2 => Some CH | Some 4 => Some CI | Some 8 => Some CQ
      | _ => None
      end
  | DInteger f false =>
      match f_size f with
      | Some 1 => Some Cb | Some 2 => Some Ch | Some 4 => Some Ci | Some 8 => Some Cq
      | _ => None
      end
  | _ => None
  end.

(** PrimitiveDataTypeMap.__init__ and _GetByteStreamOperation,
    data_maps.py:171-183 and 241-248. *)
Definition prim_op (d : dtype) (bo : byte_order) : res (option structop) :=
  match prim_code d with
  | None => Ok None
  | Some c => let* o := make_op (resolve bo) [(1, c)] in Ok (Some o)
  end.

(** The copy with changed name and byte order made at data_maps.py:795-799 and
    1853-1856. *)
Definition set_name_bo (n : string) (bo : byte_order) (d : dtype) : dtype :=
  let sm (m : meta) := mkMeta n (m_aliases m) (m_desc m) in
  let sf (f : fixed) := mkFixed (sm (f_meta f)) bo (f_size f) (f_units f) in
  match d with
  | DBoolean f fv tv => DBoolean (sf f) fv tv
  | DCharacter f => DCharacter (sf f)
  | DFloat f => DFloat (sf f)
  | DInteger f u => DInteger (sf f) u
  | DUUID f => DUUID (sf f)
  | DPadding m _ a => DPadding (sm m) bo a
  | DElems k e el =>
      DElems k (mkElems (sm (e_meta e)) bo (e_data_size e) (e_data_size_expr e)
                  (e_data_type e) (e_terminator e) (e_number e) (e_number_expr e)
                  (e_encoding e)) el
  | DStructure m _ ms => DStructure (sm m) bo ms
  | DUnion m _ ms => DUnion (sm m) bo ms
  | DMember m _ c dt v d' => DMember (sm m) bo c dt v d'
  | DConstant m v => DConstant (sm m) v
  | DEnumeration m e => DEnumeration (sm m) e
  | DFormat m _ l => DFormat (sm m) (Some bo) l
  | DFamily m b ms => DFamily (sm m) b ms
  | DGroup m _ b i df ms => DGroup (sm m) bo b i df ms
  end.

(** The name and byte order that a copy of a definition gets,
    data_maps.py:795-799 and 1853-1856. *)
Definition override := option (string * byte_order).

(** The copy of the definition, data_maps.py:795-799 and 1853-1856. *)
Definition apply_ov (ov : override) (d : dtype) : dtype :=
  match ov with None => d | Some (n, bo) => set_name_bo n bo d end.

(** The byte order of the copy, data_maps.py:799 and 1856. *)
Definition ov_bo (ov : override) (bo : byte_order) : byte_order :=
  match ov with None => bo | Some (_, b) => b end.

(** The name of the copy, data_maps.py:796-798 and 1854-1855. *)
Definition ov_name (ov : override) (n : string) : string :=
  match ov with None => n | Some (n', _) => n' end.

(** [f'_{outer:s}_{inner:s}'], data_maps.py:796-798 and 1854-1855. *)
Definition prefixed_name (outer inner : string) : string :=
  String.append "_" (String.append outer (String.append "_" inner)).

(** The byte order propagation of _GetElementDataTypeMap,
    data_maps.py:789-799. *)
Definition element_override (e : elems) (ed : dtype) : res override :=
  match dt_byte_order ed with
  | None => Raise AttributeError
  | Some b =>
      if negb (is_native (e_bo e)) && is_native b && negb (is_composite ed)
      then Ok (Some (prefixed_name (m_name (e_meta e)) (dt_name ed), e_bo e))
      else Ok None
  end.

(** ast.parse and compile of the expressions, data_maps.py:629-639. *)
Definition check_expressions (e : elems) : res unit :=
  let ok (x : option string) :=
    match truthy_str x with Some s => o_parses orc s | None => true end in
  if ok (e_data_size_expr e) && ok (e_number_expr e) then Ok tt else Raise SyntaxError.

(** GetStructFormatString of an element or member map: the tables for
    primitives, None for UUID (data_maps.py:198-205) and padding (1458-1465).
    Maps without the method raise AttributeError.  Sequences, streams, strings
    and structures are composite and never asked. *)
Definition map_tokens (m : dmap) : res (option (list (Z * fcode))) :=
  match m with
  | MPrim d _ =>
      Ok (match prim_code d with Some c => Some [(1, c)] | None => None end)
  | MUUID _ | MPadding _ => Ok None
  | MSequence _ _ _ _ _ | MStream _ _ _ | MString _ _ _
  | MStructure _ _ _ _ _ _ => Ok None
  | MSemantic _ | MFormat _ | MGroup _ _ _ _ _ => Raise AttributeError
  end.

(** GetStructByteOrderString of the element map, data_maps.py:909-919 and
    185-196: only storage data type maps have it. *)
Definition map_endian (m : dmap) : res endian :=
  match m with
  | MPrim d _ | MUUID d | MStructure _ d _ _ _ _ =>
      match dt_byte_order d with
      | Some bo => Ok (resolve bo)
      | None => Raise AttributeError
      end
  | MSequence _ e _ _ _ | MStream e _ _ | MString e _ _ => Ok (resolve (e_bo e))
  | MPadding _ | MSemantic _ | MFormat _ | MGroup _ _ _ _ _ => Raise AttributeError
  end.

(** SequenceMap.GetStructFormatString, data_maps.py:1205-1231, for an element
    map: the count of elements and the format of one element. *)
Definition sequence_tokens (e : elems) (ed : dtype) (em : dmap) : res (option (list (Z * fcode))) :=
  let finish (n : option Z) :=
    let* f := map_tokens em in
    match truthy_Z n, f with
    | Some n, Some [(_, c)] => Ok (Some [(n, c)])
    | _, _ => Ok None
    end in
  match truthy_Z (e_data_size e) with
  | Some s =>
      match get_byte_size ed with
      | None => Ok None
      | Some b => if b =? 0 then Raise ZeroDivisionError else finish (Some (s / b))
      end
  | None => finish (e_number e)
  end.

(** _GetByteStreamOperation of a linear sequence, data_maps.py:960 and
    171-183. *)
Definition sequence_op (e : elems) (ed : dtype) (em : option dmap) : res (option structop) :=
  match em with
  | None => Ok None
  | Some em =>
      let* en := map_endian em in
      let* t := sequence_tokens e ed em in
      match t with
      | None => Ok None
      | Some t => let* o := make_op en t in Ok (Some o)
      end
  end.

(** [x is not None], as at data_maps.py:811-831 and 951-954. *)
Definition is_some {A} (o : option A) : bool :=
  match o with Some _ => true | None => false end.

(** The choice between the linear and the composite map, data_maps.py:951-960. *)
Definition sequence_is_linear (e : elems) (ed : dtype) : bool :=
  negb (is_composite ed || is_some (e_data_size_expr e)
        || is_some (e_terminator e) || is_some (e_number_expr e)).

(** The definition inside of a member definition, data_maps.py:1846-1847. *)
Definition unwrap_member (d : dtype) : dtype :=
  match d with DMember _ _ _ _ _ d' => d' | d => d end.

(** Byte order propagation of StructureMap._GetMemberDataTypeMaps,
    data_maps.py:1849-1856. *)
Definition member_override (sname : string) (sbo : byte_order) (inner : dtype) : res override :=
  if is_native sbo then Ok None
  else match dt_byte_order inner with
       | None => Raise AttributeError
       | Some b =>
           if is_native b then Ok (Some (prefixed_name sname (dt_name inner), sbo))
           else Ok None
       end.

(** A call of DataTypeMapFactory.CreateDataTypeMapByType,
    data_maps.py:2444-2459, for a definition and its copies. *)
Definition maker := override -> res (option dmap).

(** The loop of StructureMap._GetMemberDataTypeMaps with its cache by
    definition name, data_maps.py:1841-1873. *)
Fixpoint member_maps (sname : string) (sbo : byte_order)
    (ms : list (dtype * maker)) (cache : dict (option dmap))
    : res (list (string * option dmap)) :=
  match ms with
  | [] => Ok []
  | (m, mk) :: r =>
      let inner := unwrap_member m in
      let* ov := member_override sname sbo inner in
      let nm := ov_name ov (dt_name inner) in
      match dict_get nm cache with
      | Some mp =>
          let* rest := member_maps sname sbo r cache in
          Ok ((dt_name m, mp) :: rest)
      | None =>
          let* mp := mk ov in
          let* rest := member_maps sname sbo r (dict_set nm mp cache) in
          Ok ((dt_name m, mp) :: rest)
      end
  end.

(** isinstance of PaddingDefinition, data_maps.py:1643. *)
Definition is_padding (d : dtype) : bool :=
  match d with DPadding _ _ _ => true | _ => false end.

(** StructureMap._CheckLinearMap, data_maps.py:1638-1655. *)
Fixpoint check_linear (last : byte_order) (ms : list dtype) : res bool :=
  match ms with
  | [] => Ok true
  | m :: r =>
      if is_composite m || is_padding m then Ok false
      else match dt_byte_order m with
           | None => Raise AttributeError
           | Some b =>
               if negb (is_native last) && negb (is_native b) && negb (bo_eqb last b)
               then Ok false
               else check_linear b r
           end
  end.

(** StructureMap.GetStructFormatString, data_maps.py:2038-2059. *)
Fixpoint struct_tokens (attrs : list (string * option dmap)) : res (option (list (Z * fcode))) :=
  match attrs with
  | [] => Ok (Some [])
  | (_, None) :: _ => Ok None
  | (_, Some m) :: r =>
      let* t := map_tokens m in
      match t with
      | None => Ok None
      | Some t =>
          let* u := struct_tokens r in
          match u with None => Ok None | Some u => Ok (Some (t ++ u)) end
      end
  end.

(** _GetByteStreamOperation of a linear structure, data_maps.py:1613 and
    171-183: the byte order is that of the structure. *)
Definition struct_op (bo : byte_order) (attrs : list (string * option dmap)) : res (option structop) :=
  let* t := struct_tokens attrs in
  match t with
  | None | Some [] => Ok None
  | Some t => let* o := make_op (resolve bo) t in Ok (Some o)
  end.

(** StructureMap.__init__, data_maps.py:1590-1616. *)
Definition create_structure (name : string) (bo : byte_order) (d : dtype)
    (ms : list (dtype * maker)) : res dmap :=
  let* cls := create_class name (map fst ms) in
  let* attrs := member_maps name bo ms [] in
  let* lin := check_linear bo (map fst ms) in
  if (lin : bool) then
    let* op := struct_op bo attrs in
    Ok (MStructure true d cls (map fst ms) attrs op)
  else Ok (MStructure false d cls (map fst ms) attrs None).

(** The values listed by the identifier member of a group member,
    data_maps.py:2251-2264. *)
Definition group_member_values (identifier : string) (gm : dtype) : res (list pyval) :=
  match gm with
  | DStructure _ _ ms | DUnion _ _ ms =>
      match find_member identifier ms with
      | None => Raise FormatError
      | Some (DMember _ _ _ _ (Some vs) _) => Ok vs
      | Some (DMember _ _ _ _ None _) => Raise FormatError
      | Some _ => Raise AttributeError
      end
  | _ => Raise AttributeError
  end.

(** Lookup in the dict of maps per identifier, data_maps.py:2267, 2310 and
    2359-2360. *)
Definition val_get {A} (v : pyval) (l : list (pyval * A)) : option A :=
  match find (fun kv => py_eq v (fst kv)) l with Some kv => Some (snd kv) | None => None end.

(** The loop over the values of one group member, data_maps.py:2266-2275. *)
Fixpoint group_values (vs : list pyval) (mk : maker) (acc : list (pyval * option dmap))
    : res (list (pyval * option dmap)) :=
  match vs with
  | [] => Ok acc
  | v :: r =>
      match val_get v acc with
      | Some _ => Raise FormatError
      | None => let* m := mk None in group_values r mk (acc ++ [(v, m)])
      end
  end.

(** The loop over the group members, data_maps.py:2250-2275. *)
Fixpoint group_maps (identifier : string) (ms : list (dtype * maker))
    (acc : list (pyval * option dmap)) : res (list (pyval * option dmap)) :=
  match ms with
  | [] => Ok acc
  | (m, mk) :: r =>
      let* vs := group_member_values identifier m in
      let* acc' := group_values vs mk acc in
      group_maps identifier r acc'
  end.

(** DataTypeMapFactory.CreateDataTypeMapByType, data_maps.py:2443-2459, and the
    constructors of all maps.  [ov] is the pending copy with changed name and
    byte order of the definition, so that [create d ov] is the map of
    [apply_ov ov d]. *)
Fixpoint create (d : dtype) (ov : override) {struct d} : res (option dmap) :=
  match d with
  | DBoolean f fv tv =>
      (* BooleanMap.__init__, data_maps.py:349-364 *)
      match fv, tv with
      | None, None => Raise FormatError
      | _, _ =>
          let* o := prim_op d (ov_bo ov (f_bo f)) in
          Ok (Some (MPrim (apply_ov ov d) o))
      end
  | DCharacter f | DFloat f | DInteger f _ =>
      let* o := prim_op d (ov_bo ov (f_bo f)) in
      Ok (Some (MPrim (apply_ov ov d) o))
  | DUUID _ => Ok (Some (MUUID (apply_ov ov d)))
  | DPadding _ _ _ => Ok (Some (MPadding (apply_ov ov d)))
  | DElems k e el =>
      (* ElementSequenceDataTypeMap.__init__, data_maps.py:615-639, and the
         constructors of SequenceMap (940-960) and StreamMap (1252-1267) *)
      let e' := match apply_ov ov d with DElems _ e' _ => e' | _ => e end in
      let* eov := element_override e' el in
      let* em := create el eov in
      let ed := apply_ov eov el in
      let* _ := check_expressions e' in
      match k with
      | KSequence =>
          if sequence_is_linear e' ed then
            let* o := sequence_op e' ed em in
            Ok (Some (MSequence true e' ed em o))
          else Ok (Some (MSequence false e' ed em None))
      | KStream =>
          if is_composite ed then Raise FormatError else Ok (Some (MStream e' ed em))
      | KString =>
          if is_composite ed then Raise FormatError else Ok (Some (MString e' ed em))
      end
  | DStructure m bo ms =>
      let* s := create_structure (ov_name ov (m_name m)) (ov_bo ov bo) (apply_ov ov d)
        (map (fun m => (m, match m with DMember _ _ _ _ _ i => create i | _ => create m end)) ms) in
      Ok (Some s)
  | DConstant _ _ | DEnumeration _ _ => Ok (Some (MSemantic (apply_ov ov d)))
  | DFormat _ _ _ => Ok (Some (MFormat (apply_ov ov d)))
  | DGroup _ _ base identifier default ms =>
      (* StructureGroupMap.__init__, data_maps.py:2208-2229 *)
      let* df := match default with
                 | Some x => create x None
                 | None => Ok None
                 end in
      let* b := create base None in
      match ms with
      | [] => Raise FormatError
      | _ =>
          let* maps := group_maps identifier (map (fun m => (m, create m)) ms) [] in
          Ok (Some (MGroup (apply_ov ov d) identifier b df maps))
      end
  | DUnion _ _ _ | DFamily _ _ _ | DMember _ _ _ _ _ _ => Ok None
  end.

(** * Mapping *)

(** A bound MapByteStream method: byte stream, byte offset, context, recursion
    depth; the outcome and the context afterwards.  data_maps.py:125-137. *)
Definition mapper := bytes -> Z -> option ctx -> Z -> res pyval * option ctx.

(** BooleanMap.MapValue, data_maps.py:396-420. *)
Definition boolean_map_value (fv tv : option Z) (z : Z) : res pyval :=
  let is (o : option Z) := match o with Some x => x =? z | None => false end in
  if is fv then Ok (VBool false)
  else if is tv then Ok (VBool true)
  else match fv with
       | None => Ok (VBool false)
       | Some _ => match tv with None => Ok (VBool true) | Some _ => Raise ValueError end
       end.

(** MapValue: data_maps.py:323-335, 396-420, 458-470. *)
Definition map_value (d : dtype) (v : pyval) : res pyval :=
  match d, v with
  | DBoolean _ fv tv, VInt z => boolean_map_value fv tv z
  | DCharacter _, VInt z =>
      if (0 <=? z) && (z <=? 1114111) then Ok (VStr [z]) else Raise ValueError
  | _, _ => Ok v
  end.

(** PrimitiveDataTypeMap.MapByteStream, data_maps.py:286-321. *)
Definition map_prim (d : dtype) (op : option structop) : mapper :=
  fun bs off c depth =>
  match get_byte_size d with
  | None => (Raise TypeError, c)
  | Some n =>
      if len bs - off <? n then (Raise ByteStreamTooSmallError, c)
      else
        let c1 := option_map (set_sizes None (Some n)) c in
        let r := match op with
                 | None => Raise AttributeError
                 | Some o =>
                     let* t := read_from o (slice_from bs off) in
                     match t with [v] => map_value d v | _ => Raise TypeError end
                 end in
        match r with
        | Ok v => (Ok v, option_map (set_byte_size (Some n)) c1)
        | Raise _ => (Raise MappingError, c1)
        | OutOfFuel => (OutOfFuel, c1)
        end
  end.

(** The bytes of a UUID from its little-endian layout and back
    (uuid.UUID(bytes_le=...) and UUID.bytes_le).  As at data_maps.py:559 and
    598-599. *)
Definition uuid_swap (b : bytes) : bytes :=
  rev (firstn 4 b) ++ rev (firstn 2 (skipn 4 b)) ++ rev (firstn 2 (skipn 6 b))
  ++ skipn 8 b.

(** UUIDMap.MapByteStream, data_maps.py:568-609. *)
Definition map_uuid (d : dtype) : mapper :=
  fun bs off c depth =>
  match get_byte_size d with
  | None => (Raise TypeError, c)
  | Some n =>
      if len bs - off <? n then (Raise ByteStreamTooSmallError, c)
      else
        let c1 := option_map (set_sizes None (Some n)) c in
        let b := slice bs off (off + 16) in
        let r :=
          match dt_byte_order d with
          | Some BOBig => if len b =? 16 then Ok (VUUID b) else Raise ValueError
          | Some BOLittle => if len b =? 16 then Ok (VUUID (uuid_swap b)) else Raise ValueError
          | _ => Ok VNone
          end in
        match r with
        | Ok v => (Ok v, option_map (set_byte_size (Some n)) c1)
        | Raise _ => (Raise MappingError, c1)
        | OutOfFuel => (OutOfFuel, c1)
        end
  end.

(** PaddingMap.MapByteStream, data_maps.py:1467-1499. *)
Definition map_padding (d : dtype) : mapper :=
  fun bs off c depth =>
  match (match d with DPadding _ _ a => a | _ => None end) with
  | None => (Raise TypeError, c)
  | Some a =>
      if a =? 0 then (Raise ZeroDivisionError, c)
      else
        let p := padding_size a off in
        let c1 := option_map (set_sizes None (Some p)) c in
        if len bs - off <? p then (Raise ByteStreamTooSmallError, c1)
        else (Ok (VBytes (slice bs off (off + p))),
              option_map (set_byte_size (Some p)) c1)
  end.

(** Namespace with an empty __builtins__, data_maps.py:694, 733 and 1755. *)
Definition ns (e : env) : env := dict_set "__builtins__" VBuiltins e.

(** The validity check of a size or count, data_maps.py:702-711 and 741-750. *)
Definition check_size (r : evres) : res Z :=
  match r with
  | EvInt z => if z <? 0 then Raise MappingError else Ok z
  | EvBool b => Ok (Z.b2z b)
  | EvNone | EvOther | EvExc => Raise MappingError
  end.

(** _EvaluateElementsDataSize, data_maps.py:672-711. *)
Definition eval_data_size (e : elems) (values : env) : res Z :=
  match truthy_Z (e_data_size e) with
  | Some n => check_size (EvInt n)
  | None =>
      match truthy_str (e_data_size_expr e) with
      | Some x => check_size (o_eval orc x (ns values))
      | None => Raise MappingError
      end
  end.

(** _EvaluateNumberOfElements, data_maps.py:713-750: evaluating the expression
    stores __builtins__ in the values of the context. *)
Definition eval_number (e : elems) (c : option ctx) : res Z * option ctx :=
  match truthy_Z (e_number e) with
  | Some n => (check_size (EvInt n), c)
  | None =>
      match truthy_str (e_number_expr e) with
      | Some x =>
          (check_size (o_eval orc x (ns (ctx_values c))),
           option_map (fun c => set_values (ns (c_values c)) c) c)
      | None => (Raise MappingError, c)
      end
  end.

(** _HasElementsDataSize, _HasElementsTerminator and _HasNumberOfElements,
    data_maps.py:805-831. *)
Definition has_data_size (e : elems) : bool :=
  is_some (e_data_size e) || is_some (e_data_size_expr e).
(** _HasElementsTerminator, data_maps.py:815-821. *)
Definition has_terminator (e : elems) : bool := is_some (e_terminator e).
(** _HasNumberOfElements, data_maps.py:823-831. *)
Definition has_number (e : elems) : bool :=
  is_some (e_number e) || is_some (e_number_expr e).

(** _CalculateElementsDataSize, data_maps.py:641-670. *)
Definition calc_data_size (e : elems) (ed : dtype) (c : option ctx)
    : res (option Z) * option ctx :=
  match truthy_Z (s_elements_data_size (ctx_state c)) with
  | Some n => (Ok (Some n), c)
  | None =>
      if has_data_size e then
        (res_map Some (eval_data_size e (ctx_values c)), c)
      else if has_number e then
        match get_byte_size ed with
        | None => (Ok None, c)
        | Some b =>
            match s_number_of_elements (ctx_state c) with
            | Some n => (Ok (Some (n * b)), c)
            | None =>
                let '(r, c') := eval_number e c in
                (res_map (fun n => Some (n * b)) r, c')
            end
        end
      else (Ok None, c)
  end.

(** Updates of single state keys.  data_maps.py:1066, 1169 and 1346. *)
Definition upd_data_size (n : option Z) (s : state ctx) : state ctx :=
  mkSt (s_attribute_index s) (s_context s) (s_element_index s)
    (s_elements_data_offset s) n (s_mapped_values s) (s_members_data_size s)
    (s_member_identifier s) (s_number_of_elements s).
(** data_maps.py:1377-1378. *)
Definition upd_data_offset (n : option Z) (s : state ctx) : state ctx :=
  mkSt (s_attribute_index s) (s_context s) (s_element_index s)
    n (s_elements_data_size s) (s_mapped_values s) (s_members_data_size s)
    (s_member_identifier s) (s_number_of_elements s).
(** data_maps.py:2344 and 2379. *)
Definition upd_context (x : option ctx) (s : state ctx) : state ctx :=
  mkSt (s_attribute_index s) x (s_element_index s)
    (s_elements_data_offset s) (s_elements_data_size s) (s_mapped_values s)
    (s_members_data_size s) (s_member_identifier s) (s_number_of_elements s).
(** data_maps.py:1067 and 1779. *)
Definition upd_mapped (x : option mvals) (s : state ctx) : state ctx :=
  mkSt (s_attribute_index s) (s_context s) (s_element_index s)
    (s_elements_data_offset s) (s_elements_data_size s) x
    (s_members_data_size s) (s_member_identifier s) (s_number_of_elements s).
(** data_maps.py:2357. *)
Definition upd_identifier (x : option pyval) (s : state ctx) : state ctx :=
  mkSt (s_attribute_index s) (s_context s) (s_element_index s)
    (s_elements_data_offset s) (s_elements_data_size s) (s_mapped_values s)
    (s_members_data_size s) x (s_number_of_elements s).
(** data_maps.py:1777-1780 and 1804-1807. *)
Definition upd_members (ix mds : option Z) (s : state ctx) : state ctx :=
  mkSt ix (s_context s) (s_element_index s)
    (s_elements_data_offset s) (s_elements_data_size s) (s_mapped_values s)
    mds (s_member_identifier s) (s_number_of_elements s).

(** Assignments to keys of context_state if there is a context,
    data_maps.py:1063-1068, 1777-1780 and 2357. *)
Definition on_state (f : state ctx -> state ctx) (c : option ctx) : option ctx :=
  option_map (fun c => set_state (f (c_state c)) c) c.

(** * Sequences *)

(** Loop variables of SequenceMap._CompositeMapByteStream.
    data_maps.py:1027-1034. *)
Record seqst : Type := mkSeq {
  q_off : Z;
  q_index : Z;
  q_doff : Z;
  q_last : pyval;
  q_vals : list pyval;
  q_sub : ctx }.

(** The subcontext after an element was mapped, data_maps.py:1049-1051. *)
Definition q_set_sub (c : ctx) (s : seqst) : seqst :=
  mkSeq (q_off s) (q_index s) (q_doff s) (q_last s) (q_vals s) c.

(** How the loop ends, data_maps.py:1039-1077. *)
Inductive seqout : Type :=
| LDone (s : seqst)
| LTooSmall (s : seqst)
| LExc (s : seqst)
| LFuel.

(** [element_index == number_of_elements], data_maps.py:1041-1042. *)
Definition opt_eqZ (o : option Z) (z : Z) : bool :=
  match o with Some n => z =? n | None => false end.
(** [elements_data_offset >= elements_data_size], data_maps.py:1045-1046. *)
Definition opt_leZ (o : option Z) (z : Z) : bool :=
  match o with Some n => n <=? z | None => false end.
(** [element_value == elements_terminator], data_maps.py:1058-1059. *)
Definition is_term (t : option pyval) (v : pyval) : bool :=
  match t with Some t => py_eq v t | None => false end.

(** The while loop, data_maps.py:1040-1060. *)
Fixpoint seq_loop (fuel : nat) (f : option mapper) (bs : bytes)
    (number data_size : option Z) (term : option pyval) (depth : Z) (s : seqst) : seqout :=
  match fuel with
  | O => LFuel
  | S k =>
      if is_empty (slice_from bs (q_off s)) then LDone s
      else if opt_eqZ number (q_index s) then LDone s
      else if opt_leZ data_size (q_doff s) then LDone s
      else
        match f with
        | None => LExc s
        | Some f =>
            match f bs (q_off s) (Some (q_sub s)) (depth + 1) with
            | (OutOfFuel, _) => LFuel
            | (Raise ByteStreamTooSmallError, c') =>
                LTooSmall (q_set_sub (opt_default (q_sub s) c') s)
            | (Raise _, c') => LExc (q_set_sub (opt_default (q_sub s) c') s)
            | (Ok v, c') =>
                let sub := opt_default (q_sub s) c' in
                match c_byte_size sub with
                | None => LExc (q_set_sub sub s)
                | Some n =>
                    let s' := mkSeq (q_off s + n) (q_index s + 1) (q_doff s + n) v
                                (q_vals s ++ [v]) sub in
                    if is_term term v then LDone s'
                    else seq_loop k (Some f) bs number data_size term depth s'
                end
            end
        end
  end.

(** The keys stored before ByteStreamTooSmallError is raised,
    data_maps.py:1062-1068, 1080-1086 and 1098-1104. *)
Definition seq_save (number data_size : option Z) (s : seqst) (st : state ctx) : state ctx :=
  mkSt (s_attribute_index st) (Some (q_sub s)) (Some (q_index s)) (Some (q_doff s))
    data_size (Some (MVList (q_vals s))) (s_members_data_size st)
    (s_member_identifier st) number.

(** Objects that came from the state are shared with it, so changes to them
    remain visible when another exception is raised.  They are taken from the
    state at data_maps.py:1030-1031. *)
Definition seq_keep (s : seqst) (st : state ctx) : state ctx :=
  let st1 := match s_context st with Some _ => upd_context (Some (q_sub s)) st | None => st end in
  match s_mapped_values st1 with
  | Some (MVList _) => upd_mapped (Some (MVList (q_vals s))) st1
  | _ => st1
  end.

(** element_data_type_definition.elements_terminator, data_maps.py:1013-1014:
    only element sequence definitions have the attribute. *)
Definition element_terminator (ed : dtype) : res (option pyval) :=
  match ed with
  | DElems _ e _ => Ok (e_terminator e)
  | _ => Raise AttributeError
  end.

(** The determination of number of elements, elements data size and terminator,
    data_maps.py:1001-1025. *)
Definition seq_bounds (e : elems) (ed : dtype) (c : option ctx)
    : res (option Z * option Z * option pyval) * option ctx :=
  let finish (x : option Z * option Z * option pyval) :=
    match x with
    | (None, _, None) => Raise MappingError
    | _ => Ok x
    end in
  if has_data_size e then
    (let* n := eval_data_size e (ctx_values c) in
     match get_byte_size ed with
     | Some b =>
         if b =? 0 then Raise ZeroDivisionError else finish (Some (n / b), Some n, None)
     | None => let* t := element_terminator ed in finish (None, Some n, t)
     end, c)
  else if has_terminator e then (finish (None, None, e_terminator e), c)
  else if has_number e then
    let '(r, c') := eval_number e c in
    (let* n := r in finish (Some n, None, None), c')
  else (Raise MappingError, c).

(** DataTypeMap._MAXIMUM_RECURSION_DEPTH, data_maps.py:64. *)
Definition max_depth : Z := 10.

(** SequenceMap._CompositeMapByteStream, data_maps.py:979-1114.
    Simplification: a state left by a structure map (an instance under
    'mapped_values') is treated as an empty list. *)
Definition map_seq (fuel : nat) (e : elems) (ed : dtype) (f : option mapper) : mapper :=
  fun bs off c depth =>
  if max_depth <? depth then (Raise MappingError, c)
  else
    match seq_bounds e ed c with
    | (Raise x, c1) => (Raise x, c1)
    | (OutOfFuel, c1) => (OutOfFuel, c1)
    | (Ok (number, data_size, term), c1) =>
        let st := ctx_state c1 in
        let s0 := mkSeq off (opt_default 0 (s_element_index st))
                    (opt_default 0 (s_elements_data_offset st)) VNone
                    (match s_mapped_values st with Some (MVList l) => l | _ => [] end)
                    (opt_default (ctx_new []) (s_context st)) in
        let c2 := option_map (set_byte_size None) c1 in
        match seq_loop fuel f bs number data_size term depth s0 with
        | LFuel => (OutOfFuel, c2)
        | LTooSmall s =>
            (Raise ByteStreamTooSmallError, on_state (seq_save number data_size s) c2)
        | LExc s => (Raise MappingError, on_state (seq_keep s) c2)
        | LDone s =>
            if match number with Some n => negb (q_index s =? n) | None => false end then
              (Raise ByteStreamTooSmallError, on_state (seq_save number data_size s) c2)
            else if match term with Some t => negb (py_eq (q_last s) t) | None => false end
                    && match data_size with Some n => q_doff s <? n | None => true end then
              (Raise ByteStreamTooSmallError, on_state (seq_save number data_size s) c2)
            else (Ok (VTuple (q_vals s)), ctx_done (q_doff s) c2)
        end
    end.

(** The tuple of mapped values, data_maps.py:1177 and 1188. *)
Fixpoint map_values (d : dtype) (vs : list pyval) : res (list pyval) :=
  match vs with
  | [] => Ok []
  | v :: r => let* x := map_value d v in let* t := map_values d r in Ok (x :: t)
  end.

(** SequenceMap._LinearMapByteStream, data_maps.py:1137-1188.  The generator of
    mapped values is consumed by tuple() after the context is updated and
    outside of the try block. *)
Definition map_seq_linear (e : elems) (ed : dtype) (em : option dmap) (op : option structop) : mapper :=
  fun bs off c depth =>
  let size := elems_byte_size e (get_byte_size ed) in
  let c1 := option_map (set_sizes None size) c in
  match size with
  | None => (Raise TypeError, c1)
  | Some n =>
      if len bs - off <? n then
        (Raise ByteStreamTooSmallError, on_state (upd_data_size (Some n)) c1)
      else
        match op, em with
        | Some o, Some (MPrim d _) =>
            match read_from o (slice_from bs off) with
            | Ok t => (let* vs := map_values d t in Ok (VTuple vs), ctx_done n c1)
            | Raise _ => (Raise MappingError, c1)
            | OutOfFuel => (OutOfFuel, c1)
            end
        | _, _ => (Raise MappingError, c1)
        end
  end.

(** * Streams *)

(** [byte_stream[a:b] == elements_terminator] for a terminator object.  As at
    data_maps.py:1368 and 1571. *)
Definition bytes_is (b : bytes) (t : pyval) : bool := py_eq (VBytes b) t.

(** The search for the terminator, data_maps.py:1352-1364: the size found (None
    if the loop ran to the end of the byte stream), the last element looked at
    and the offset reached. *)
Fixpoint stream_scan (fuel : nat) (bs : bytes) (esize : Z) (t : pyval) (off doff ndoff : Z)
    (value : bytes) : res (option Z * bytes * Z) :=
  match fuel with
  | O => OutOfFuel
  | S k =>
      if is_empty (slice_from bs doff) then Ok (None, value, doff)
      else if bytes_is value t then Ok (Some (ndoff - off), value, ndoff)
      else stream_scan k bs esize t off ndoff (ndoff + esize) (slice bs ndoff (ndoff + esize))
  end.

(** The number of iterations after which the search has ended if elements have
    a positive size.  The loop is at data_maps.py:1366-1374. *)
Definition scan_fuel (bs : bytes) (off : Z) : nat := S (S (Z.to_nat (len bs - off))).

(** StreamMap.MapByteStream, data_maps.py:1309-1389. *)
Definition map_stream (e : elems) (ed : dtype) : mapper :=
  fun bs off c depth =>
  match calc_data_size e ed c with
  | (Raise x, c1) => (Raise x, c1)
  | (OutOfFuel, c1) => (OutOfFuel, c1)
  | (Ok size, c1) =>
      let c2 := option_map (set_sizes None size) c1 in
      match size with
      | Some n =>
          if len bs - off <? n then
            (Raise ByteStreamTooSmallError, on_state (upd_data_size (Some n)) c2)
          else (Ok (VBytes (slice bs off (off + n))), ctx_done n c2)
      | None =>
          match e_terminator e with
          | None => (Raise MappingError, c2)
          | Some t =>
              match get_byte_size ed with
              | None => (Raise TypeError, c2)
              | Some b =>
                  match stream_scan (scan_fuel bs off) bs b t off off (off + b)
                          (slice bs off (off + b)) with
                  | OutOfFuel => (OutOfFuel, c2)
                  | Raise x => (Raise x, c2)
                  | Ok (found, value, doff) =>
                      if negb (bytes_is value t) then
                        (Raise ByteStreamTooSmallError,
                         on_state (upd_data_offset (Some (doff - off))) c2)
                      else
                        match found with
                        | Some n => (Ok (VBytes (slice bs off (off + n))), ctx_done n c2)
                        | None =>
                            (Raise TypeError,
                             option_map (fun c => set_state st_empty (set_byte_size None c)) c2)
                        end
                  end
              end
          end
      end
  end.

(** [len] of a terminator object.  As at data_maps.py:1294 and 1564. *)
Definition py_len (v : pyval) : res Z :=
  match v with
  | VBytes b => Ok (len b)
  | VStr s => Ok (len s)
  | VTuple l => Ok (len l)
  | _ => Raise TypeError
  end.

(** The loop that finds the terminator in the data of a string,
    data_maps.py:1566-1574: the offset reached. *)
Fixpoint string_cut (fuel : nat) (b : bytes) (t : pyval) (tsize : Z) (off : Z) : res Z :=
  match fuel with
  | O => OutOfFuel
  | S k =>
      if off <? len b then
        if bytes_is (slice b off (off + tsize)) t then Ok off
        else string_cut k b t tsize (off + tsize)
      else Ok off
  end.

(** StringMap.MapByteStream, data_maps.py:1541-1584. *)
Definition map_string (e : elems) (ed : dtype) : mapper :=
  fun bs off c depth =>
  match map_stream e ed bs off c depth with
  | (Ok (VBytes b), c1) =>
      let r :=
        match e_terminator e with
        | None => Ok b
        | Some t =>
            let* n := py_len t in
            let* k := string_cut (S (List.length b)) b t n 0 in
            Ok (slice b 0 k)
        end in
      match r with
      | Ok b' =>
          match o_decode orc (e_encoding e) b' with
          | Some s => (Ok (VStr s), c1)
          | None => (Raise MappingError, c1)
          end
      | Raise x => (Raise x, c1)
      | OutOfFuel => (OutOfFuel, c1)
      end
  | (Ok _, c1) => (Raise MappingError, c1)
  | (Raise x, c1) => (Raise x, c1)
  | (OutOfFuel, c1) => (OutOfFuel, c1)
  end.

(** * Structures *)

(** What the member loop looks at for one member: _attribute_names,
    _data_type_maps and the condition and values of the definition,
    data_maps.py:1744-1750 and 1790. *)
Record attr : Type := mkAttr {
  a_name : string;
  a_map : option mapper;
  a_cond : option string;
  a_vals : option (list pyval) }.

(** data_maps.py:1751. *)
Definition member_cond (d : dtype) : option string :=
  match d with DMember _ _ c _ _ _ => c | _ => None end.
(** data_maps.py:1792 and 1949. *)
Definition member_values (d : dtype) : option (list pyval) :=
  match d with DMember _ _ _ _ v _ => v | _ => None end.

(** [supported_values and value not in supported_values], data_maps.py:1790-1796. *)
Definition unsupported (vs : option (list pyval)) (v : pyval) : bool :=
  match vs with
  | Some (x :: r) => negb (py_in v (x :: r))
  | _ => false
  end.

(** Loop variables of StructureMap._CompositeMapByteStream.
    data_maps.py:1728-1743. *)
Record strst : Type := mkStr {
  t_off : Z;
  t_size : Z;
  t_vals : pyval;
  t_sub : ctx }.

(** How the loop ends, data_maps.py:1745-1801. *)
Inductive strout : Type :=
| RDone (s : strst)
| RTooSmall (index : Z) (s : strst)
| RExc (e : exc) (s : strst)
| RFuel.

(** The subcontext after a member was mapped, data_maps.py:1771-1773. *)
Definition t_set_sub (c : ctx) (s : strst) : strst :=
  mkStr (t_off s) (t_size s) (t_vals s) c.

(** setattr on the structure object is seen through the values that hold it.  As
    at data_maps.py:1735 and 1774. *)
Definition alias_update (v : pyval) (c : ctx) : ctx :=
  match c_self c with
  | Some k => set_values (dict_set k v (c_values c)) c
  | None => c
  end.

(** Evaluation of a condition, data_maps.py:1750-1769. *)
Definition eval_condition (c : option string) (values : env) : res bool :=
  match truthy_str c with
  | None => Ok true
  | Some x => match o_eval orc x (ns values) with EvBool b => Ok b | _ => Raise MappingError end
  end.

(** The loop over the members, data_maps.py:1744-1801. *)
Fixpoint struct_loop (attrs : list attr) (index : Z) (bs : bytes) (depth : Z) (s : strst) : strout :=
  match attrs with
  | [] => RDone s
  | a :: r =>
      match eval_condition (a_cond a) (c_values (t_sub s)) with
      | Raise e => RExc e s
      | OutOfFuel => RFuel
      | Ok false => struct_loop r (index + 1) bs depth s
      | Ok true =>
          match a_map a with
          | None => RExc MappingError s
          | Some f =>
              match f bs (t_off s) (Some (t_sub s)) (depth + 1) with
              | (OutOfFuel, _) => RFuel
              | (Raise ByteStreamTooSmallError, c') =>
                  RTooSmall index (t_set_sub (opt_default (t_sub s) c') s)
              | (Raise _, c') => RExc MappingError (t_set_sub (opt_default (t_sub s) c') s)
              | (Ok v, c') =>
                  let vals := py_setattr (t_vals s) (a_name a) v in
                  let sub := alias_update vals (opt_default (t_sub s) c') in
                  if unsupported (a_vals a) v
                  then RExc MappingError (mkStr (t_off s) (t_size s) vals sub)
                  else
                    match c_byte_size sub with
                    | None => RExc TypeError (mkStr (t_off s) (t_size s) vals sub)
                    | Some n =>
                        struct_loop r (index + 1) bs depth
                          (mkStr (t_off s + n) (t_size s + n) vals sub)
                    end
              end
          end
      end
  end.

(** The keys stored before ByteStreamTooSmallError is raised,
    data_maps.py:1777-1780 and 1804-1807. *)
Definition struct_save (index : Z) (s : strst) (st : state ctx) : state ctx :=
  mkSt (Some index) (Some (t_sub s)) (s_element_index st) (s_elements_data_offset st)
    (s_elements_data_size st) (Some (MVStruct (t_vals s))) (Some (t_size s))
    (s_member_identifier st) (s_number_of_elements st).

(** As [seq_keep].  They are taken from the state at data_maps.py:1729-1730. *)
Definition struct_keep (s : strst) (st : state ctx) : state ctx :=
  let st1 := match s_context st with Some _ => upd_context (Some (t_sub s)) st | None => st end in
  match s_mapped_values st1 with
  | Some (MVStruct _) => upd_mapped (Some (MVStruct (t_vals s))) st1
  | _ => st1
  end.

(** The subcontext, data_maps.py:1734-1738. *)
Definition struct_subcontext (mapped : pyval) (values : env) : ctx :=
  let k := type_name mapped in
  mkCtx None None st_empty (dict_update [(k, mapped)] values)
    (if dict_mem k values then None else Some k).

(** The values mapped so far or a new instance, data_maps.py:1729-1733 and
    2012-2016. *)
Definition struct_values (cls : string) (names : list string) (st : state ctx) : res pyval :=
  match s_mapped_values st with
  | Some (MVStruct v) => Ok v
  | _ => instance cls names []
  end.

(** StructureMap._CompositeMapByteStream, data_maps.py:1703-1818.
    Simplification: a state left by a sequence map (a list under
    'mapped_values') is treated as absent. *)
Definition map_struct (cls : string) (names : list string) (attrs : list attr) : mapper :=
  fun bs off c depth =>
  if max_depth <? depth then (Raise MappingError, c)
  else
    let st := ctx_state c in
    let index := opt_default 0 (s_attribute_index st) in
    match struct_values cls names st with
    | Raise e => (Raise e, c)
    | OutOfFuel => (OutOfFuel, c)
    | Ok mapped =>
        let sub := match s_context st with
                   | Some x => x
                   | None => struct_subcontext mapped (ctx_values c)
                   end in
        let c1 := option_map (set_byte_size None) c in
        let s0 := mkStr off 0 mapped sub in
        if len attrs <=? index then
          (Raise ByteStreamTooSmallError, on_state (struct_save index s0) c1)
        else
          match struct_loop (skipn (Z.to_nat index) attrs) index bs depth s0 with
          | RFuel => (OutOfFuel, c1)
          | RTooSmall i s => (Raise ByteStreamTooSmallError, on_state (struct_save i s) c1)
          | RExc e s => (Raise e, on_state (struct_keep s) c1)
          | RDone s => (Ok (t_vals s), ctx_done (t_size s) c1)
          end
    end.

(** The loop over the unpacked values, data_maps.py:1943-1957. *)
Fixpoint linear_values (members : list dtype) (maps : list (option dmap)) (vs : list pyval)
    : res (list pyval) :=
  match vs with
  | [] => Ok []
  | v :: r =>
      match members, maps with
      | d :: ds, Some (MPrim p _) :: ms =>
          let* x := map_value p v in
          if unsupported (member_values d) x then Raise MappingError
          else let* t := linear_values ds ms r in Ok (x :: t)
      | _, _ => Raise AttributeError
      end
  end.

(** StructureMap._LinearMapByteStream, data_maps.py:1901-1970. *)
Definition map_struct_linear (d : dtype) (cls : string) (members : list dtype)
    (attrs : list (string * option dmap)) (op : option structop) : mapper :=
  fun bs off c depth =>
  let size := get_byte_size d in
  let c1 := option_map (set_sizes None size) c in
  match size with
  | None => (Raise TypeError, c1)
  | Some n =>
      if len bs - off <? n then
        (Raise ByteStreamTooSmallError,
         on_state (upd_members (Some (len attrs)) (Some n)) c1)
      else
        let r :=
          match op with
          | None => Raise AttributeError
          | Some o =>
              let* t := read_from o (slice_from bs off) in
              let* vs := linear_values members (map snd attrs) t in
              instance cls (map fst attrs) vs
          end in
        match r with
        | Ok v => (Ok v, ctx_done n c1)
        | Raise _ => (Raise MappingError, c1)
        | OutOfFuel => (OutOfFuel, c1)
        end
  end.

(** * Structure groups *)

(** [context_state['context'] = subcontext] before ByteStreamTooSmallError is
    re-raised; a subcontext that came from the state is shared with it.
    data_maps.py:2335, 2344, 2367 and 2379. *)
Definition share_context (sub : ctx) (st : state ctx) : state ctx :=
  match s_context st with Some _ => upd_context (Some sub) st | None => st end.

(** The second half of StructureGroupMap.MapByteStream, data_maps.py:2359-2389:
    the member is known. *)
Definition map_group_member (default : option mapper) (maps : list (pyval * option mapper))
    (ident : pyval) : mapper :=
  fun bs off c depth =>
  match (match val_get ident maps with Some m => m | None => default end) with
  | None => (Raise MappingError, c)
  | Some f =>
      let sub := opt_default (ctx_new []) (s_context (ctx_state c)) in
      let c1 := option_map (set_byte_size None) c in
      match f bs off (Some sub) depth with
      | (OutOfFuel, _) => (OutOfFuel, c1)
      | (Raise ByteStreamTooSmallError, c') =>
          (Raise ByteStreamTooSmallError,
           on_state (upd_context (Some (opt_default sub c'))) c1)
      | (Raise _, c') => (Raise MappingError, on_state (share_context (opt_default sub c')) c1)
      | (Ok v, c') =>
          (Ok v,
           option_map (fun x => set_state st_empty
             (set_byte_size (c_byte_size (opt_default sub c')) x)) c1)
      end
  end.

(** StructureGroupMap.MapByteStream, data_maps.py:2316-2389. *)
Definition map_group (identifier : string) (base default : option mapper)
    (maps : list (pyval * option mapper)) : mapper :=
  fun bs off c depth =>
  match s_member_identifier (ctx_state c) with
  | Some ident => map_group_member default maps ident bs off c depth
  | None =>
      let sub := opt_default (ctx_new []) (s_context (ctx_state c)) in
      match base with
      | None => (Raise MappingError, c)
      | Some f =>
          match f bs off (Some sub) depth with
          | (OutOfFuel, _) => (OutOfFuel, c)
          | (Raise ByteStreamTooSmallError, c') =>
              (Raise ByteStreamTooSmallError,
               on_state (upd_context (Some (opt_default sub c'))) c)
          | (Raise _, c') => (Raise MappingError, on_state (share_context (opt_default sub c')) c)
          | (Ok v, c') =>
              let c1 := on_state (share_context (opt_default sub c')) c in
              match py_getattr v identifier with
              | VNone => (Raise MappingError, c1)
              | ident =>
                  map_group_member default maps ident bs off
                    (on_state (upd_identifier (Some ident)) c1) depth
              end
          end
      end
  end.

(** * MapByteStream of every map *)

(** What the loop over the members looks at, data_maps.py:1746-1751 and 1792. *)
Definition attrs_of (members : list dtype) (maps : list (string * option mapper)) : list attr :=
  map (fun x => mkAttr (fst (snd x)) (snd (snd x)) (member_cond (fst x)) (member_values (fst x)))
    (combine members maps).

(** MapByteStream.  [fuel] bounds the number of elements of one sequence that
    are mapped in a call; [OutOfFuel] when it is exhausted.  The methods are at
    data_maps.py:286, 568, 979, 1137, 1313, 1467, 1542, 1703, 1901, 2097, 2160,
    2187 and 2316. *)
Fixpoint mapbs (fuel : nat) (m : dmap) {struct m} : mapper :=
  match m with
  | MPrim d op => map_prim d op
  | MUUID d => map_uuid d
  | MPadding d => map_padding d
  | MSequence true e ed em op => map_seq_linear e ed em op
  | MSequence false e ed em _ =>
      map_seq fuel e ed (match em with Some x => Some (mapbs fuel x) | None => None end)
  | MStream e ed _ => map_stream e ed
  | MString e ed _ => map_string e ed
  | MStructure true d cls ms attrs op => map_struct_linear d cls ms attrs op
  | MStructure false d cls ms attrs _ =>
      map_struct cls (map fst attrs)
        (attrs_of ms
           (map (fun x => (fst x, match snd x with Some y => Some (mapbs fuel y) | None => None end))
              attrs))
  (* SemanticDataTypeMap and FormatMap, data_maps.py:2097-2112 and 2187-2202 *)
  | MSemantic _ | MFormat _ => fun _ _ c _ => (Raise MappingError, c)
  | MGroup _ identifier base default maps =>
      map_group identifier
        (match base with Some x => Some (mapbs fuel x) | None => None end)
        (match default with Some x => Some (mapbs fuel x) | None => None end)
        (map (fun x => (fst x, match snd x with Some y => Some (mapbs fuel y) | None => None end)) maps)
  end.

(** * FoldByteStream *)

(** A bound FoldByteStream method: mapped value and context.
    data_maps.py:110-122. *)
Definition folder := pyval -> option ctx -> res pyval * option ctx.

(** FoldValue: data_maps.py:272-284, 376-394, 444-456. *)
Definition fold_value (d : dtype) (v : pyval) : res pyval :=
  match d with
  | DBoolean _ fv tv =>
      match v, fv, tv with
      | VBool false, Some z, _ => Ok (VInt z)
      | VBool true, _, Some z => Ok (VInt z)
      | _, _, _ => Raise ValueError
      end
  | DCharacter _ =>
      match v with
      | VStr [z] => Ok (VInt z)
      | VBytes [b] => Ok (VInt (byteZ b))
      | _ => Raise TypeError
      end
  | _ => Ok v
  end.

(** [except Exception as exception: raise FoldingError], data_maps.py:267-270,
    1132-1135, 1535-1538 and 1896-1899. *)
Definition folding {A} (r : res A) : res A :=
  match r with Raise _ => Raise FoldingError | x => x end.

(** PrimitiveDataTypeMap.FoldByteStream, data_maps.py:250-270. *)
Definition fold_prim (d : dtype) (op : option structop) : folder :=
  fun v c =>
  (folding (let* x := fold_value d v in
            match op with
            | None => Raise AttributeError
            | Some o => let* b := write_to o [x] in Ok (VBytes b)
            end), c).

(** UUIDMap.FoldByteStream, data_maps.py:540-566. *)
Definition fold_uuid (d : dtype) : folder :=
  fun v c =>
  (match dt_byte_order d, v with
   | Some BOBig, VUUID b => Ok (VBytes b)
   | Some BOLittle, VUUID b => Ok (VBytes (uuid_swap b))
   | Some BOBig, _ | Some BOLittle, _ => Raise FoldingError
   | _, _ => Ok VNone
   end, c).

(** The values of [pack( *value )].  As at byte_operations.py:96. *)
Definition py_iter (v : pyval) : res (list pyval) :=
  match v with
  | VTuple l => Ok l
  | VBytes b => Ok (map (fun x => VInt (byteZ x)) b)
  | VStr s => Ok (map (fun x => VStr [x]) s)
  | _ => Raise TypeError
  end.

(** SequenceMap._LinearFoldByteStream, data_maps.py:1116-1135. *)
Definition fold_seq_linear (op : option structop) : folder :=
  fun v c =>
  (folding (match op with
            | None => Raise AttributeError
            | Some o =>
                let* l := py_iter v in
                let* b := write_to o l in
                Ok (VBytes b)
            end), c).

(** StreamMap.FoldByteStream, data_maps.py:1269-1298. *)
Definition fold_stream (e : elems) (ed : dtype) : folder :=
  fun v c =>
  match calc_data_size e ed c with
  | (Raise x, c1) => (Raise x, c1)
  | (OutOfFuel, c1) => (OutOfFuel, c1)
  | (Ok (Some n), c1) =>
      (let* k := py_len v in if n =? k then Ok v else Raise FoldingError, c1)
  | (Ok None, c1) =>
      (match e_terminator e with
       | None => Raise FoldingError
       | Some t =>
           let* n := py_len t in
           match v with
           | VBytes b =>
               if bytes_is (slice_from b (- n)) t then Ok v
               else match t with
                    | VBytes tb => Ok (VBytes (b ++ tb))
                    | _ => Raise TypeError
                    end
           | VStr s => if py_eq (VStr (slice_from s (- n))) t then Ok v else Raise TypeError
           | VTuple l => if py_eq (VTuple (slice_from l (- n))) t then Ok v else Raise TypeError
           | _ => Raise TypeError
           end
       end, c1)
  end.

(** StringMap.FoldByteStream, data_maps.py:1519-1539. *)
Definition fold_string (e : elems) (ed : dtype) : folder :=
  fun v c =>
  match v with
  | VStr s =>
      match o_encode orc (e_encoding e) s with
      | Some b => fold_stream e ed (VBytes b) c
      | None => (Raise FoldingError, c)
      end
  | _ => (Raise FoldingError, c)
  end.

(** [b''.join(l)].  As at data_maps.py:1296 and 1701. *)
Fixpoint py_join (l : list pyval) : res bytes :=
  match l with
  | [] => Ok []
  | VBytes b :: r => let* t := py_join r in Ok (b ++ t)
  | _ :: _ => Raise TypeError
  end.

(** How the loop over the members ends, data_maps.py:1683-1701. *)
Inductive foldout : Type :=
| FDone (l : list pyval) (sub : ctx)
| FNone (sub : ctx)
| FExc (e : exc) (sub : ctx)
| FFuel.

(** The loop of StructureMap._CompositeFoldByteStream, data_maps.py:1683-1696. *)
Fixpoint fold_loop (attrs : list (string * option folder)) (v : pyval) (acc : list pyval)
    (sub : ctx) : foldout :=
  match attrs with
  | [] => FDone acc sub
  | (n, f) :: r =>
      match f, py_getattr v n with
      | None, _ | _, VNone => fold_loop r v acc sub
      | Some f, x =>
          match f x (Some sub) with
          | (OutOfFuel, _) => FFuel
          | (Raise e, c') => FExc e (opt_default sub c')
          | (Ok VNone, c') => FNone (opt_default sub c')
          | (Ok y, c') => fold_loop r v (acc ++ [y]) (opt_default sub c')
          end
      end
  end.

(** StructureMap._CompositeFoldByteStream, data_maps.py:1657-1701. *)
Definition fold_struct (attrs : list (string * option folder)) : folder :=
  fun v c =>
  let st := ctx_state c in
  let index := opt_default 0 (s_attribute_index st) in
  let sub := match s_context st with Some x => x | None => ctx_new [(type_name v, v)] end in
  match fold_loop (skipn (Z.to_nat index) attrs) v [] sub with
  | FFuel => (OutOfFuel, c)
  | FExc e sub' => (Raise e, on_state (share_context sub') c)
  | FNone sub' => (Ok VNone, on_state (share_context sub') c)
  | FDone l _ =>
      (let* b := py_join l in Ok (VBytes b), option_map (set_state st_empty) c)
  end.

(** StructureMap._LinearFoldByteStream, data_maps.py:1875-1899. *)
Definition fold_struct_linear (names : list string) (op : option structop) : folder :=
  fun v c =>
  (folding (match op with
            | None => Raise AttributeError
            | Some o =>
                let* b := write_to o
                  (filter (fun x => negb (is_VNone x)) (map (py_getattr v) names)) in
                Ok (VBytes b)
            end), c).

(** FoldByteStream of every map.  A composite sequence returns None
    (data_maps.py:962-977), padding returns the value (1412-1425); semantic and
    layout maps raise FoldingError (2080-2095, 2142-2157). *)
Fixpoint foldbs (m : dmap) {struct m} : folder :=
  match m with
  | MPrim d op => fold_prim d op
  | MUUID d => fold_uuid d
  | MPadding _ => fun v c => (Ok v, c)
  | MSequence true _ _ _ op => fold_seq_linear op
  | MSequence false _ _ _ _ => fun _ c => (Ok VNone, c)
  | MStream e ed _ => fold_stream e ed
  | MString e ed _ => fold_string e ed
  | MStructure true _ _ _ attrs op => fold_struct_linear (map fst attrs) op
  | MStructure false _ _ _ attrs _ =>
      fold_struct
        (map (fun x => (fst x, match snd x with Some y => Some (foldbs y) | None => None end)) attrs)
  | MSemantic _ | MFormat _ | MGroup _ _ _ _ _ => fun _ c => (Raise FoldingError, c)
  end.

(** * GetSizeHint *)

(** A bound GetSizeHint method: byte offset and context.  data_maps.py:98-107.
    *)
Definition hinter := Z -> option ctx -> res (option Z) * option ctx.

(** PaddingMap.GetSizeHint, data_maps.py:1441-1456. *)
Definition hint_padding (d : dtype) : hinter :=
  fun off c =>
  match opt_bind c c_byte_size with
  | Some n => (Ok (Some n), c)
  | None =>
      (match (match d with DPadding _ _ a => a | _ => None end) with
       | None => Raise TypeError
       | Some a => if a =? 0 then Raise ZeroDivisionError else Ok (Some (padding_size a off))
       end, c)
  end.

(** The element size hint from the element map, data_maps.py:879-886 and
    899-905: the map is asked with the subcontext of the state and offset 0. *)
Definition hint_element (h : option hinter) (c : option ctx) : res (option Z) * option ctx :=
  match h with
  | None => (Raise AttributeError, c)
  | Some h =>
      let '(r, sub') := h 0 (s_context (ctx_state c)) in
      (res_map (option_map (fun n => opt_default 0 (s_elements_data_offset (ctx_state c)) + n)) r,
       on_state (upd_context sub') c)
  end.

(** ElementSequenceDataTypeMap.GetSizeHint, data_maps.py:848-907. *)
Definition hint_elems (e : elems) (ed : dtype) (h : option hinter) : hinter :=
  fun off c =>
  match opt_bind c c_byte_size with
  | Some n => (Ok (Some n), c)
  | None =>
      match truthy_Z (s_elements_data_size (ctx_state c)) with
      | Some n => (Ok (Some n), c)
      | None =>
          (* the falsy value found in the state is what is returned when no
             branch below assigns a value *)
          let none := s_elements_data_size (ctx_state c) in
          if has_data_size e then
            match elems_byte_size e (get_byte_size ed) with
            | Some n => (Ok (Some n), c)
            | None =>
                (match eval_data_size e (ctx_values c) with
                 | Ok n => Ok (Some n)
                 | Raise MappingError => Ok None
                 | Raise x => Raise x
                 | OutOfFuel => OutOfFuel
                 end, c)
            end
          else if has_terminator e then
            match get_byte_size ed with
            | Some n =>
                (Ok (Some (opt_default 0 (s_elements_data_offset (ctx_state c)) + n)), c)
            | None =>
                let '(r, c') := hint_element h c in
                (res_map (fun x => match x with Some n => Some n | None => none end) r, c')
            end
          else if has_number e then
            let '(r, c1) :=
              match s_number_of_elements (ctx_state c) with
              | Some n => (Ok n, c)
              | None => eval_number e c
              end in
            match r with
            | Raise MappingError => (Ok none, c1)
            | Raise x => (Raise x, c1)
            | OutOfFuel => (OutOfFuel, c1)
            | Ok n =>
                match truthy_Z (get_byte_size ed) with
                | Some b => (Ok (Some (n * b)), c1)
                | None =>
                    let '(r, c') := hint_element h c1 in
                    (res_map (fun x => match x with Some n => Some n | None => none end) r, c')
                end
            end
          else (Ok none, c)
      end
  end.

(** The loop of StructureMap.GetSizeHint, data_maps.py:2022-2034: only the first
    member sees the subcontext of the state. *)
Fixpoint hint_loop (attrs : list (option hinter)) (size : Z) (sub : ctx) : res Z :=
  match attrs with
  | [] => Ok size
  | None :: _ => Raise AttributeError
  | Some h :: r =>
      match fst (h size (Some sub)) with
      | Ok (Some n) => hint_loop r (size + n) (ctx_new [])
      | Ok None => Ok size
      | Raise e => Raise e
      | OutOfFuel => OutOfFuel
      end
  end.

(** StructureMap.GetSizeHint, data_maps.py:1995-2036. *)
Definition hint_struct (cls : string) (names : list string) (attrs : list (option hinter)) : hinter :=
  fun off c =>
  match opt_bind c c_byte_size with
  | Some n => (Ok (Some n), c)
  | None =>
      let st := ctx_state c in
      let todo := skipn (Z.to_nat (opt_default 0 (s_attribute_index st))) attrs in
      match struct_values cls names st with
      | Raise e => (Raise e, c)
      | OutOfFuel => (OutOfFuel, c)
      | Ok mapped =>
          let sub := match s_context st with
                     | Some x => x
                     | None => ctx_new [(type_name mapped, mapped)]
                     end in
          let c' :=
            match s_context st, todo with
            | Some x, Some h :: _ =>
                on_state (upd_context (snd (h (opt_default 0 (s_members_data_size st)) (Some x)))) c
            | _, _ => c
            end in
          (res_map Some (hint_loop todo (opt_default 0 (s_members_data_size st)) sub), c')
      end
  end.

(** StructureGroupMap.GetSizeHint, data_maps.py:2288-2312. *)
Definition hint_group (base : option hinter) (maps : list (pyval * option hinter)) : hinter :=
  fun off c =>
  match opt_bind c c_byte_size with
  | Some n => (Ok (Some n), c)
  | None =>
      let st := ctx_state c in
      let sub := opt_default (ctx_new []) (s_context st) in
      let ident := opt_default VNone (s_member_identifier st) in
      let h := match val_get ident maps with
               | Some (Some h) => Some h
               | _ => base
               end in
      match h with
      | None => (Raise AttributeError, c)
      | Some h =>
          let '(r, sub') := h off (Some sub) in
          (r, on_state (share_context (opt_default sub sub')) c)
      end
  end.

(** GetSizeHint of every map: the default asks the definition,
    data_maps.py:98-107. *)
Fixpoint hint (m : dmap) {struct m} : hinter :=
  match m with
  | MPrim d _ | MUUID d | MSemantic d | MFormat d => fun _ c => (Ok (get_byte_size d), c)
  | MPadding d => hint_padding d
  | MSequence _ e ed em _ | MStream e ed em | MString e ed em =>
      hint_elems e ed (match em with Some x => Some (hint x) | None => None end)
  | MStructure _ d cls ms attrs _ =>
      hint_struct cls (map fst attrs)
        (map (fun x => match snd x with Some y => Some (hint y) | None => None end) attrs)
  | MGroup _ _ base _ maps =>
      hint_group
        (match base with Some x => Some (hint x) | None => None end)
        (map (fun x => (fst x, match snd x with Some y => Some (hint y) | None => None end)) maps)
  end.

(** DataTypeMap.GetByteSize, data_maps.py:86-96: the byte size of the
    definition; StructureGroupMap returns None (2277-2286). *)
Definition map_byte_size (m : dmap) : option Z :=
  match m with
  | MPrim d _ | MUUID d | MPadding d | MStructure _ d _ _ _ _ | MSemantic d | MFormat d =>
      get_byte_size d
  | MSequence _ e ed _ _ | MStream e ed _ | MString e ed _ =>
      elems_byte_size e (get_byte_size ed)
  | MGroup _ _ _ _ _ => None
  end.

End WithOracle.
