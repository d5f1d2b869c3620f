(** dtfabric/reader.py: the definitions reader, over the values the YAML parser
    yields, with the registry (dtfabric/registry.py) and the definition classes
    (dtfabric/data_types.py) over such values.  Attributes keep the values found
    in the file, whatever their type. *)
From Coq Require Import String List ZArith Bool.
From Verif Require Import Base Ieee Yaml DataTypes.
Import ListNotations.
Open Scope Z_scope.

(** * Definitions as read *)

(** DataTypeDefinition.__init__, data_types.py:31-47. *)
Record rmeta : Type := mkRMeta {
  rm_name : yval;
  rm_aliases : yval;
  rm_desc : yval;
  rm_urls : yval }.

(** Attributes of FixedSizeDataTypeDefinition, data_types.py:93 and 126-127. *)
Record rfixed : Type := mkRFixed {
  rf_meta : rmeta;
  rf_bo : yval;
  rf_size : yval;
  rf_units : yval }.

(** Attributes of ElementSequenceDataTypeDefinition, data_types.py:324-333, and
    the encoding of StringDefinition, data_types.py:398. *)
Record relems : Type := mkRElems {
  re_meta : rmeta;
  re_bo : yval;
  re_data_size : option Z;
  re_data_size_expr : option yval;
  re_data_type : yval;
  re_terminator : option yval;
  re_number : option Z;
  re_number_expr : option yval;
  re_encoding : yval }.

(** EnumerationValue.__init__, data_types.py:687-703. *)
Record renum : Type := mkREnum {
  rv_name : yval;
  rv_number : yval;
  rv_aliases : yval;
  rv_desc : yval }.

(** The definition classes of data_types.py with the attributes the reader
    sets.  Sections are kept as the section name with the names of its members.
    The dicts of an enumeration are views of its value list. *)
Inductive rdef : Type :=
| RBoolean (f : rfixed)
| RCharacter (f : rfixed)
| RFloat (f : rfixed)
| RInteger (f : rfixed) (format : yval)
| RUUID (f : rfixed)
| RPadding (m : rmeta) (bo : yval) (align : yval)
| RElems (k : seq_kind) (e : relems) (elem : rdef)
| RStructure (m : rmeta) (bo : yval) (sections : list (yval * list yval)) (members : list rdef)
| RUnion (m : rmeta) (bo : yval) (sections : list (yval * list yval)) (members : list rdef)
| RMember (m : rmeta) (bo : yval) (condition data_type : yval)
    (values : option (list yval)) (d : rdef)
| RConstant (m : rmeta) (value : yval)
| REnumeration (m : rmeta) (values : list renum)
| RFormat (m : rmeta) (bo : option yval) (layout : list (yval * yval)) (metadata : yval)
| RFamily (m : rmeta) (base : rdef) (members : list rdef)
| RGroup (m : rmeta) (bo : yval) (base : rdef) (identifier : yval)
    (default : option rdef) (members : list rdef).

(** The attributes of DataTypeDefinition, data_types.py:43-47. *)
Definition rd_meta (d : rdef) : rmeta :=
  match d with
  | RBoolean f | RCharacter f | RFloat f | RInteger f _ | RUUID f => rf_meta f
  | RElems _ e _ => re_meta e
  | RPadding m _ _ | RStructure m _ _ _ | RUnion m _ _ _ | RMember m _ _ _ _ _
  | RConstant m _ | REnumeration m _ | RFormat m _ _ _ | RFamily m _ _
  | RGroup m _ _ _ _ _ => m
  end.

(** The attribute [name].  data_types.py:46. *)
Definition rd_name (d : rdef) : yval := rm_name (rd_meta d).

(** The attribute aliases, data_types.py:44. *)
Definition rd_aliases (d : rdef) : yval := rm_aliases (rd_meta d).

(** BYTE_ORDER_NATIVE and SIZE_NATIVE, definitions.py:7 and 17. *)
Definition y_native : yval := Y "native".

(** [getattr(definition, 'byte_order', BYTE_ORDER_NATIVE)]; the classes without
    the attribute are those of [dt_byte_order] in DataTypes.v.  The attribute
    byte_order, data_types.py:93. *)
Definition rd_byte_order (d : rdef) : yval :=
  match d with
  | RBoolean f | RCharacter f | RFloat f | RInteger f _ | RUUID f => rf_bo f
  | RElems _ e _ => re_bo e
  | RPadding _ bo _ | RStructure _ bo _ _ | RUnion _ bo _ _ | RMember _ bo _ _ _ _
  | RGroup _ bo _ _ _ _ => bo
  | RFormat _ (Some bo) _ _ => bo
  | RFormat _ None _ _ | RConstant _ _ | REnumeration _ _ | RFamily _ _ _ => y_native
  end.

(** The attribute [members], absent in the other classes.  The members of a
    definition, data_types.py:434-441. *)
Definition rd_members (d : rdef) : option (list rdef) :=
  match d with
  | RStructure _ _ _ ms | RUnion _ _ _ ms | RFamily _ _ ms | RGroup _ _ _ _ _ ms => Some ms
  | _ => None
  end.

(** [TYPE_INDICATOR == TYPE_INDICATOR_FORMAT], registry.py:99. *)
Definition rd_is_format (d : rdef) : bool :=
  match d with RFormat _ _ _ _ => true | _ => false end.

(** * Outcomes *)

(** An exception: DefinitionReaderError with its attribute [name]
    (errors.py:13-31) or another exception class. *)
Inductive rexc : Type :=
| DefErr (name : yval)
| Err (e : exc).

(** Outcome of a reader method.  [RFuel] is not a Python outcome; theorem
    [read_definition_total] in ReaderTotal.v shows it does not occur.
    reader.py:109-1245. *)
Inductive rd (A : Type) : Type :=
| ROk (a : A)
| RErr (e : rexc)
| RFuel.
Arguments ROk {A} a.
Arguments RErr {A} e.
Arguments RFuel {A}.

(** One statement after another: an exception ends the method,
    reader.py:109-1245. *)
Definition rbind {A B} (r : rd A) (k : A -> rd B) : rd B :=
  match r with
  | ROk a => k a
  | RErr e => RErr e
  | RFuel => RFuel
  end.

Notation "'do*' x ':=' e 'in' k" := (rbind e (fun x => k))
  (at level 200, x pattern, e at level 100, k at level 200, right associativity).

(** A call inside of a reader method, reader.py:109-1245. *)
Definition lift {A} (r : res A) : rd A :=
  match r with Ok a => ROk a | Raise e => RErr (Err e) | OutOfFuel => RFuel end.

(** [raise DefinitionReaderError(name, f'... {a:s} ...')]: the values formatted
    into the message with the code s can make the formatting fail instead.  As
    at reader.py:215, 373 and 681. *)
Definition raise_def {A} (name : yval) (formatted : list yval) : rd A :=
  (fix go l := match l with
   | [] => RErr (DefErr name)
   | v :: r => match y_format_s v with
               | Ok _ => go r
               | Raise e => RErr (Err e)
               | OutOfFuel => RFuel
               end
   end) formatted.

(** [name or '<NAMELESS>'].  As at reader.py:699, 705, 712 and 720. *)
Definition nameless (v : yval) : yval := if y_truthy v then v else Y "<NAMELESS>".

(** [key in container] of a dict or set: the key is hashed.  As at reader.py:742
    and registry.py:38-92. *)
Definition hashed (v : yval) : rd unit :=
  if y_hashable v then ROk tt else RErr (Err TypeError).

(** * The registry, registry.py:17-100 *)

(** DataTypeDefinitionsRegistry, registry.py:17-22. *)
Record rreg : Type := mkRReg {
  rg_aliases : list (yval * yval);
  rg_definitions : list (yval * rdef);
  rg_formats : list yval }.

(** registry.py:17-22. *)
Definition rreg_empty : rreg := mkRReg [] [] [].

(** Lookup in a dict, registry.py:55-58, 82, 86 and 91. *)
Fixpoint assoc {A} (k : yval) (l : list (yval * A)) : option A :=
  match l with
  | [] => None
  | (k', v) :: r => if y_eqb k k' then Some v else assoc k r
  end.

(** Assignment to a key of a dict, registry.py:94 and 97. *)
Fixpoint assoc_set {A} (k : yval) (v : A) (l : list (yval * A)) : list (yval * A) :=
  match l with
  | [] => [(k, v)]
  | (k', v') :: r => if y_eqb k k' then (k', v) :: r else (k', v') :: assoc_set k v r
  end.

(** [key in dict], registry.py:38, 55, 82, 86 and 91. *)
Definition assoc_mem {A} (k : yval) (l : list (yval * A)) : bool :=
  match assoc k l with Some _ => true | None => false end.

(** GetDefinitionByName, registry.py:44-58. *)
Definition rlookup (env : yenv) (r : rreg) (name : yval) : rd (option rdef) :=
  do* lname := lift (y_lower env name) in
  let lname :=
    if assoc_mem lname (rg_definitions r) then lname
    else match assoc name (rg_aliases r) with Some n => n | None => lname end in
  ROk (assoc lname (rg_definitions r)).

(** [raise KeyError(f'... {v:s} ...')].  As at registry.py:39, 83, 87 and 92. *)
Definition raise_key {A} (v : yval) : res A :=
  match y_format_s v with Ok _ => Raise KeyError | Raise e => Raise e | OutOfFuel => OutOfFuel end.

(** The alias loop of RegisterDefinition, registry.py:89-91. *)
Fixpoint check_aliases (known : list (yval * yval)) (l : list yval) : res unit :=
  match l with
  | [] => Ok tt
  | a :: r =>
      if negb (y_hashable a) then Raise TypeError
      else if assoc_mem a known then raise_key a
      else check_aliases known r
  end.

(** RegisterDefinition, registry.py:68-100.  Nothing is changed when it
    raises. *)
Definition rregister (env : yenv) (r : rreg) (d : rdef) : res rreg :=
  let* lname := y_lower env (rd_name d) in
  if assoc_mem lname (rg_definitions r) then raise_key (rd_name d)
  else if assoc_mem (rd_name d) (rg_aliases r) then raise_key (rd_name d)
  else
    let* l := y_iter (rd_aliases d) in
    let* _ := check_aliases (rg_aliases r) l in
    Ok (mkRReg (fold_left (fun al a => assoc_set a lname al) l (rg_aliases r))
          (assoc_set lname d (rg_definitions r))
          (if rd_is_format d then rg_formats r ++ [lname] else rg_formats r)).

(** * Supported values, reader.py:38-107 *)

Local Open Scope string_scope.
Local Open Scope list_scope.

(** _SUPPORTED_DEFINITION_VALUES_DATA_TYPE, reader.py:42-43. *)
Definition keys_data_type : list string :=
  ["aliases"; "description"; "name"; "type"; "urls"].
(** _SUPPORTED_DEFINITION_VALUES_LAYOUT_ELEMENT, reader.py:45-46. *)
Definition keys_layout_element : list string := ["data_type"; "offset"].
(** _SUPPORTED_DEFINITION_VALUES_MEMBER_DATA_TYPE, reader.py:48-50. *)
Definition keys_member : list string :=
  ["aliases"; "condition"; "data_type"; "description"; "name"; "type"; "value"; "values"].
(** _SUPPORTED_DEFINITION_VALUES_STORAGE_DATA_TYPE, reader.py:52-53. *)
Definition keys_storage : list string := ["attributes"] ++ keys_data_type.
(** _SUPPORTED_DEFINITION_VALUES_STORAGE_DATA_TYPE_WITH_MEMBERS,
    reader.py:55-56. *)
Definition keys_with_members : list string := ["members"] ++ keys_storage.
(** _SUPPORTED_DEFINITION_VALUES_CONSTANT, reader.py:58-59. *)
Definition keys_constant : list string := ["value"] ++ keys_data_type.
(** _SUPPORTED_DEFINITION_VALUES_ENUMERATION, reader.py:61-62. *)
Definition keys_enumeration : list string := ["values"] ++ keys_data_type.
(** _SUPPORTED_DEFINITION_VALUES_ELEMENTS_DATA_TYPE, reader.py:64-66. *)
Definition keys_elements : list string :=
  ["element_data_type"; "elements_data_size"; "elements_terminator";
   "number_of_elements"] ++ keys_data_type.
(** _SUPPORTED_DEFINITION_VALUES_ELEMENTS_MEMBER_DATA_TYPE, reader.py:68-71. *)
Definition keys_elements_member : list string :=
  ["element_data_type"; "elements_data_size"; "elements_terminator";
   "number_of_elements"] ++ keys_member.
(** _SUPPORTED_DEFINITION_VALUES_FORMAT, reader.py:73-75. *)
Definition keys_format : list string :=
  ["attributes"; "layout"; "metadata"] ++ keys_data_type.
(** _SUPPORTED_DEFINITION_VALUES_PADDING, reader.py:77-78. *)
Definition keys_padding : list string := ["alignment_size"] ++ keys_member.
(** _SUPPORTED_DEFINITION_VALUES_STRING, reader.py:80-81. *)
Definition keys_string : list string := ["encoding"] ++ keys_elements.
(** _SUPPORTED_DEFINITION_VALUES_STRING_MEMBER, reader.py:83-84. *)
Definition keys_string_member : list string := ["encoding"] ++ keys_elements_member.
(** _SUPPORTED_DEFINITION_VALUES_STRUCTURE_FAMILY, reader.py:86-87. *)
Definition keys_family : list string := ["base"; "members"] ++ keys_data_type.
(** _SUPPORTED_DEFINITION_VALUES_STRUCTURE_GROUP, reader.py:89-91. *)
Definition keys_group : list string :=
  ["base"; "default"; "identifier"; "members"] ++ keys_data_type.
(** _SUPPORTED_ATTRIBUTES_STORAGE_DATA_TYPE, reader.py:93-94. *)
Definition attrs_storage : list string := ["byte_order"].
(** _SUPPORTED_ATTRIBUTES_FIXED_SIZE_DATA_TYPE, reader.py:96-97. *)
Definition attrs_fixed : list string := ["size"; "units"] ++ attrs_storage.
(** _SUPPORTED_ATTRIBUTES_BOOLEAN, reader.py:99-101. *)
Definition attrs_boolean : list string := ["false_value"; "true_value"] ++ attrs_fixed.
(** _SUPPORTED_ATTRIBUTES_FORMAT, reader.py:103-104. *)
Definition attrs_format : list string := ["byte_order"].
(** _SUPPORTED_ATTRIBUTES_INTEGER, reader.py:106-107. *)
Definition attrs_integer : list string := ["format"] ++ attrs_fixed.

(** BYTE_ORDERS, definitions.py:9-12. *)
Definition byte_orders : list yval := [Y "big-endian"; Y "little-endian"; Y "native"].

(** _INTEGER_FORMAT_ATTRIBUTES, reader.py:38-40. *)
Definition integer_formats : list yval := [Y "signed"; Y "unsigned"].

(** The callbacks of reader.py:15-36. *)
Inductive kind : Set :=
| KBoolean | KCharacter | KConstant | KEnumeration | KFloat | KFormat | KInteger
| KPadding | KElems (k : seq_kind) | KStructure | KFamily | KGroup | KUnion | KUUID.

(** _DATA_TYPE_CALLBACKS, reader.py:15-36. *)
Definition callbacks : list (yval * kind) :=
  [(Y "boolean", KBoolean); (Y "character", KCharacter); (Y "constant", KConstant);
   (Y "enumeration", KEnumeration); (Y "floating-point", KFloat); (Y "format", KFormat);
   (Y "integer", KInteger); (Y "padding", KPadding); (Y "sequence", KElems KSequence);
   (Y "stream", KElems KStream); (Y "string", KElems KString); (Y "structure", KStructure);
   (Y "structure-family", KFamily); (Y "structure-group", KGroup); (Y "union", KUnion);
   (Y "uuid", KUUID)].

(** * Reading one definition *)

(** The unsupported-keys check that every method repeats, for example
    reader.py:211-216: joining keys that are no strings raises TypeError. *)
Definition check_keys (name : yval) (values : yval) (supported : list string) : rd unit :=
  do* keys := lift (y_keys values) in
  let unsupported := filter (fun k => negb (y_in k (map Y supported))) keys in
  match unsupported with
  | [] => ROk tt
  | _ => if forallb is_ystr unsupported then RErr (DefErr name) else RErr (Err TypeError)
  end.

(** [aliases or []] of data_types.py:44 and 700. *)
Definition or_empty (v : yval) : yval := if y_truthy v then v else YList [].

(** The aliases, description and urls of reader.py:218-223, 404-406, 1080-1082
    and 1160-1162. *)
Definition read_meta (values name : yval) : rd rmeta :=
  do* aliases := lift (y_get "aliases" values) in
  do* description := lift (y_get "description" values) in
  do* urls := lift (y_get "urls" values) in
  ROk (mkRMeta name (or_empty aliases) description urls).

(** _ReadDataTypeDefinition, reader.py:190-223; also
    _ReadSemanticDataTypeDefinition, reader.py:836-859, and
    _ReadLayoutDataTypeDefinition, reader.py:635-658. *)
Definition read_data_type (values name : yval) (supported : list string) : rd rmeta :=
  do* _ := check_keys name values supported in
  read_meta values name.

(** The attributes block of reader.py:256-270, 539-553 and 925-939 for truthy
    attributes. *)
Definition read_byte_order (name attributes : yval) (supported : list string) : rd yval :=
  do* _ := check_keys name attributes supported in
  do* bo := lift (y_get_or y_native "byte_order" attributes) in
  do* _ := hashed bo in
  if y_in bo byte_orders then ROk bo else RErr (DefErr name).

(** _ReadStorageDataTypeDefinition, reader.py:892-941. *)
Definition read_storage (values name : yval) (supported_attributes : list string)
    (is_member : bool) : rd (rmeta * yval) :=
  do* m := read_data_type values name (if is_member then keys_member else keys_storage) in
  do* attributes := lift (y_get "attributes" values) in
  if y_truthy attributes then
    do* bo := read_byte_order name attributes supported_attributes in
    ROk (m, bo)
  else ROk (m, y_native).

(** _ReadFixedSizeDataTypeDefinition, reader.py:432-481; [class_size] is the
    size the constructor of the class sets. *)
Definition read_fixed (env : yenv) (values name : yval) (supported_attributes : list string)
    (default_size class_size : yval) (is_member : bool) (sizes : list Z) : rd rfixed :=
  do* mb := read_storage values name supported_attributes is_member in
  do* attributes := lift (y_get "attributes" values) in
  if y_truthy attributes then
    do* size := lift (y_get_or default_size "size" attributes) in
    do* _ :=
      (if y_eqb size y_native then ROk tt
       else match y_int env size with
            | Raise ValueError => RErr (DefErr name)
            | Raise e => RErr (Err e)
            | OutOfFuel => RFuel
            | Ok _ => if y_in size (map YInt sizes) then ROk tt else RErr (DefErr name)
            end) in
    do* units := lift (y_get_or (Y "bytes") "units" attributes) in
    ROk (mkRFixed (fst mb) (snd mb) size units)
  else ROk (mkRFixed (fst mb) (snd mb) class_size (Y "bytes")).

(** _ReadBooleanDataTypeDefinition, reader.py:109-129. *)
Definition read_boolean env values name is_member : rd rdef :=
  do* f := read_fixed env values name attrs_boolean y_native y_native is_member [1; 2; 4] in
  ROk (RBoolean f).

(** _ReadCharacterDataTypeDefinition, reader.py:131-151. *)
Definition read_character env values name is_member : rd rdef :=
  do* f := read_fixed env values name attrs_fixed y_native y_native is_member [1; 2; 4] in
  ROk (RCharacter f).

(** _ReadFloatingPointDataTypeDefinition, reader.py:483-503. *)
Definition read_float env values name is_member : rd rdef :=
  do* f := read_fixed env values name attrs_fixed y_native y_native is_member [4; 8] in
  ROk (RFloat f).

(** _ReadUUIDDataTypeDefinition, reader.py:1220-1244. *)
Definition read_uuid env values name is_member : rd rdef :=
  do* f := read_fixed env values name attrs_fixed (YInt 16) (YInt 16) is_member [16] in
  ROk (RUUID f).

(** _ReadIntegerDataTypeDefinition, reader.py:598-633. *)
Definition read_integer env values name is_member : rd rdef :=
  do* f := read_fixed env values name attrs_integer y_native y_native is_member [1; 2; 4; 8] in
  do* attributes := lift (y_get "attributes" values) in
  if y_truthy attributes then
    do* format := lift (y_get_or (Y "signed") "format" attributes) in
    do* _ := hashed format in
    if y_in format integer_formats then ROk (RInteger f format) else RErr (DefErr name)
  else ROk (RInteger f (Y "signed")).

(** _ReadConstantDataTypeDefinition, reader.py:153-188. *)
Definition read_constant (values name : yval) (is_member : bool) : rd rdef :=
  if is_member then RErr (DefErr name) else
  do* value := lift (y_get "value" values) in
  if y_is_none value then RErr (DefErr name) else
  do* m := read_data_type values name keys_constant in
  ROk (RConstant m value).

(** The aliases of the values added so far: the keys of values_per_alias.
    data_types.py:760-762. *)
Definition enum_aliases (vs : list renum) : list yval :=
  flat_map (fun v => match y_iter (rv_aliases v) with Ok l => l | _ => [] end) vs.

(** The alias loop of AddValue, data_types.py:761-763. *)
Fixpoint check_enum_aliases (dname : yval) (known l : list yval) : rd unit :=
  match l with
  | [] => ROk tt
  | a :: r =>
      do* _ := hashed a in
      if y_in a known then raise_def dname [a]
      else check_enum_aliases dname known r
  end.

(** AddValue, data_types.py:740-772, in the try of reader.py:338-342 that turns
    KeyError into DefinitionReaderError. *)
Definition add_value (dname : yval) (vs : list renum) (v : renum) : rd (list renum) :=
  do* _ := hashed (rv_name v) in
  if y_in (rv_name v) (map rv_name vs) then raise_def dname [rv_name v] else
  do* _ := hashed (rv_number v) in
  if y_in (rv_number v) (map rv_number vs) then RErr (DefErr dname) else
  do* l := lift (y_iter (rv_aliases v)) in
  do* _ := check_enum_aliases dname (enum_aliases vs) l in
  ROk (vs ++ [v]).

(** The loop of _ReadEnumerationDataTypeDefinition, reader.py:322-344. *)
Fixpoint read_enum_values (dname last : yval) (vs : list renum) (l : list yval)
    : rd (list renum) :=
  match l with
  | [] => ROk vs
  | x :: r =>
      do* aliases := lift (y_get "aliases" x) in
      do* description := lift (y_get "description" x) in
      do* name := lift (y_get "name" x) in
      do* number := lift (y_get "number" x) in
      if negb (y_truthy name) || y_is_none number then
        raise_def dname (if y_truthy last then [last] else [])
      else
        do* vs := add_value dname vs (mkREnum name number (or_empty aliases) description) in
        read_enum_values dname name vs r
  end.

(** _ReadEnumerationDataTypeDefinition, reader.py:289-346. *)
Definition read_enumeration (values name : yval) (is_member : bool) : rd rdef :=
  if is_member then RErr (DefErr name) else
  do* vals := lift (y_get "values" values) in
  if negb (y_truthy vals) then RErr (DefErr name) else
  do* m := read_data_type values name keys_enumeration in
  do* l := lift (y_iter vals) in
  do* vs := read_enum_values name YNull [] l in
  ROk (REnumeration m vs).

(** [int(v)] with the except ValueError of reader.py:412-422: an
    integer or else an expression. *)
Definition int_or_expr (env : yenv) (v : yval) : rd (option Z * option yval) :=
  match y_int env v with
  | Ok z => ROk (Some z, None)
  | Raise ValueError => ROk (None, Some v)
  | Raise e => RErr (Err e)
  | OutOfFuel => RFuel
  end.

(** _ReadElementSequenceDataTypeDefinition, reader.py:348-430; the encoding is
    set by the caller. *)
Definition read_elements (env : yenv) (r : rreg) (values name : yval)
    (supported : list string) : rd (relems * rdef) :=
  do* _ := check_keys name values supported in
  do* element_data_type := lift (y_get "element_data_type" values) in
  if negb (y_truthy element_data_type) then RErr (DefErr name) else
  do* data_size := lift (y_get "elements_data_size" values) in
  do* terminator := lift (y_get "elements_terminator" values) in
  do* number := lift (y_get "number_of_elements" values) in
  if y_is_none data_size && y_is_none terminator && y_is_none number
  then RErr (DefErr name) else
  if negb (y_is_none data_size) && negb (y_is_none number)
  then RErr (DefErr name) else
  do* found := rlookup env r element_data_type in
  match found with
  | None => raise_def name [element_data_type]
  | Some elem =>
      do* m := read_meta values name in
      do* ds := (if y_is_none data_size then ROk (None, None) else int_or_expr env data_size) in
      do* nr :=
        (if negb (y_is_none data_size) || y_is_none number then ROk (None, None)
         else int_or_expr env number) in
      do* term :=
        match terminator with
        | YNull => ROk None
        | YStr s => do* b := lift (u_encode 128 s) in ROk (Some (YBytes b))
        | v => ROk (Some v)
        end in
      ROk (mkRElems m (rd_byte_order elem) (fst ds) (snd ds) element_data_type term
             (fst nr) (snd nr) (Y "ascii"), elem)
  end.

(** _ReadSequenceDataTypeDefinition, reader.py:861-890,
    _ReadStreamDataTypeDefinition, reader.py:943-972, and
    _ReadStringDataTypeDefinition, reader.py:974-1010. *)
Definition read_elems (env : yenv) (r : rreg) (k : seq_kind) (values name : yval)
    (is_member : bool) : rd rdef :=
  match k with
  | KString =>
      do* ee := read_elements env r values name
                  (if is_member then keys_string_member else keys_string) in
      do* encoding := lift (y_get "encoding" values) in
      if negb (y_truthy encoding) then RErr (DefErr name) else
      let e := fst ee in
      ROk (RElems k (mkRElems (re_meta e) (re_bo e) (re_data_size e) (re_data_size_expr e)
             (re_data_type e) (re_terminator e) (re_number e) (re_number_expr e) encoding)
             (snd ee))
  | _ =>
      do* ee := read_elements env r values name
                  (if is_member then keys_elements_member else keys_elements) in
      ROk (RElems k (fst ee) (snd ee))
  end.

(** _ReadFormatLayout, reader.py:557-596. *)
Fixpoint read_layout (dname : yval) (l : list yval) : rd (list (yval * yval)) :=
  match l with
  | [] => ROk []
  | x :: r =>
      do* data_type := lift (y_get "data_type" x) in
      do* offset := lift (y_get "offset" x) in
      if negb (y_truthy data_type) then RErr (DefErr dname) else
      do* _ := check_keys dname x keys_layout_element in
      do* rest := read_layout dname r in
      ROk ((data_type, offset) :: rest)
  end.

(** _ReadFormatDataTypeDefinition, reader.py:505-555. *)
Definition read_format (values name : yval) (is_member : bool) : rd rdef :=
  if is_member then RErr (DefErr name) else
  do* m := read_data_type values name keys_format in
  do* layout := lift (y_get_or (YList []) "layout" values) in
  do* l := lift (y_iter layout) in
  do* elements := read_layout name l in
  do* metadata := lift (y_get_or (YMap []) "metadata" values) in
  do* attributes := lift (y_get "attributes" values) in
  if y_truthy attributes then
    do* bo := read_byte_order name attributes attrs_format in
    ROk (RFormat m (Some bo) elements metadata)
  else ROk (RFormat m None elements metadata).

(** _ReadPaddingDataTypeDefinition, reader.py:789-834. *)
Definition read_padding (env : yenv) (values name : yval) (is_member : bool) : rd rdef :=
  if negb is_member then RErr (DefErr name) else
  do* m := read_data_type values name keys_padding in
  do* align := lift (y_get "alignment_size" values) in
  if negb (y_truthy align) then RErr (DefErr name) else
  match y_int env align with
  | Raise ValueError => RErr (DefErr name)
  | Raise e => RErr (Err e)
  | OutOfFuel => RFuel
  | Ok _ =>
      if y_in align (map YInt [2; 4; 8; 16]) then ROk (RPadding m y_native align)
      else RErr (DefErr name)
  end.

(** AddMemberDefinition, data_types.py:443-461, 882-895 and 959-972, in a try
    that turns KeyError into DefinitionReaderError (reader.py:282-285,
    1099-1102, 1189-1192). *)
Definition add_member (dname : yval) (ms : list rdef) (d : rdef) : rd (list rdef) :=
  do* _ := hashed (rd_name d) in
  if y_in (rd_name d) (map rd_name ms) then raise_def dname [rd_name d]
  else ROk (ms ++ [d]).

(** The member is appended to the last section, data_types.py:459-461. *)
Fixpoint add_to_section (name : yval) (l : list (yval * list yval)) : list (yval * list yval) :=
  match l with
  | [] => []
  | [s] => [(fst s, snd s ++ [name])]
  | s :: r => s :: add_to_section name r
  end.

(** The member loop of _ReadDataTypeDefinitionWithMembers, reader.py:272-285;
    [read] is _ReadMemberDataTypeDefinitionMember. *)
Fixpoint read_members (read : yval -> rd rdef) (dname : yval)
    (ms : list rdef) (ss : list (yval * list yval)) (l : list yval)
    : rd (list rdef * list (yval * list yval)) :=
  match l with
  | [] => ROk (ms, ss)
  | x :: r =>
      do* section := lift (y_get "section" x) in
      if y_truthy section then read_members read dname ms (ss ++ [(section, [])]) r
      else
        do* d := read x in
        do* ms := add_member dname ms d in
        read_members read dname ms (add_to_section (rd_name d) ss) r
  end.

(** _ReadDataTypeDefinitionWithMembers, reader.py:225-287. *)
Definition read_with_members (read : yval -> rd rdef) (values name : yval)
    : rd (rmeta * yval * list (yval * list yval) * list rdef) :=
  do* members := lift (y_get "members" values) in
  if negb (y_truthy members) then RErr (DefErr name) else
  do* m := read_data_type values name keys_with_members in
  do* attributes := lift (y_get "attributes" values) in
  do* bo := (if y_truthy attributes then read_byte_order name attributes attrs_storage
             else ROk y_native) in
  do* l := lift (y_iter members) in
  do* mss := read_members read name [] [] l in
  ROk (m, bo, snd mss, fst mss).

(** The member loop of _ReadStructureFamilyDataTypeDefinition,
    reader.py:1092-1102. *)
Fixpoint read_family_members (env : yenv) (r : rreg) (dname : yval) (ms : list rdef)
    (l : list yval) : rd (list rdef) :=
  match l with
  | [] => ROk ms
  | x :: rest =>
      do* found := rlookup env r x in
      match found with
      | None => raise_def dname [x]
      | Some d =>
          do* ms := add_member dname ms d in
          read_family_members env r dname ms rest
      end
  end.

(** _ReadStructureFamilyDataTypeDefinition, reader.py:1040-1104. *)
Definition read_family (env : yenv) (r : rreg) (values name : yval) (is_member : bool)
    : rd rdef :=
  if is_member then RErr (DefErr name) else
  do* _ := check_keys name values keys_family in
  do* base := lift (y_get "base" values) in
  if negb (y_truthy base) then RErr (DefErr name) else
  do* found := rlookup env r base in
  match found with
  | None => raise_def name [base]
  | Some b =>
      do* m := read_meta values name in
      do* members := lift (y_get "members" values) in
      if negb (y_truthy members) then RErr (DefErr name) else
      do* l := lift (y_iter members) in
      do* ms := read_family_members env r name [] l in
      ROk (RFamily m b ms)
  end.

(** The member loop of _ReadStructureGroupDataTypeDefinition,
    reader.py:1173-1192. *)
Fixpoint read_group_members (env : yenv) (r : rreg) (dname identifier : yval)
    (ms : list rdef) (l : list yval) : rd (list rdef) :=
  match l with
  | [] => ROk ms
  | x :: rest =>
      do* found := rlookup env r x in
      match found with
      | None => raise_def dname [x]
      | Some d =>
          match rd_members d with
          | None => RErr (Err AttributeError)
          | Some inner =>
              if negb (y_in identifier (map rd_name inner)) then raise_def dname [x; identifier]
              else
                do* ms := add_member dname ms d in
                read_group_members env r dname identifier ms rest
          end
      end
  end.

(** _ReadStructureGroupDataTypeDefinition, reader.py:1106-1194. *)
Definition read_group (env : yenv) (r : rreg) (values name : yval) (is_member : bool)
    : rd rdef :=
  if is_member then RErr (DefErr name) else
  do* _ := check_keys name values keys_group in
  do* base := lift (y_get "base" values) in
  if negb (y_truthy base) then RErr (DefErr name) else
  do* found := rlookup env r base in
  match found with
  | None => raise_def name [base]
  | Some b =>
      do* identifier := lift (y_get "identifier" values) in
      if negb (y_truthy identifier) then RErr (DefErr name) else
      do* default := lift (y_get "default" values) in
      do* dflt :=
        (if negb (y_truthy default) then ROk None
         else do* found := rlookup env r default in
              match found with
              | None => raise_def name [default]
              | Some d => ROk (Some d)
              end) in
      do* m := read_meta values name in
      do* members := lift (y_get "members" values) in
      if negb (y_truthy members) then RErr (DefErr name) else
      do* l := lift (y_iter members) in
      do* ms := read_group_members env r name identifier [] l in
      ROk (RGroup m (rd_byte_order b) b identifier dflt ms)
  end.

(** The supported values loop of reader.py:728-737. *)
Fixpoint encode_values (l : list yval) : rd (list yval) :=
  match l with
  | [] => ROk []
  | x :: r =>
      do* v := match x with
               | YStr s => do* b := lift (u_encode 256 s) in ROk (YBytes b)
               | v => ROk v
               end in
      do* rest := encode_values r in
      ROk (v :: rest)
  end.

(** The re-raise of reader.py:752-755. *)
Definition in_member {A} (dname : yval) (r : rd A) : rd A :=
  match r with
  | RErr (DefErr n) => raise_def dname [nameless n]
  | r => r
  end.

(** The callback of a type indicator, reader.py:15-36; [read_union] reads the
    members of an inline or top level definition with members, the flag tells
    whether conditions are supported (reader.py:1012-1038 and 1196-1218). *)
Definition callback (env : yenv) (r : rreg) (read_member : yval -> yval -> bool -> rd rdef)
    (k : kind) (values name : yval) (is_member : bool) : rd rdef :=
  match k with
  | KBoolean => read_boolean env values name is_member
  | KCharacter => read_character env values name is_member
  | KConstant => read_constant values name is_member
  | KEnumeration => read_enumeration values name is_member
  | KFloat => read_float env values name is_member
  | KFormat => read_format values name is_member
  | KInteger => read_integer env values name is_member
  | KPadding => read_padding env values name is_member
  | KElems s => read_elems env r s values name is_member
  | KStructure =>
      if is_member then RErr (DefErr name) else
      do* (m, bo, ss, ms) :=
        read_with_members (fun x => read_member x name true) values name in
      ROk (RStructure m bo ss ms)
  | KFamily => read_family env r values name is_member
  | KGroup => read_group env r values name is_member
  | KUnion =>
      do* (m, bo, ss, ms) :=
        read_with_members (fun x => read_member x name false) values name in
      ROk (RUnion m bo ss ms)
  | KUUID => read_uuid env values name is_member
  end.

(** [self._DATA_TYPE_CALLBACKS.get(type_indicator, None)].  reader.py:742 and
    1277. *)
Definition find_callback (type_indicator : yval) : rd (option kind) :=
  do* _ := hashed type_indicator in
  ROk (assoc type_indicator callbacks).

(** _ReadMemberDataTypeDefinitionMember, reader.py:660-787.  Fuel for inline
    unions, which read their members with this method. *)
Fixpoint read_member (env : yenv) (r : rreg) (fuel : nat) (values dname : yval)
    (supports_conditions : bool) : rd rdef :=
  match fuel with
  | O => RFuel
  | S fuel =>
      if negb (y_truthy values) then RErr (DefErr dname) else
      do* name := lift (y_get "name" values) in
      do* type_indicator := lift (y_get "type" values) in
      if negb (y_truthy name) && negb (y_eqb type_indicator (Y "union"))
      then RErr (DefErr dname) else
      do* data_type := lift (y_get "data_type" values) in
      if y_is_none data_type && y_is_none type_indicator
      then raise_def dname [nameless name] else
      if negb (y_is_none data_type) && negb (y_is_none type_indicator)
      then raise_def dname [nameless name] else
      do* condition := lift (y_get "condition" values) in
      if negb supports_conditions && y_truthy condition
      then raise_def dname [nameless name] else
      do* value := lift (y_get "value" values) in
      do* vals := lift (y_get "values" values) in
      if negb (y_is_none value) && negb (y_is_none vals)
      then raise_def dname [nameless name] else
      let vals := if negb (y_is_none value) && y_is_none vals then YList [value] else vals in
      do* supported :=
        (if y_truthy vals then
           do* l := lift (y_iter vals) in
           do* l := encode_values l in
           ROk (Some l)
         else ROk None) in
      if negb (y_is_none type_indicator) then
        do* found := find_callback type_indicator in
        match found with
        | None => raise_def name [type_indicator]
        | Some k =>
            do* d := in_member dname
              (callback env r (read_member env r fuel) k values name true) in
            if y_truthy condition || match supported with Some (_ :: _) => true | _ => false end
            then ROk (RMember (mkRMeta name (YList []) YNull YNull) (rd_byte_order d)
                        condition YNull supported d)
            else ROk d
        end
      else
        do* found := rlookup env r data_type in
        match found with
        | None => raise_def dname [nameless name; data_type]
        | Some d =>
            do* _ := check_keys dname values keys_member in
            do* aliases := lift (y_get "aliases" values) in
            do* description := lift (y_get "description" values) in
            ROk (RMember (mkRMeta name (or_empty aliases) description YNull)
                   (rd_byte_order d) condition data_type supported d)
        end
  end.

(** _ReadDefinition, reader.py:1250-1284. *)
Definition read_definition (env : yenv) (r : rreg) (values : yval) : rd rdef :=
  if negb (y_truthy values) then RErr (DefErr YNull) else
  do* name := lift (y_get "name" values) in
  if negb (y_truthy name) then RErr (DefErr YNull) else
  do* type_indicator := lift (y_get "type" values) in
  if negb (y_truthy type_indicator) then RErr (DefErr name) else
  do* found := find_callback type_indicator in
  match found with
  | None => raise_def name [type_indicator]
  | Some k =>
      callback env r (read_member env r (S (y_height values))) k values name false
  end.

(** * Reading a file *)

(** How the YAML parser ends after the documents it yielded: at the end of the
    file, with a ReaderError or ScannerError, or with another exception
    (ParserError, ComposerError and ConstructorError are [YAMLError], a file
    that is no UTF-8 gives [UnicodeError]).  The exceptions are handled at
    reader.py:1379-1381. *)
Inductive yend : Type :=
| YEnd
| YScan
| YFail (e : exc).

(** _GetFormatErrorLocation({}, last) of reader.py:1320-1341: the name of the
    last definition is formatted with the code s. *)
Definition scan_error (last : option rdef) : exc :=
  match last with
  | Some d => match y_format_s (rd_name d) with Raise e => e | _ => FormatError end
  | None => FormatError
  end.

(** The except clause of reader.py:1375-1377. *)
Definition format_error (name : yval) : exc :=
  match y_format_s (nameless name) with Raise e => e | _ => FormatError end.

(** ReadFileObject, reader.py:1343-1381, on the documents the parser yields
    lazily; a definition object is never falsy, so the FormatError of
    reader.py:1366-1370 is unreachable. *)
Fixpoint read_docs (env : yenv) (r : rreg) (last : option rdef) (docs : list yval) (e : yend)
    : res unit * rreg :=
  match docs with
  | [] =>
      match e with
      | YEnd => (Ok tt, r)
      | YScan => (Raise (scan_error last), r)
      | YFail x => (Raise x, r)
      end
  | doc :: rest =>
      match read_definition env r doc with
      | RErr (DefErr n) => (Raise (format_error n), r)
      | RErr (Err x) => (Raise x, r)
      | RFuel => (OutOfFuel, r)
      | ROk d =>
          match rregister env r d with
          | Ok r' => read_docs env r' (Some d) rest e
          | Raise x => (Raise x, r)
          | OutOfFuel => (OutOfFuel, r)
          end
      end
  end.

(** A file: its documents and how parsing ends, or None if it cannot be
    opened.  As opened at reader.py:1294-1295. *)
Definition yfile : Type := option (list yval * yend).

(** ReadFile, reader.py:1286-1295. *)
Definition read_file (env : yenv) (r : rreg) (f : yfile) : res unit * rreg :=
  match f with
  | None => (Raise IOError, r)
  | Some (docs, e) => read_docs env r None docs e
  end.
