(** dtfabric/data_types.py: data type definitions. *)
From Coq Require Import String List ZArith Bool Lia.
From Verif Require Import Base PyVal.
Import ListNotations.
Open Scope Z_scope.

(** dtfabric/definitions.py:4-12.  Simplification: a byte_order attribute
    assigned by hand to something else is not modelled. *)
Inductive byte_order : Set := BONative | BOBig | BOLittle.

(** Comparison of byte orders, definitions.py:4-12. *)
Definition bo_eqb (a b : byte_order) : bool :=
  match a, b with
  | BONative, BONative | BOBig, BOBig | BOLittle, BOLittle => true
  | _, _ => false
  end.

(** [byte_order == definitions.BYTE_ORDER_NATIVE], as at data_maps.py:790-791
    and 1849-1850. *)
Definition is_native (b : byte_order) : bool := bo_eqb b BONative.

(** DataTypeDefinition.__init__, data_types.py:31-47.  The URLs are not
    modelled.  The Python name None (unnamed union member) is the empty
    string. *)
Record meta : Set := mkMeta {
  m_name : string;
  m_aliases : list string;
  m_desc : option string }.

(** Attributes of StorageDataTypeDefinition and FixedSizeDataTypeDefinition,
    data_types.py:93 and 126-127.  [f_size = None] is SIZE_NATIVE. *)
Record fixed : Set := mkFixed {
  f_meta : meta;
  f_bo : byte_order;
  f_size : option Z;
  f_units : string }.

(** Attributes of ElementSequenceDataTypeDefinition, data_types.py:324-333, and
    the encoding of StringDefinition, data_types.py:398. *)
Record elems : Type := mkElems {
  e_meta : meta;
  e_bo : byte_order;
  e_data_size : option Z;
  e_data_size_expr : option string;
  e_data_type : option string;
  e_terminator : option pyval;
  e_number : option Z;
  e_number_expr : option string;
  e_encoding : string }.

(** SequenceDefinition, StreamDefinition and StringDefinition,
    data_types.py:357-398. *)
Inductive seq_kind : Set := KSequence | KStream | KString.

(** EnumerationValue.__init__, data_types.py:687-703. *)
Record enum_value : Type := mkEnumValue {
  ev_name : string;
  ev_number : pyval;
  ev_aliases : list string;
  ev_desc : option string }.

(** EnumerationDefinition attributes, data_types.py:735-738. *)
Record enum_def : Type := mkEnum {
  en_values : list enum_value;
  en_per_alias : dict enum_value;
  en_per_name : dict enum_value;
  en_per_number : list (pyval * enum_value) }.

(** The data type definition classes.  Simplification: definitions are trees,
    so sharing and later mutation of a referenced definition are not part of
    this type; the mutable member container with its size cache is
    [struct_state] below.  data_types.py:141-281, 357-398, 493-632, 651-674,
    706-738, 814-839 and 842-948. *)
Inductive dtype : Type :=
| DBoolean (f : fixed) (false_value true_value : option Z)
| DCharacter (f : fixed)
| DFloat (f : fixed)
| DInteger (f : fixed) (unsigned : bool)
| DUUID (f : fixed)
| DPadding (m : meta) (bo : byte_order) (align : option Z)
| DElems (k : seq_kind) (e : elems) (elem : dtype)
| DStructure (m : meta) (bo : byte_order) (members : list dtype)
| DUnion (m : meta) (bo : byte_order) (members : list dtype)
| DMember (m : meta) (bo : byte_order) (condition : option string)
    (data_type : option string) (values : option (list pyval)) (d : dtype)
| DConstant (m : meta) (value : pyval)
| DEnumeration (m : meta) (en : enum_def)
| DFormat (m : meta) (bo : option byte_order) (layout : list (string * option Z))
| DFamily (m : meta) (base : dtype) (members : list dtype)
| DGroup (m : meta) (bo : byte_order) (base : dtype) (identifier : string)
    (default : option dtype) (members : list dtype).

(** The attributes of DataTypeDefinition, data_types.py:43-47. *)
Definition dt_meta (d : dtype) : meta :=
  match d with
  | DBoolean f _ _ | DCharacter f | DFloat f | DInteger f _ | DUUID f => f_meta f
  | DElems _ e _ => e_meta e
  | DPadding m _ _ | DStructure m _ _ | DUnion m _ _ | DMember m _ _ _ _ _
  | DConstant m _ | DEnumeration m _ | DFormat m _ _ | DFamily m _ _
  | DGroup m _ _ _ _ _ => m
  end.

(** The attribute [name].  data_types.py:46. *)
Definition dt_name (d : dtype) : string := m_name (dt_meta d).

(** The attribute [byte_order]; None if the class has no such attribute:
    SemanticDataTypeDefinition and StructureFamilyDefinition never have it,
    FormatDefinition only if the reader set it (reader.py:539-553). *)
Definition dt_byte_order (d : dtype) : option byte_order :=
  match d with
  | DBoolean f _ _ | DCharacter f | DFloat f | DInteger f _ | DUUID f => Some (f_bo f)
  | DElems _ e _ => Some (e_bo e)
  | DPadding _ bo _ | DStructure _ bo _ | DUnion _ bo _ | DMember _ bo _ _ _ _
  | DGroup _ bo _ _ _ _ => Some bo
  | DFormat _ bo _ => bo
  | DConstant _ _ | DEnumeration _ _ | DFamily _ _ _ => None
  end.

(** IsComposite: data_types.py:57-65 with _IS_COMPOSITE of each class, and
    MemberDataTypeDefinition.IsComposite, data_types.py:546-556. *)
Fixpoint is_composite (d : dtype) : bool :=
  match d with
  | DUUID _ | DElems _ _ _ | DStructure _ _ _ | DUnion _ _ _
  | DFormat _ _ _ | DFamily _ _ _ | DGroup _ _ _ _ _ _ => true
  | DMember _ _ c _ _ d' =>
      (match truthy_str c with Some _ => true | None => false end) || is_composite d'
  | _ => false
  end.

(** FixedSizeDataTypeDefinition.GetByteSize, data_types.py:129-138. *)
Definition fixed_byte_size (f : fixed) : option Z :=
  if String.eqb (f_units f) "bytes" then f_size f else None.

(** The alignment remainder of data_types.py:601-604 and
    PaddingMap._CalculatePaddingSize, data_maps.py:1406-1410, for a non-zero
    alignment. *)
Definition padding_size (align off : Z) : Z :=
  let r := off mod align in
  if 0 <? r then align - r else r.

(** ElementSequenceDataTypeDefinition.GetByteSize, data_types.py:335-354, given
    the byte size of the element. *)
Definition elems_byte_size (e : elems) (elem_size : option Z) : option Z :=
  match truthy_Z (e_data_size e) with
  | Some n => Some n
  | None =>
      match truthy_Z (e_number e) with
      | None => None
      | Some n =>
          match truthy_Z elem_size with
          | None => None
          | Some s => Some (s * n)
          end
      end
  end.

(** One step of the loop of StructureDefinition.GetByteSize,
    data_types.py:592-606: [pad] is the truthy alignment of a padding member
    and [size] the byte size of any other member. *)
Definition struct_size_step (acc : Z) (pad : option Z) (size : option Z) : option Z :=
  match pad with
  | Some a => Some (acc + padding_size a acc)
  | None => match size with Some s => Some (acc + s) | None => None end
  end.

(** The truthy alignment size if the definition is a PaddingDefinition,
    data_types.py:593-594. *)
Definition pad_align (d : dtype) : option Z :=
  match d with DPadding _ _ a => truthy_Z a | _ => None end.

(** GetByteSize of every class: data_types.py:129-138, 276-282, 335-354,
    535-544, 584-608, 616-632, 642-648, 784-790.  The cache of structures and
    unions is modelled by [struct_state]. *)
Fixpoint get_byte_size (d : dtype) : option Z :=
  match d with
  | DBoolean f _ _ | DCharacter f | DFloat f | DInteger f _ | DUUID f =>
      fixed_byte_size f
  | DPadding _ _ _ => None
  | DElems _ e el => elems_byte_size e (get_byte_size el)
  | DStructure _ _ ms =>
      match ms with
      | [] => None
      | _ =>
          (fix go (l : list dtype) (acc : Z) : option Z :=
             match l with
             | [] => Some acc
             | m :: r =>
                 match struct_size_step acc (pad_align m) (get_byte_size m) with
                 | Some acc' => go r acc'
                 | None => None
                 end
             end) ms 0
      end
  | DUnion _ _ ms =>
      match ms with
      | [] => None
      | _ =>
          (fix go (l : list dtype) (acc : Z) : option Z :=
             match l with
             | [] => Some acc
             | m :: r =>
                 match get_byte_size m with
                 | Some s => go r (Z.max acc s)
                 | None => None
                 end
             end) ms 0
      end
  | DMember _ _ c _ _ d' =>
      match truthy_str c with Some _ => None | None => get_byte_size d' end
  | _ => None
  end.

(** GetMemberDefinitionByName, data_types.py:480-490.  Member names are unique
    (AddMemberDefinition), so this is the first member with the name. *)
Definition find_member (name : string) (ms : list dtype) : option dtype :=
  find (fun d => String.eqb (dt_name d) name) ms.

(** * Enumerations *)

(** EnumerationDefinition.__init__, data_types.py:735-738. *)
Definition enum_empty : enum_def := mkEnum [] [] [] [].

(** Lookup in values_per_number, data_types.py:757 and data_maps.py:2132. *)
Definition num_get (n : pyval) (l : list (pyval * enum_value)) : option enum_value :=
  match find (fun kv => py_eq n (fst kv)) l with Some kv => Some (snd kv) | None => None end.

(** EnumerationDefinition.AddValue, data_types.py:740-772.  A number that
    equals no existing key is appended, as in a dict. *)
Definition enum_add (e : enum_def) (v : enum_value) : res unit * enum_def :=
  if dict_mem (ev_name v) (en_per_name e) then (Raise KeyError, e)
  else match num_get (ev_number v) (en_per_number e) with
  | Some _ => (Raise KeyError, e)
  | None =>
      if existsb (fun a => dict_mem a (en_per_alias e)) (ev_aliases v)
      then (Raise KeyError, e)
      else (Ok tt,
            mkEnum (en_values e ++ [v])
              (fold_left (fun d a => dict_set a v d) (ev_aliases v) (en_per_alias e))
              (dict_set (ev_name v) v (en_per_name e))
              (en_per_number e ++ [(ev_number v, v)]))
  end.

(** EnumerationMap.GetName, data_maps.py:2122-2136. *)
Definition enum_get_name (e : enum_def) (n : pyval) : option string :=
  option_map ev_name (num_get n (en_per_number e)).

(** * Structures and unions as mutable member containers *)

(** A section of members, data_types.py:559-576. *)
Record section_def : Type := mkSection {
  sec_name : string;
  sec_members : list dtype }.

(** DataTypeDefinitionWithMembers attributes, data_types.py:427-432. *)
Record struct_state : Type := mkStructState {
  ss_byte_size : option Z;
  ss_members : dict dtype;
  ss_sections : list section_def }.

(** DataTypeDefinitionWithMembers.__init__, data_types.py:427-432. *)
Definition struct_empty : struct_state := mkStructState None [] [].

(** section_definition.members.append on the last section,
    data_types.py:459-461. *)
Fixpoint append_last (l : list section_def) (d : dtype) : list section_def :=
  match l with
  | [] => []
  | [s] => [mkSection (sec_name s) (sec_members s ++ [d])]
  | s :: r => s :: append_last r d
  end.

(** AddMemberDefinition, data_types.py:443-461.  The error for a duplicate
    unnamed member is a TypeError because the message formats None. *)
Definition struct_add_member (s : struct_state) (d : dtype) : res unit * struct_state :=
  if dict_mem (dt_name d) (ss_members s)
  then (Raise (if String.eqb (dt_name d) "" then TypeError else KeyError), s)
  else (Ok tt,
        mkStructState None (dict_set (dt_name d) d (ss_members s))
          (append_last (ss_sections s) d)).

(** AddSectionDefinition, data_types.py:463-470. *)
Definition struct_add_section (s : struct_state) (name : string) : struct_state :=
  mkStructState (ss_byte_size s) (ss_members s) (ss_sections s ++ [mkSection name []]).

(** The loop of StructureDefinition.GetByteSize, data_types.py:591-606. *)
Fixpoint struct_size_loop (ms : list dtype) (acc : Z) : option Z :=
  match ms with
  | [] => Some acc
  | m :: r =>
      match struct_size_step acc (pad_align m) (get_byte_size m) with
      | Some acc' => struct_size_loop r acc'
      | None => None
      end
  end.

(** StructureDefinition.GetByteSize with its cache, data_types.py:584-608. *)
Definition struct_get_byte_size (s : struct_state) : option Z * struct_state :=
  match ss_byte_size s, ss_members s with
  | None, _ :: _ =>
      let r := struct_size_loop (map snd (ss_members s)) 0 in
      (r, mkStructState r (ss_members s) (ss_sections s))
  | b, _ => (b, s)
  end.

(** The loop of UnionDefinition.GetByteSize, data_types.py:623-630. *)
Fixpoint union_size_loop (ms : list dtype) (acc : Z) : option Z :=
  match ms with
  | [] => Some acc
  | m :: r =>
      match get_byte_size m with
      | Some s => union_size_loop r (Z.max acc s)
      | None => None
      end
  end.

(** UnionDefinition.GetByteSize with its cache, data_types.py:616-632. *)
Definition union_get_byte_size (s : struct_state) : option Z * struct_state :=
  match ss_byte_size s, ss_members s with
  | None, _ :: _ =>
      let r := union_size_loop (map snd (ss_members s)) 0 in
      (r, mkStructState r (ss_members s) (ss_sections s))
  | b, _ => (b, s)
  end.
