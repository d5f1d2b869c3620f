(** Specification vocabulary for data type definitions as trees and for the
    creation of maps. *)
From Coq Require Import String List ZArith Bool.
From Verif Require Import Base PyVal PyStruct DataTypes ClassFactory DataMaps SpecPrim.
From Verif Require Export SpecNames.
Import ListNotations.
Open Scope Z_scope.

(** [P] holds for the definition and everything it refers to. *)
Fixpoint everywhere (P : dtype -> Prop) (d : dtype) : Prop :=
  P d /\
  match d with
  | DElems _ _ el => everywhere P el
  | DStructure _ _ ms | DUnion _ _ ms =>
      (fix go (l : list dtype) : Prop :=
         match l with [] => True | m :: r => everywhere P m /\ go r end) ms
  | DMember _ _ _ _ _ i => everywhere P i
  | DFamily _ b ms =>
      everywhere P b /\
      (fix go (l : list dtype) : Prop :=
         match l with [] => True | m :: r => everywhere P m /\ go r end) ms
  | DGroup _ _ b _ df ms =>
      everywhere P b /\ match df with Some x => everywhere P x | None => True end /\
      (fix go (l : list dtype) : Prop :=
         match l with [] => True | m :: r => everywhere P m /\ go r end) ms
  | _ => True
  end.

(** The data type of a member. *)
Definition type_of (m : dtype) : dtype :=
  match m with DMember _ _ _ _ _ i => i | i => i end.

(** The definition that a member of the structure [sname] with byte order [sbo]
    is mapped with: its data type, or if its byte order is native and that of the
    structure is not a copy with the byte order of the structure. *)
Definition used_type (sname : string) (sbo : byte_order) (m : dtype) : dtype :=
  match sbo, dt_byte_order (type_of m) with
  | BONative, _ => type_of m
  | _, Some BONative =>
      set_name_bo (String.append "_" (String.append sname (String.append "_" (dt_name (type_of m)))))
        sbo (type_of m)
  | _, _ => type_of m
  end.

(** No two different definitions of the same name are used for the members of the
    structure. *)
Definition distinct_types (sname : string) (sbo : byte_order) (ms : list dtype) : Prop :=
  forall m1 m2, In m1 ms -> In m2 ms ->
    dt_name (used_type sname sbo m1) = dt_name (used_type sname sbo m2) ->
    used_type sname sbo m1 = used_type sname sbo m2.

(** The data types of the members of a structure have names that tell them apart
    and do not start with an underscore (the names of the copies with another
    byte order do). *)
Definition well_named (d : dtype) : Prop :=
  match d with
  | DStructure _ _ ms =>
      (forall m1 m2, In m1 ms -> In m2 ms ->
         dt_name (type_of m1) = dt_name (type_of m2) -> type_of m1 = type_of m2) /\
      (forall m r, In m ms -> dt_name (type_of m) <> String.append "_" r)
  | _ => True
  end.

(** The first member whose definition is used under the same name. *)
Definition first_namesake (sname : string) (sbo : byte_order) (ms : list dtype) (m : dtype) : option dtype :=
  find (fun x => String.eqb (dt_name (used_type sname sbo x)) (dt_name (used_type sname sbo m))) ms.

(** The byte order that a member type or element type is read with inside a
    definition with byte order [outer]: its own, or that of the enclosing
    definition if its own is native. *)
Definition inherited (outer own : byte_order) : byte_order :=
  match own with BONative => outer | _ => own end.

(** ** Nesting *)

(** A map that counts a level of nesting. *)
Definition level (m : dmap) : Prop :=
  match m with
  | MSequence false _ _ _ _ | MStructure false _ _ _ _ _ => True
  | _ => False
  end.

(** Mapping [m] always maps [x] one level deeper: [x] is the map of an
    unconditional member of the structure [m], or the element map of the sequence
    [m] that has a fixed positive number of elements or ends with a terminator. *)
Inductive contains : dmap -> dmap -> Prop :=
| contains_member d cls ms attrs op mem name x :
    List.length ms = List.length attrs ->
    In (mem, (name, Some x)) (combine ms attrs) -> truthy_str (member_cond mem) = None ->
    contains (MStructure false d cls ms attrs op) x
| contains_counted e ed x op n :
    e_data_size e = None -> e_data_size_expr e = None -> e_terminator e = None ->
    e_number e = Some n -> 0 < n ->
    contains (MSequence false e ed (Some x) op) x
| contains_terminated e ed x op t :
    e_data_size e = None -> e_data_size_expr e = None ->
    e_terminator e = Some t -> t <> VNone ->
    contains (MSequence false e ed (Some x) op) x.

(** [k] levels of nesting below [m]. *)
Inductive nested : nat -> dmap -> Prop :=
| nested_here m : level m -> nested 0 m
| nested_in k m x : contains m x -> nested k x -> nested (S k) m.

(** ** Sensible definitions *)

(** Conditions on a definition, apart from what it refers to, that hold for
    sensible definitions: sizes and counts are positive, a UUID has 16 bytes, a
    data size and a number of elements are not both given, the terminator of a
    stream or string is one element, and the data types of the members of a
    structure can be told apart by name. *)
Definition sound (d : dtype) : Prop :=
  match d with
  | DBoolean f _ _ | DCharacter f | DFloat f | DInteger f _ =>
      forall n, fixed_byte_size f = Some n -> 0 < n
  | DUUID f => forall n, fixed_byte_size f = Some n -> n = 16
  | DPadding _ _ a => exists n, a = Some n /\ 0 < n
  | DElems k e el =>
      (has_data_size e = false \/ has_number e = false) /\
      (forall n, e_data_size e = Some n -> 0 < n) /\
      (forall n, e_number e = Some n -> 0 < n) /\
      match k with
      | KSequence => e_terminator e <> Some VNone
      | KStream | KString =>
          forall t, e_terminator e = Some t ->
            exists b, t = VBytes b /\ get_byte_size el = Some (len b) /\ 0 < len b
      end
  | _ => True
  end /\ well_named d.

(** Maps that read their bytes in one go. *)
Definition flat (m : dmap) : Prop :=
  match m with
  | MPrim _ _ | MUUID _ | MStream _ _ _ | MString _ _ _
  | MSequence true _ _ _ _ | MStructure true _ _ _ _ _ => True
  | _ => False
  end.

(** ** Structure groups *)

(** The member [identifier] of the structure (or union) [x] lists the values
    [vs]. *)
Definition lists (identifier : string) (x : dtype) (vs : list pyval) : Prop :=
  exists mt bo ms m bo' cond ty inner,
    (x = DStructure mt bo ms \/ x = DUnion mt bo ms) /\
    In (DMember m bo' cond ty (Some vs) inner) ms /\ m_name m = identifier.

(** ** Maps and their parts *)

(** [P] holds for the map and all maps it uses. *)
Fixpoint all_maps (P : dmap -> Prop) (m : dmap) : Prop :=
  P m /\
  match m with
  | MSequence _ _ _ (Some x) _ | MStream _ _ (Some x) | MString _ _ (Some x) => all_maps P x
  | MStructure _ _ _ _ attrs _ =>
      (fix go (l : list (string * option dmap)) : Prop :=
         match l with
         | [] => True
         | (_, Some x) :: r => all_maps P x /\ go r
         | (_, None) :: r => go r
         end) attrs
  | MGroup _ _ b df maps =>
      match b with Some x => all_maps P x | None => True end /\
      match df with Some x => all_maps P x | None => True end /\
      (fix go (l : list (pyval * option dmap)) : Prop :=
         match l with
         | [] => True
         | (_, Some x) :: r => all_maps P x /\ go r
         | (_, None) :: r => go r
         end) maps
  | _ => True
  end.

(** The map is not that of a structure group. *)
Definition no_group (m : dmap) : Prop :=
  match m with MGroup _ _ _ _ _ => False | _ => True end.

(** The definition that the elements of a sequence, stream or string are mapped
    with: the element data type, or if its byte order is native and that of the
    sequence is not a copy with the byte order of the sequence (unless it is
    composite). *)
Definition element_type (e : elems) (el : dtype) : dtype :=
  match e_bo e, dt_byte_order el with
  | BONative, _ => el
  | _, Some BONative =>
      if is_composite el then el
      else set_name_bo (String.append "_" (String.append (m_name (e_meta e)) (String.append "_" (dt_name el))))
             (e_bo e) el
  | _, _ => el
  end.

(** Conditions, apart from what the definition refers to, under which the size
    computed from the definition is the size that is mapped: no padding, and in
    sequences no terminator beside a fixed number of elements and no data size
    that is not a multiple of the element size. *)
Definition exact (d : dtype) : Prop :=
  match d with
  | DPadding _ _ _ => False
  | DElems KSequence e el =>
      (e_number e = None \/ e_terminator e = None) /\
      forall s, e_data_size e = Some s -> exists b, get_byte_size el = Some b /\ s mod b = 0
  | _ => True
  end.

(** ** Errors *)

(** The definition has what its map [m] relies on outside of any try block: a type
    that is read in one go has a known size, its elements are numbers as they are
    read, a structure that is read member by member has clear names, and the
    elements of a sequence with a data size have a size other than 0
    or a terminator of their own. *)
Definition tame (d : dtype) (m : dmap) : Prop :=
  match d with
  | DBoolean _ _ _ | DCharacter _ | DFloat _ | DInteger _ _ | DUUID _ => get_byte_size d <> None
  | DStructure mt _ ms =>
      (level m -> clear_names (m_name mt) (map dt_name ms)) /\ (level m \/ get_byte_size d <> None)
  | DElems KSequence e el =>
      (has_data_size e = true ->
         (exists b, get_byte_size el = Some b /\ b <> 0) \/
         (get_byte_size el = None /\ exists k e' el', el = DElems k e' el')) /\
      (level m \/
       (get_byte_size d <> None /\
        match el with DBoolean _ _ _ | DCharacter _ => False | _ => True end))
  | _ => True
  end.
