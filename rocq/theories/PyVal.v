(** Python values that flow through the library. *)
From Coq Require Import String List ZArith Bool.
From Verif Require Import Base Ieee.
Import ListNotations.
Open Scope Z_scope.

(** [VFloat] holds the 64 bit pattern of the double, [VStr] code points,
    [VUUID] the 16 bytes of [uuid.UUID.bytes], [VStruct] an instance of a class
    made by StructureValuesClassFactory (class name and attributes in
    declaration order), [VBuiltins] the empty dict stored under the key
    __builtins__.  Simplification: Python lists produced by the library are
    always converted to tuples; other Python objects are not modelled.  The
    values of MapByteStream, data_maps.py:125-137. *)
Inductive pyval : Type :=
| VNone
| VBool (b : bool)
| VInt (z : Z)
| VFloat (bits : Z)
| VStr (s : list Z)
| VBytes (b : bytes)
| VUUID (b : bytes)
| VTuple (l : list pyval)
| VStruct (cls : string) (attrs : list (string * pyval))
| VBuiltins.

(** Python [==].  Instances of structure classes compare by identity; every
    mapping creates a new instance, so they are never equal to another value.
    As at data_maps.py:1059, 1793 and 2359. *)
Fixpoint py_eq (a b : pyval) {struct a} : bool :=
  match a, b with
  | VNone, VNone => true
  | VBool x, VBool y => Bool.eqb x y
  | VBool x, VInt z => Z.b2z x =? z
  | VInt z, VBool x => Z.b2z x =? z
  | VInt x, VInt y => x =? y
  | VFloat x, VFloat y => f64_eqb x y
  | VFloat x, VInt z => f64_eqZ x z
  | VInt z, VFloat x => f64_eqZ x z
  | VFloat x, VBool b => f64_eqZ x (Z.b2z b)
  | VBool b, VFloat x => f64_eqZ x (Z.b2z b)
  | VStr x, VStr y => list_eqb Z.eqb x y
  | VBytes x, VBytes y => bytes_eqb x y
  | VUUID x, VUUID y => bytes_eqb x y
  | VTuple x, VTuple y =>
      (fix go (x y : list pyval) {struct x} : bool :=
         match x, y with
         | [], [] => true
         | a :: r, b :: s => py_eq a b && go r s
         | _, _ => false
         end) x y
  | VBuiltins, VBuiltins => true
  | _, _ => false
  end.

(** [v in l].  As at data_maps.py:1793 and 1950. *)
Definition py_in (v : pyval) (l : list pyval) : bool := existsb (py_eq v) l.

(** [getattr(v, name, None)].  Simplification: only instances of structure
    classes have attributes.  As at data_maps.py:1687, 1890 and 2350. *)
Definition py_getattr (v : pyval) (name : string) : pyval :=
  match v with
  | VStruct _ attrs => match dict_get name attrs with Some x => x | None => VNone end
  | _ => VNone
  end.

(** [setattr(v, name, x)] on an instance of a structure class.  As at
    data_maps.py:1774. *)
Definition py_setattr (v : pyval) (name : string) (x : pyval) : pyval :=
  match v with
  | VStruct cls attrs => VStruct cls (dict_set name x attrs)
  | _ => v
  end.

(** [type(v).__name__].  As at data_maps.py:1679, 1735 and 2018. *)
Definition type_name (v : pyval) : string :=
  match v with
  | VNone => "NoneType"
  | VBool _ => "bool"
  | VInt _ => "int"
  | VFloat _ => "float"
  | VStr _ => "str"
  | VBytes _ => "bytes"
  | VUUID _ => "UUID"
  | VTuple _ => "tuple"
  | VStruct cls _ => cls
  | VBuiltins => "dict"
  end%string.

(** [value is None], data_maps.py:1688 and 2352. *)
Definition is_VNone (v : pyval) : bool :=
  match v with VNone => true | _ => false end.
