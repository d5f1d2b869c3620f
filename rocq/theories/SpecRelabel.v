(** Specification vocabulary for definitions and values without their names. *)
From Coq Require Import String List ZArith Bool.
From Verif Require Import Base PyVal DataTypes.
Import ListNotations.
Open Scope string_scope.
Open Scope list_scope.
Open Scope Z_scope.

Definition no_name : meta := mkMeta "" [] None.

Definition fixed_unnamed (f : fixed) : fixed := mkFixed no_name (f_bo f) (f_size f) (f_units f).

(** A definition without the names, aliases and descriptions in it.  A structure
    group loses its own, but not those of the structures to choose from: they are
    told apart by the member that the group names. *)
Fixpoint unnamed (d : dtype) : dtype :=
  match d with
  | DBoolean f fv tv => DBoolean (fixed_unnamed f) fv tv
  | DCharacter f => DCharacter (fixed_unnamed f)
  | DFloat f => DFloat (fixed_unnamed f)
  | DInteger f u => DInteger (fixed_unnamed f) u
  | DUUID f => DUUID (fixed_unnamed f)
  | DPadding _ bo a => DPadding no_name bo a
  | DElems k e el =>
      DElems k (mkElems no_name (e_bo e) (e_data_size e) (e_data_size_expr e) None (e_terminator e)
                  (e_number e) (e_number_expr e) (e_encoding e)) (unnamed el)
  | DStructure _ bo ms => DStructure no_name bo (map unnamed ms)
  | DUnion _ bo ms => DUnion no_name bo (map unnamed ms)
  | DMember _ bo c _ vs i => DMember no_name bo c None vs (unnamed i)
  | DConstant _ v => DConstant no_name v
  | DEnumeration _ e => DEnumeration no_name e
  | DFormat _ bo l => DFormat no_name bo l
  | DFamily _ b ms => DFamily no_name b ms
  | DGroup _ bo b i df ms => DGroup no_name bo b i df ms
  end.

(** A value without the names of its classes and attributes. *)
Fixpoint anonymous (v : pyval) : pyval :=
  match v with
  | VTuple l => VTuple (map anonymous l)
  | VStruct _ l => VStruct "" (map (fun a => ("", anonymous (snd a))) l)
  | _ => v
  end.
