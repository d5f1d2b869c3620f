(** Specification vocabulary for values that tell their bytes. *)
From Coq Require Import String List ZArith Bool.
From Verif Require Import Base PyVal PyStruct DataTypes ClassFactory DataMaps SpecPrim SpecMap SpecCreate SpecFold.
Import ListNotations.
Open Scope Z_scope.

(** Apart from what the definition refers to: booleans have a false and a true
    value, UUIDs a byte order, strings a size or a terminator but not both and an
    encoding without different bytes for a text, and the definitions a group
    chooses from are structures of different names. *)
Definition telling (orc : oracle) (d : dtype) : Prop :=
  match d with
  | DBoolean _ fv tv => fv <> None /\ tv <> None
  | DUUID f => f_bo f <> BONative
  | DElems KString e el => faithful orc (e_encoding e) /\ (e_terminator e = None \/ unsized_stream e el)
  | DGroup _ _ _ _ default ms =>
      let choices := ms ++ match default with Some x => [x] | None => [] end in
      (forall x, In x choices -> exists mt bo l, x = DStructure mt bo l) /\
      (forall x y, In x choices -> In y choices -> dt_name x = dt_name y -> x = y)
  | _ => True
  end.
