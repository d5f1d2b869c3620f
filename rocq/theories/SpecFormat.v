(** Specification vocabulary for the struct format strings of data type maps. *)
From Coq Require Import String List ZArith Bool.
From Verif Require Import Base PyVal PyStruct DataTypes DataMaps.
Import ListNotations.
Open Scope Z_scope.

(** The elements of a sequence are numbers, characters or booleans, and its data
    size, if that is given, is a multiple of the element size. *)
Definition simple_elements (d : dtype) : Prop :=
  match d with
  | DElems KSequence e el =>
      match el with
      | DBoolean _ _ _ | DCharacter _ | DFloat _ | DInteger _ _ => True
      | _ => False
      end /\
      forall s b, e_data_size e = Some s -> get_byte_size el = Some b -> s mod b = 0
  | _ => True
  end.

(** Maps that read their bytes with one call of struct: primitives, and sequences
    and structures that are read in one go. *)
Definition unpacks (m : dmap) : Prop :=
  match m with
  | MPrim _ _ | MSequence true _ _ _ _ | MStructure true _ _ _ _ _ => True
  | _ => False
  end.
