(** dtfabric/runtime/data_maps.py: what maps that do not map bytes are asked for. *)
From Coq Require Import String List ZArith Bool.
From Verif Require Import Base PyVal DataTypes DataMaps.
Import ListNotations.

(** EnumerationMap.GetName, data_maps.py:2122-2136.  Other maps have no such method.
    Simplification: a number that cannot be hashed raises TypeError in Python. *)
Definition map_get_name (m : dmap) (number : pyval) : res (option string) :=
  match m with
  | MSemantic (DEnumeration _ e) => Ok (enum_get_name e number)
  | _ => Raise AttributeError
  end.

(** FormatMap.layout, data_maps.py:2178-2185: the names of the data types and the
    offsets of the layout elements.  Other maps have no such property. *)
Definition map_layout (m : dmap) : res (list (string * option Z)) :=
  match m with
  | MFormat (DFormat _ _ layout) => Ok layout
  | _ => Raise AttributeError
  end.
