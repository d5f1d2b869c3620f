(** Making structure values by hand: StructureMap.CreateStructureValues of
    dtfabric/runtime/data_maps.py. *)
From Coq Require Import String List ZArith Bool.
From Verif Require Import Base PyVal DataTypes ClassFactory DataMaps.
Import ListNotations.

(** How Python binds the arguments of a call to the parameters of the constructor,
    runtime.py:27-30, which are the members in order with the default None.
    [kwargs] is a dict.  A keyword that is no member (or is self), a member given
    twice and too many arguments are a TypeError. *)
Definition bind_arguments (names : list string) (args : list pyval) (kwargs : dict pyval) : res (list pyval) :=
  let rest := skipn (List.length args) names in
  if (List.length args <=? List.length names)%nat && forallb (fun kv => str_in (fst kv) rest) kwargs
  then Ok (args ++ map (fun n => match dict_get n kwargs with Some v => v | None => VNone end) rest)
  else Raise TypeError.

(** CreateStructureValues, data_maps.py:1972-1978.  Other maps have no such
    method. *)
Definition create_values (m : dmap) (args : list pyval) (kwargs : dict pyval) : res pyval :=
  match m with
  | MStructure _ _ cls ms _ _ =>
      bind (bind_arguments (map dt_name ms) args kwargs) (fun l => instance cls (map dt_name ms) l)
  | _ => Raise AttributeError
  end.
