(** dtfabric/registry.py: the data type definitions registry. *)
From Coq Require Import String List ZArith Bool.
From Verif Require Import Base PyVal DataTypes.
Import ListNotations.

(** DataTypeDefinitionsRegistry.__init__, registry.py:17-22. *)
Record registry : Type := mkReg {
  r_aliases : dict string;
  r_definitions : dict dtype;
  r_format_definitions : list string }.

(** DataTypeDefinitionsRegistry.__init__, registry.py:17-22. *)
Definition reg_empty : registry := mkReg [] [] [].

(** The attribute aliases, data_types.py:44. *)
Definition dt_aliases (d : dtype) : list string := m_aliases (dt_meta d).

(** [TYPE_INDICATOR == TYPE_INDICATOR_FORMAT], registry.py:99. *)
Definition is_format (d : dtype) : bool :=
  match d with DFormat _ _ _ => true | _ => false end.

(** DeregisterDefinition, registry.py:24-42. *)
Definition deregister (r : registry) (d : dtype) : res unit * registry :=
  let name := str_lower (dt_name d) in
  if dict_mem name (r_definitions r)
  then (Ok tt, mkReg (r_aliases r) (dict_del name (r_definitions r)) (r_format_definitions r))
  else (Raise KeyError, r).

(** GetDefinitionByName, registry.py:44-58. *)
Definition lookup (r : registry) (name : string) : option dtype :=
  let lname := str_lower name in
  let lname :=
    if dict_mem lname (r_definitions r) then lname
    else opt_default lname (dict_get name (r_aliases r)) in
  dict_get lname (r_definitions r).

(** GetDefinitions, registry.py:60-66. *)
Definition definitions (r : registry) : list dtype := map snd (r_definitions r).

(** RegisterDefinition, registry.py:68-100. *)
Definition register (r : registry) (d : dtype) : res unit * registry :=
  let name_lower := str_lower (dt_name d) in
  if dict_mem name_lower (r_definitions r) then (Raise KeyError, r)
  else if dict_mem (dt_name d) (r_aliases r) then (Raise KeyError, r)
  else if existsb (fun a => dict_mem a (r_aliases r)) (dt_aliases d)
  then (Raise KeyError, r)
  else (Ok tt,
        mkReg (fold_left (fun al a => dict_set a name_lower al) (dt_aliases d) (r_aliases r))
          (dict_set name_lower d (r_definitions r))
          (if is_format d then r_format_definitions r ++ [name_lower]
           else r_format_definitions r)).
