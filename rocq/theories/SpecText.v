(** Specification vocabulary for the texts that end up in a generated class. *)
From Coq Require Import String Ascii List.
From Coq Require Export Permutation.
From Verif Require Import Base PyVal DataTypes.
Import ListNotations.
Open Scope string_scope.

(** A text that can stand in a docstring: without three quotes in a row, null
    characters, and backslashes before x, u, U or N. *)
Definition harmless (s : string) : Prop :=
  (forall a b, s <> a ++ """""""" ++ b) /\
  (forall a b, s <> a ++ String "000" b) /\
  (forall a c b, s = a ++ "\" ++ String c b -> ~ In c ["x"; "u"; "U"; "N"]%char).

(** The data type that a member names, and the one that its elements name. *)
Definition types_named (m : dtype) : list string :=
  let of_option (o : option string) := match o with Some t => [t] | None => [] end in
  let of_elements (d : dtype) := match d with DElems _ e _ => of_option (e_data_type e) | _ => [] end in
  match m with
  | DMember _ _ _ dt _ i => of_option dt ++ of_elements i
  | d => of_elements d
  end%list.

(** The descriptions of a structure and its members and the data types that they
    name. *)
Definition texts_of (desc : option string) (ms : list dtype) : list string :=
  (match desc with Some s => [s] | None => [] end ++
   flat_map (fun m => match m_desc (dt_meta m) with Some s => [s] | None => [] end ++ types_named m) ms)%list.
