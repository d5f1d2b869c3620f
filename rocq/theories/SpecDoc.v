(** Specification vocabulary for the documentation of a generated class. *)
From Coq Require Import String Ascii List.
From Verif Require Import Base PyVal DataTypes SpecCreate.
Import ListNotations.
Open Scope string_scope.

(** [t] is [s] without the dots at its end. *)
Definition without_dots (s t : string) : Prop :=
  (exists dots, s = t ++ dots /\ forall a c b, dots = a ++ String c b -> c = "."%char) /\ forall a, t <> a ++ ".".

(** The description, or the name if there is none, without dots at its end. *)
Definition told (desc : option string) (name t : string) : Prop :=
  match desc with
  | Some s => (s <> "" /\ without_dots s t) \/ (s = "" /\ without_dots name t)
  | None => without_dots name t
  end.

(** The Python type of the values of a member, if it has one of its own, and the
    name of its data type otherwise. *)
Definition python_type (m : dtype) (t : string) : Prop :=
  match type_of m with
  | DBoolean _ _ _ => t = "bool"
  | DCharacter _ => t = "str"
  | DFloat _ => t = "float"
  | DInteger _ _ => t = "int"
  | DUUID _ => t = "uuid.UUID"
  | DElems KStream _ _ => t = "bytes"
  | DElems KString _ _ => t = "str"
  | DElems KSequence e _ => exists n, e_data_type e = Some n /\ t = "tuple[" ++ n ++ "]"
  | _ => match m with DMember _ _ _ dt _ _ => dt = Some t | _ => t = "" end
  end.

(** The line that documents a member. *)
Definition documents (m : dtype) (line : string) : Prop :=
  exists t d, python_type m t /\ told (m_desc (dt_meta m)) (dt_name m) d /\
    line = "    " ++ dt_name m ++ " (" ++ t ++ "): " ++ d ++ ".".
