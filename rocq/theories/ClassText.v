(** dtfabric/runtime/runtime.py: the text of the generated class. *)
From Coq Require Import String Ascii List Bool.
From Verif Require Import Base PyVal DataTypes ClassFactory.
Import ListNotations.
Open Scope string_scope.

(** The separator of lines, runtime.py:19, 91 and 94. *)
Definition newline : string := String "010"%char EmptyString.

(** Three quotation marks.  As at runtime.py:21, 25 and 28. *)
Definition quotes : string := """""""".

(** str.join.  As at runtime.py:19, 91, 93 and 94. *)
Fixpoint join (sep : string) (l : list string) : string :=
  match l with
  | [] => ""
  | [s] => s
  | s :: r => s ++ sep ++ join sep r
  end.

(** sorted() of a list of strings.  Simplification: insertion sort, for which
    the result is the same; strings are UTF-8, the order of which is that of the
    code points.  As at runtime.py:92 and 94. *)
Fixpoint insert_sorted (s : string) (l : list string) : list string :=
  match l with
  | [] => [s]
  | x :: r => if String.leb s x then s :: l else x :: insert_sorted s r
  end.

(** As at runtime.py:92 and 94. *)
Definition sorted (l : list string) : list string := fold_right insert_sorted [] l.

(** The loops that remove trailing dots, runtime.py:55-56 and 66-67. *)
Fixpoint strip_dots (s : string) : string :=
  match s with
  | EmptyString => EmptyString
  | String c r =>
      match strip_dots r with
      | EmptyString => if Ascii.eqb c "." then EmptyString else String c EmptyString
      | r' => String c r'
      end
  end.

(** [description or name] without trailing dots, runtime.py:54-56 and 65-67. *)
Definition described (desc : option string) (name : string) : string :=
  strip_dots (match desc with Some (String _ _ as s) => s | _ => name end).

(** The three texts made of one member, runtime.py:62-89. *)
Definition member_argument (m : dtype) : string := dt_name m ++ "=None".

(** The assignment of one member, runtime.py:82. *)
Definition member_assignment (m : dtype) : string :=
  "    self." ++ dt_name m ++ " = " ++ dt_name m.

(** The line that documents one member, runtime.py:83-85. *)
Definition member_description (m : dtype) : res string :=
  let* t := type_indicator m in
  Ok ("    " ++ dt_name m ++ " (" ++ t ++ "): " ++ described (m_desc (dt_meta m)) (dt_name m) ++ ".").

(** The lines for all members, runtime.py:62-89. *)
Fixpoint member_descriptions (ms : list dtype) : res (list string) :=
  match ms with
  | [] => Ok []
  | m :: r => let* s := member_description m in
              let* l := member_descriptions r in
              Ok (s :: l)
  end.

(** _CLASS_TEMPLATE, runtime.py:19-31, with its values filled in. *)
Definition class_template (type_name type_description attributes arguments assignments : string) : string :=
  join newline
    [ "class " ++ type_name ++ "(object):";
      "  " ++ quotes ++ type_description ++ ".";
      "";
      "  Attributes:";
      attributes;
      "  " ++ quotes;
      "";
      "  def __init__(self, " ++ arguments ++ "):";
      "    " ++ quotes ++ "Initializes an instance of " ++ type_name ++ "." ++ quotes;
      "    super(" ++ type_name ++ ", self).__init__()";
      assignments;
      "" ].

(** StructureValuesClassFactory._CreateClassTemplate, runtime.py:42-103, of a
    structure with the given name, description and members. *)
Definition class_text (name : string) (desc : option string) (ms : list dtype) : res string :=
  let* attributes := member_descriptions ms in
  Ok (class_template name (described desc name)
        (join newline (sorted attributes))
        (join ", " (map member_argument ms))
        (join newline (sorted (map member_assignment ms)))).
