(** dtfabric/runtime/runtime.py: the structure values class factory. *)
From Coq Require Import String Ascii List ZArith NArith Bool.
From Verif Require Import Base PyVal DataTypes.
Import ListNotations.

(** str.isdigit and str.isalnum on one character.  Simplification: only the
    ASCII characters are classified; Python also accepts other Unicode
    letters and digits, for example the superscript two, which is no part of
    any Python identifier.  As at runtime.py:116. *)
Definition char_isdigit (c : ascii) : bool :=
  let n := N_of_ascii c in ((48 <=? n) && (n <=? 57))%N.

(** The letters that str.isalnum accepts, runtime.py:117. *)
Definition char_isalpha (c : ascii) : bool :=
  let n := N_of_ascii c in
  (((65 <=? n) && (n <=? 90)) || ((97 <=? n) && (n <=? 122)))%N.

(** As at runtime.py:117. *)
Definition char_isalnum (c : ascii) : bool := char_isdigit c || char_isalpha c.

(** [all(... for character in string)], runtime.py:117. *)
Fixpoint str_forallb (p : ascii -> bool) (s : string) : bool :=
  match s with
  | EmptyString => true
  | String c r => p c && str_forallb p r
  end.

(** StructureValuesClassFactory._IsIdentifier, runtime.py:106-117. *)
Definition is_identifier (s : string) : bool :=
  match s with
  | EmptyString => false
  | String c _ =>
      negb (char_isdigit c)
      && str_forallb (fun c => char_isalnum c || Ascii.eqb c "_") s
  end.

(** keyword.iskeyword of Python 3.  As at runtime.py:134 and 158. *)
Definition keywords : list string :=
  ["False"; "None"; "True"; "and"; "as"; "assert"; "async"; "await"; "break";
   "class"; "continue"; "def"; "del"; "elif"; "else"; "except"; "finally";
   "for"; "from"; "global"; "if"; "import"; "in"; "is"; "lambda"; "nonlocal";
   "not"; "or"; "pass"; "raise"; "return"; "try"; "while"; "with"; "yield"]%string.

(** keyword.iskeyword, runtime.py:134 and 158. *)
Definition is_keyword (s : string) : bool := str_in s keywords.

(** [attribute_name.startswith], runtime.py:154. *)
Definition starts_with_underscore (s : string) : bool :=
  match s with String c _ => Ascii.eqb c "_" | _ => false end.

(** The member loop of _ValidateDataTypeDefinition, runtime.py:148-166. *)
Fixpoint validate_members (seen : list string) (names : list string) : res unit :=
  match names with
  | [] => Ok tt
  | n :: r =>
      if negb (is_identifier n) then Raise ValueError
      else if starts_with_underscore n then Raise ValueError
      else if is_keyword n then Raise ValueError
      else if str_in n seen then Raise ValueError
      else validate_members (n :: seen) r
  end.

(** _ValidateDataTypeDefinition, runtime.py:120-166. *)
Definition validate_class (name : string) (members : list string) : res unit :=
  if negb (is_identifier name) then Raise ValueError
  else if is_keyword name then Raise ValueError
  else match members with
       | [] => Raise ValueError
       | _ => validate_members [] members
       end.

(** _PYTHON_NATIVE_TYPES, runtime.py:33-40, by TYPE_INDICATOR. *)
Definition native_type (d : dtype) : option string :=
  match d with
  | DBoolean _ _ _ => Some "bool"%string
  | DCharacter _ => Some "str"%string
  | DFloat _ => Some "float"%string
  | DInteger _ _ => Some "int"%string
  | DElems KStream _ _ => Some "bytes"%string
  | DElems KString _ _ => Some "str"%string
  | DUUID _ => Some "uuid.UUID"%string
  | _ => None
  end.

(** The type in the attribute description of one member in
    _CreateClassTemplate, runtime.py:69-85.  Formatting raises TypeError if it is
    None. *)
Definition type_indicator (d : dtype) : res string :=
  let '(member_data_type, inner) :=
    match d with
    | DMember _ _ _ dt _ d' => (dt, d')
    | d => (Some EmptyString, d)
    end in
  match inner with
  | DElems KSequence e _ =>
      match e_data_type e with
      | Some t => Ok ("tuple[" ++ t ++ "]")%string
      | None => Raise TypeError
      end
  | _ =>
      match native_type inner, member_data_type with
      | Some t, _ => Ok t
      | None, Some t => Ok t
      | None, None => Raise TypeError
      end
  end.

(** Formatting the descriptions of the members, runtime.py:62-89. *)
Definition template_member (d : dtype) : res unit :=
  let* _ := type_indicator d in Ok tt.

(** The loop over the members, runtime.py:62-89. *)
Fixpoint template_members (ms : list dtype) : res unit :=
  match ms with
  | [] => Ok tt
  | m :: r => let* _ := template_member m in template_members r
  end.

(** The constructor parameters of the generated class, in order: self and one
    optional argument per member (_CreateClassTemplate, runtime.py:84-93). *)
Definition init_parameters (members : list string) : list string :=
  "self"%string :: members.

(** Compilation of the class text rejects duplicate parameter names.  exec of
    the text is at runtime.py:192. *)
Fixpoint str_nodup (l : list string) : bool :=
  match l with
  | [] => true
  | s :: r => negb (str_in s r) && str_nodup r
  end.

(** CreateClass, runtime.py:169-194: the name of the created class.
    Simplification: the text of the class is not parsed here but taken to say
    what it is meant to say; C52_class proves that it does if descriptions are
    harmless in a docstring (ClassText.v, Python.v).  The name __debug__ cannot be
    assigned to. *)
Definition create_class (name : string) (ms : list dtype) : res string :=
  let names := map dt_name ms in
  let* _ := validate_class name names in
  let* _ := template_members ms in
  if str_nodup (init_parameters names) && negb (String.eqb name "__debug__")
  then Ok name else Raise SyntaxError.

(** The attributes set by the constructor for positional arguments; missing
    arguments are None.  The text of the constructor is at runtime.py:27-30 and
    81-82. *)
Fixpoint make_attrs (names : list string) (args : list pyval) : dict pyval :=
  match names, args with
  | [], _ => []
  | n :: r, [] => (n, VNone) :: make_attrs r []
  | n :: r, v :: s => (n, v) :: make_attrs r s
  end.

(** An instance of the class, runtime.py:27-30 and data_maps.py:1733. *)
Definition new_struct (cls : string) (names : list string) (args : list pyval) : pyval :=
  VStruct cls (make_attrs names args).

(** [description.endswith], runtime.py:55 and 66. *)
Fixpoint ends_with (e s : string) : bool :=
  String.eqb s e || match s with EmptyString => false | String _ r => ends_with e r end.

(** Names that Python mangles inside of a class.  The assignments are at
    runtime.py:82. *)
Definition is_private (s : string) : bool :=
  String.prefix "__" s && negb (ends_with "__" s).

(** Whether [super(<name>, self).__init__()], the first statement of the
    constructor, runtime.py:29, refers to the built-in super and to the class:
    a member named super or named as the class is a parameter that hides them,
    a class named super hides the built-in, a class named self is hidden by the
    instance, and a name with two leading underscores is replaced by one that
    nothing defines. *)
Definition constructible (cls : string) (names : list string) : bool :=
  negb (String.eqb cls "self") && negb (String.eqb cls "super")
  && negb (str_in "super" names) && negb (str_in cls names)
  && negb (is_private cls).

(** What that statement raises otherwise.  A class named super with two or more
    members makes another instance of itself, without end.  The statement is at
    runtime.py:29. *)
Definition constructor_error (cls : string) (names : list string) : exc :=
  if is_private cls then NameError
  else if String.eqb cls "super" && negb (str_in "super" names) && (2 <=? List.length names)%nat
  then RecursionError
  else TypeError.

(** Calling the class, runtime.py:27-30. *)
Definition instance (cls : string) (names : list string) (args : list pyval) : res pyval :=
  if constructible cls names then Ok (new_struct cls names args)
  else Raise (constructor_error cls names).
