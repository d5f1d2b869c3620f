(** What Python makes of the text of a class: [exec] of the class text and calls
    of the class, runtime.py:182-194.  This is the fragment of the language that
    the class template is written in; texts outside of it are not given a
    meaning. *)
From Coq Require Import String Ascii List NArith Bool.
From Verif Require Import Base PyVal ClassFactory.
Import ListNotations.
Open Scope string_scope.
Open Scope list_scope.

(** ** Lexical analysis *)

(** Words are names, keywords and numbers; strings are triple-quoted.  Of the
    text made at runtime.py:19-31. *)
Inductive token : Set :=
| TWord (s : string)
| TSign (c : ascii)
| TText.

(** A logical line: its indentation and tokens.  Of the text made at
    runtime.py:19-31. *)
Definition line : Set := (nat * list token)%type.

(** The lines of a text, or that Python rejects the text, or that the text is
    outside of the fragment.  The text is executed at runtime.py:192. *)
Inductive lexed : Set :=
| Lexed (l : list line)
| Rejected
| Foreign.

(** A line that is not blank, of the text made at runtime.py:19-31. *)
Definition add_line (l : line) (x : lexed) : lexed :=
  match x with Lexed ls => Lexed (l :: ls) | x => x end.

(** The quotation mark of runtime.py:21, 25 and 28. *)
Definition quote : ascii := """".
(** A backslash in a description, runtime.py:54 and 65. *)
Definition backslash : ascii := "\".
(** The separator of lines, runtime.py:19. *)
Definition line_feed : ascii := "010".
(** A null character in a description, runtime.py:54 and 65. *)
Definition null : ascii := "000".

(** The characters of names, runtime.py:116-117. *)
Definition is_word_char (c : ascii) : bool := char_isalnum c || Ascii.eqb c "_".

(** Comments, other strings, continued lines and other line ends.  None of them
    is in the text made at runtime.py:19-31 outside of descriptions. *)
Definition is_foreign (c : ascii) : bool :=
  Ascii.eqb c "#" || Ascii.eqb c "'" || Ascii.eqb c backslash || Ascii.eqb c "013" || Ascii.eqb c "012".

(** Digits of an escape sequence in a description, runtime.py:54 and 65. *)
Definition hex_value (c : ascii) : option N :=
  let n := N_of_ascii c in
  if ((48 <=? n) && (n <=? 57))%N then Some (n - 48)%N
  else if ((65 <=? n) && (n <=? 70))%N then Some (n - 55)%N
  else if ((97 <=? n) && (n <=? 102))%N then Some (n - 87)%N
  else None.

(** Where in a text: at the start of a line, in a line after the given part of a
    word, after one or two opening quotes, in a string after a number of quotes,
    after a backslash in a string, or before a number of hexadecimal digits of an
    escape sequence with the given value so far.  In the text made at
    runtime.py:19-31. *)
Inductive place : Set :=
| AtStart
| InWord (w : string)
| Opening (n : nat)
| InText (n : nat)
| Escaped
| InDigits (n : nat) (v : N).

(** The tokens of the current line with the word that ends here.  Of the text
    made at runtime.py:19-31. *)
Definition close_word (w : string) (ts : list token) : list token :=
  match w with EmptyString => ts | _ => ts ++ [TWord w] end.

(** Lexical analysis of the rest of a text at a place, with the indentation and
    the tokens of the current line.  As exec does with the text at
    runtime.py:192. *)
Fixpoint lex (p : place) (ind : nat) (ts : list token) (s : string) : lexed :=
  match s with
  | EmptyString =>
      match p with
      | AtStart => Lexed []
      | InWord w => Lexed [(ind, close_word w ts)]
      | Opening _ => Foreign
      | InText _ | Escaped | InDigits _ _ => Rejected
      end
  | String c r =>
      if Ascii.eqb c null then Foreign
      else
      match p with
      | AtStart =>
          if Ascii.eqb c " " then lex AtStart (S ind) ts r
          else if Ascii.eqb c line_feed then lex AtStart 0 [] r
          else if is_word_char c then lex (InWord (String c EmptyString)) ind ts r
          else if Ascii.eqb c quote then lex (Opening 1) ind ts r
          else if is_foreign c then Foreign
          else lex (InWord EmptyString) ind (ts ++ [TSign c]) r
      | InWord w =>
          if Ascii.eqb c line_feed then add_line (ind, close_word w ts) (lex AtStart 0 [] r)
          else if Ascii.eqb c " " then lex (InWord EmptyString) ind (close_word w ts) r
          else if is_word_char c then lex (InWord (String.append w (String c EmptyString))) ind ts r
          else if Ascii.eqb c quote then
            match w with EmptyString => lex (Opening 1) ind ts r | _ => Foreign end
          else if is_foreign c then Foreign
          else lex (InWord EmptyString) ind (close_word w ts ++ [TSign c]) r
      | Opening n =>
          if Ascii.eqb c quote then
            match n with 1 => lex (Opening 2) ind ts r | _ => lex (InText 0) ind ts r end
          else Foreign
      | InText n =>
          if Ascii.eqb c quote then
            match n with
            | 0 => lex (InText 1) ind ts r
            | 1 => lex (InText 2) ind ts r
            | _ => lex (InWord EmptyString) ind (ts ++ [TText]) r
            end
          else if Ascii.eqb c backslash then lex Escaped ind ts r
          else lex (InText 0) ind ts r
      | Escaped =>
          if Ascii.eqb c "x" then lex (InDigits 2 0) ind ts r
          else if Ascii.eqb c "u" then lex (InDigits 4 0) ind ts r
          else if Ascii.eqb c "U" then lex (InDigits 8 0) ind ts r
          else if Ascii.eqb c "N" then Foreign
          else lex (InText 0) ind ts r
      | InDigits n v =>
          match hex_value c with
          | Some h =>
              let v' := (v * 16 + h)%N in
              match n with
              | S (S n') => lex (InDigits (S n') v') ind ts r
              | _ => if (v' <=? 1114111)%N then lex (InText 0) ind ts r else Rejected
              end
          | None => Rejected
          end
      end
  end.

(** As exec does with the text at runtime.py:192. *)
Definition lines_of (s : string) : lexed := lex AtStart 0 [] s.

(** ** The class statement *)

(** A class with a constructor of optional parameters that calls __init__ of
    super of two names and then assigns names to attributes of self.  As written
    at runtime.py:19-31. *)
Record pyclass : Set := mkClass {
  pc_name : string;
  pc_params : list string;
  pc_super : string * string;
  pc_assigns : list (string * string) }.

(** The words of a line, as written at runtime.py:19-31. *)
Definition words (l : list string) : bool := forallb (fun w => negb (is_keyword w)) l.

(** The parameters, as written at runtime.py:27 and 81. *)
Fixpoint read_params (ts : list token) : option (list string) :=
  match ts with
  | [TSign ")"; TSign ":"] => Some []
  | TSign "," :: TWord a :: TSign "=" :: TWord "None" :: r =>
      if words [a] then option_map (cons a) (read_params r) else None
  | _ => None
  end.

(** The assignments, as written at runtime.py:30 and 82. *)
Fixpoint read_assigns (ls : list line) : option (list (string * string)) :=
  match ls with
  | [] => Some []
  | (4, [TWord "self"; TSign "."; TWord a; TSign "="; TWord b]) :: r =>
      if words [a; b] then option_map (cons (a, b)) (read_assigns r) else None
  | _ => None
  end.

(** The class, as written at runtime.py:19-31. *)
Definition read_class (ls : list line) : option pyclass :=
  match ls with
  | (0, [TWord "class"; TWord n; TSign "("; TWord "object"; TSign ")"; TSign ":"])
    :: (2, [TText])
    :: (2, TWord "def" :: TWord "__init__" :: TSign "(" :: TWord "self" :: ps)
    :: (4, [TText])
    :: (4, [TWord "super"; TSign "("; TWord a; TSign ","; TWord b; TSign ")"; TSign "."; TWord "__init__";
            TSign "("; TSign ")"])
    :: rest =>
      if words [n; a; b] then
        match read_params ps, read_assigns rest with
        | Some params, Some assigns => Some (mkClass n params (a, b) assigns)
        | _, _ => None
        end
      else None
  | _ => None
  end.

(** Compilation rejects parameters of the same name, and assignment to
    __debug__.  exec is at runtime.py:192. *)
Definition compiles (c : pyclass) : bool :=
  str_nodup ("self" :: pc_params c) && negb (str_in "__debug__" (pc_name c :: pc_params c)).

(** [exec] of a text: the class it defines, SyntaxError, or None outside of the
    fragment.  runtime.py:192. *)
Definition exec_class (s : string) : option (res pyclass) :=
  match lines_of s with
  | Lexed ls =>
      match read_class ls with
      | Some c => Some (if compiles c then Ok c else Raise SyntaxError)
      | None => None
      end
  | Rejected => Some (Raise SyntaxError)
  | Foreign => None
  end.

(** ** Calling the class *)

(** What a name refers to in the constructor.  The constructor is written at
    runtime.py:27-30. *)
Inductive meaning : Set :=
| ItIsSelf
| ItIsClass
| ItIsSuper
| ItIs (v : pyval).

(** Of the class name in private names, runtime.py:82. *)
Fixpoint strip_underscores (s : string) : string :=
  match s with
  | String c r => if Ascii.eqb c "_" then strip_underscores r else s
  | EmptyString => EmptyString
  end.

(** Private names are replaced inside of a class.  The assignments are written
    at runtime.py:82. *)
Definition mangled (cls s : string) : string :=
  if is_private s && negb (String.eqb (strip_underscores cls) "")
  then String.append "_" (String.append (strip_underscores cls) s) else s.

(** Looking up a name: parameters, then the class, then the builtins.  The
    namespace is that of runtime.py:182-190. *)
Definition look_up (c : pyclass) (args : list pyval) (s : string) : option meaning :=
  let s := mangled (pc_name c) s in
  if String.eqb s "self" then Some ItIsSelf
  else match dict_get s (make_attrs (pc_params c) args) with
       | Some v => Some (ItIs v)
       | None =>
           if String.eqb s (pc_name c) then Some ItIsClass
           else if String.eqb s "super" then Some ItIsSuper
           else None
       end.

(** The assignments to attributes of self.  Simplification: only values that are
    arguments are assigned.  runtime.py:30 and 82. *)
Fixpoint assign (c : pyclass) (args : list pyval) (l : list (string * string)) (attrs : dict pyval)
    : option (dict pyval) :=
  match l with
  | [] => Some attrs
  | (a, b) :: r =>
      match look_up c args b with
      | Some (ItIs v) => assign c args r (dict_set (mangled (pc_name c) a) v attrs)
      | _ => None
      end
  end.

(** Calling the class with at most as many arguments as it has parameters; None
    if something else than an argument is assigned.  Without a local variable of
    that name super takes a class and an instance of it; a class named super takes
    its place and is called with two arguments.  As at data_maps.py:1733, 1959
    and 1978. *)
Definition call_class (c : pyclass) (args : list pyval) : option (res pyval) :=
  match look_up c args "super", look_up c args (fst (pc_super c)), look_up c args (snd (pc_super c)) with
  | None, _, _ | _, None, _ | _, _, None => Some (Raise NameError)
  | Some ItIsSuper, Some ItIsClass, Some ItIsSelf =>
      option_map (fun attrs => Ok (VStruct (pc_name c) attrs)) (assign c args (pc_assigns c) [])
  | Some ItIsClass, Some _, Some _ =>
      Some (Raise (if Nat.leb 2 (List.length (pc_params c)) then RecursionError else TypeError))
  | Some _, Some _, Some _ => Some (Raise TypeError)
  end.
