(** A concrete expression evaluator for the fragment of Python expressions that
    size, count and condition expressions are written in: integers, names,
    attributes, arithmetic, comparison and boolean operators.  It stands for
    [eval] (data_maps.py:691-706, 730-738, 1753-1761) in the examples; theorems
    quantify over every evaluator. *)
From Coq Require Import String Ascii List ZArith NArith Bool.
From Verif Require Import Base PyVal ClassFactory DataMaps.
Import ListNotations.
Open Scope Z_scope.

Inductive tok : Set := TInt (z : Z) | TName (s : string) | TOp (s : string).

Definition is_space (c : ascii) : bool := Ascii.eqb c " " || Ascii.eqb c "009" || Ascii.eqb c "010".

Definition digit_value (c : ascii) : Z := Z.of_N (N_of_ascii c) - 48.

(** The longest prefix of letters, digits and underscores. *)
Fixpoint take_word (s : string) : string * string :=
  match s with
  | String c r =>
      if char_isalnum c || Ascii.eqb c "_"
      then let '(w, t) := take_word r in (String c w, t)
      else (EmptyString, s)
  | EmptyString => (EmptyString, EmptyString)
  end.

Fixpoint decimal (s : string) (acc : Z) : option Z :=
  match s with
  | EmptyString => Some acc
  | String c r => if char_isdigit c then decimal r (10 * acc + digit_value c) else None
  end.

Definition two_char_ops : list string := ["=="; "!="; "<="; ">="; "//"]%string.
Definition one_char_ops : list string := ["<"; ">"; "+"; "-"; "*"; "%"; "("; ")"; "."]%string.

Fixpoint lex (fuel : nat) (s : string) : option (list tok) :=
  match fuel with
  | O => None
  | S k =>
      match s with
      | EmptyString => Some []
      | String c r =>
          if is_space c then lex k r
          else if char_isdigit c then
            let '(w, t) := take_word s in
            match decimal w 0, lex k t with
            | Some z, Some l => Some (TInt z :: l)
            | _, _ => None
            end
          else if char_isalpha c || Ascii.eqb c "_" then
            let '(w, t) := take_word s in
            match lex k t with
            | Some l => Some ((if str_in w ["and"; "or"; "not"]%string then TOp w else TName w) :: l)
            | None => None
            end
          else
            let one := String c EmptyString in
            match r with
            | String c2 r2 =>
                let two := String c (String c2 EmptyString) in
                if str_in two two_char_ops then option_map (cons (TOp two)) (lex k r2)
                else if str_in one one_char_ops then option_map (cons (TOp one)) (lex k r)
                else None
            | EmptyString =>
                if str_in one one_char_ops then Some [TOp one] else None
            end
      end
  end.

Inductive ast : Set :=
| AInt (z : Z)
| AName (s : string)
| AAttr (a : ast) (s : string)
| AUn (op : string) (a : ast)
| ABin (op : string) (a b : ast).

(** Binding levels: or, and, not, comparison, sum, product, unary. *)
Definition level_ops (l : nat) : list string :=
  match l with
  | 0 => ["or"] | 1 => ["and"] | 3 => ["=="; "!="; "<"; "<="; ">"; ">="]
  | 4 => ["+"; "-"] | 5 => ["*"; "//"; "%"] | _ => []
  end%nat%string.

Definition starts_op (ops : list string) (ts : list tok) : option (string * list tok) :=
  match ts with
  | TOp s :: r => if str_in s ops then Some (s, r) else None
  | _ => None
  end.

Fixpoint parse (fuel : nat) (l : nat) (ts : list tok) : option (ast * list tok) :=
  match fuel with
  | O => None
  | S k =>
      match l with
      | 2%nat =>
          match starts_op ["not"%string] ts with
          | Some (s, r) => option_map (fun '(a, t) => (AUn s a, t)) (parse k 2 r)
          | None => parse k 3 ts
          end
      | 6%nat =>
          match starts_op ["-"%string] ts with
          | Some (s, r) => option_map (fun '(a, t) => (AUn s a, t)) (parse k 6 r)
          | None => parse k 7 ts
          end
      | 7%nat =>
          match ts with
          | TInt z :: r => parse_rest k 7 (AInt z) r
          | TName s :: r => parse_rest k 7 (AName s) r
          | TOp "("%string :: r =>
              match parse k 0 r with
              | Some (a, TOp ")"%string :: t) => parse_rest k 7 a t
              | _ => None
              end
          | _ => None
          end
      | _ =>
          match parse k (S l) ts with
          | Some (a, t) => parse_rest k l a t
          | None => None
          end
      end
  end
with parse_rest (fuel : nat) (l : nat) (left : ast) (ts : list tok) : option (ast * list tok) :=
  match fuel with
  | O => None
  | S k =>
      match l with
      | 7%nat =>
          match ts with
          | TOp "."%string :: TName s :: r => parse_rest k 7 (AAttr left s) r
          | _ => Some (left, ts)
          end
      | _ =>
          match starts_op (level_ops l) ts with
          | Some (s, r) =>
              match parse k (S l) r with
              | Some (b, t) => parse_rest k l (ABin s left b) t
              | None => None
              end
          | None => Some (left, ts)
          end
      end
  end.

Definition parse_expr (s : string) : option ast :=
  match lex (S (String.length s)) s with
  | Some ts =>
      match parse (20 * S (List.length ts)) 0 ts with
      | Some (a, []) => Some a
      | _ => None
      end
  | None => None
  end.

Definition py_truth (v : pyval) : bool :=
  match v with
  | VNone => false
  | VBool b => b
  | VInt z => negb (z =? 0)
  | VStr s => negb (is_empty s)
  | VBytes b => negb (is_empty b)
  | VTuple l => negb (is_empty l)
  | VBuiltins => false
  | _ => true
  end.

Definition as_int (v : pyval) : option Z :=
  match v with VInt z => Some z | VBool b => Some (Z.b2z b) | _ => None end.

Definition arith (op : string) (a b : Z) : option pyval :=
  if String.eqb op "+" then Some (VInt (a + b))
  else if String.eqb op "-" then Some (VInt (a - b))
  else if String.eqb op "*" then Some (VInt (a * b))
  else if String.eqb op "//" then if b =? 0 then None else Some (VInt (a / b))
  else if String.eqb op "%" then if b =? 0 then None else Some (VInt (a mod b))
  else if String.eqb op "<" then Some (VBool (a <? b))
  else if String.eqb op "<=" then Some (VBool (a <=? b))
  else if String.eqb op ">" then Some (VBool (b <? a))
  else if String.eqb op ">=" then Some (VBool (b <=? a))
  else None.

Fixpoint eval_ast (a : ast) (e : env) : option pyval :=
  match a with
  | AInt z => Some (VInt z)
  | AName s =>
      if String.eqb s "True" then Some (VBool true)
      else if String.eqb s "False" then Some (VBool false)
      else if String.eqb s "None" then Some VNone
      else dict_get s e
  | AAttr a s =>
      match eval_ast a e with
      | Some (VStruct _ l) => dict_get s l
      | _ => None
      end
  | AUn op a =>
      match eval_ast a e with
      | Some v =>
          if String.eqb op "not" then Some (VBool (negb (py_truth v)))
          else option_map (fun z => VInt (- z)) (as_int v)
      | None => None
      end
  | ABin op a b =>
      if String.eqb op "and" then
        match eval_ast a e with
        | Some v => if py_truth v then eval_ast b e else Some v
        | None => None
        end
      else if String.eqb op "or" then
        match eval_ast a e with
        | Some v => if py_truth v then Some v else eval_ast b e
        | None => None
        end
      else
        match eval_ast a e, eval_ast b e with
        | Some x, Some y =>
            if String.eqb op "==" then Some (VBool (py_eq x y))
            else if String.eqb op "!=" then Some (VBool (negb (py_eq x y)))
            else match as_int x, as_int y with
                 | Some p, Some q => arith op p q
                 | _, _ => None
                 end
        | _, _ => None
        end
  end.

Definition expr_eval (s : string) (e : env) : evres :=
  match parse_expr s with
  | None => EvExc
  | Some a =>
      match eval_ast a e with
      | None => EvExc
      | Some VNone => EvNone
      | Some (VBool b) => EvBool b
      | Some (VInt z) => EvInt z
      | Some _ => EvOther
      end
  end.

Definition expr_parses (s : string) : bool :=
  match parse_expr s with Some _ => true | None => false end.
