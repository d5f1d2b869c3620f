(** Specification vocabulary for registries, enumerations, member containers and
    structure classes: histories of calls and what they should amount to. *)
From Coq Require Import String Ascii List ZArith Bool.
From Verif Require Import Base PyVal DataTypes Registry ClassFactory.
Import ListNotations.
Open Scope Z_scope.

(** ** Registry histories *)

Inductive reg_call : Type :=
| CallRegister (d : dtype)
| CallDeregister (d : dtype).

Definition reg_step (r : registry) (c : reg_call) : res unit * registry :=
  match c with
  | CallRegister d => register r d
  | CallDeregister d => deregister r d
  end.

(** The calls made on a registry, each with its outcome, and the registry after
    them. *)
Fixpoint reg_run (r : registry) (cs : list reg_call) : list (reg_call * res unit) * registry :=
  match cs with
  | [] => ([], r)
  | c :: t =>
      let '(o, r1) := reg_step r c in
      let '(l, r2) := reg_run r1 t in
      ((c, o) :: l, r2)
  end.

(** The lower case of a text: each of the letters A to Z replaced by its
    lower-case letter.  Texts that differ in letter case only have the same. *)
Definition letter_cases : list (ascii * ascii) :=
  combine (list_ascii_of_string "ABCDEFGHIJKLMNOPQRSTUVWXYZ")
          (list_ascii_of_string "abcdefghijklmnopqrstuvwxyz").
Definition lower_letter (c : ascii) : ascii :=
  match find (fun p => Ascii.eqb (fst p) c) letter_cases with
  | Some (_, l) => l
  | None => c
  end.
Definition lower_case (s : string) : string :=
  string_of_list_ascii (map lower_letter (list_ascii_of_string s)).

Definition lower_name (d : dtype) : string := lower_case (dt_name d).

(** The definitions in effect after the calls of a log: a successful
    registration adds one at the end, a successful deregistration removes the
    one with the same lower-case name. *)
Definition live_step (l : list dtype) (x : reg_call * res unit) : list dtype :=
  match x with
  | (CallRegister d, Ok _) => l ++ [d]
  | (CallDeregister d, Ok _) =>
      filter (fun d' => negb (String.eqb (lower_name d') (lower_name d))) l
  | _ => l
  end.
Definition live (log : list (reg_call * res unit)) : list dtype := fold_left live_step log [].

(** The aliases taken by the successful registrations of a log and the
    lower-case name each of them stands for.  Nothing gives an alias back. *)
Definition taken_step (l : list (string * string)) (x : reg_call * res unit) : list (string * string) :=
  match x with
  | (CallRegister d, Ok _) => l ++ map (fun a => (a, lower_name d)) (dt_aliases d)
  | _ => l
  end.
Definition taken (log : list (reg_call * res unit)) : list (string * string) :=
  fold_left taken_step log [].

(** ** Enumeration histories *)

Fixpoint enum_run (e : enum_def) (vs : list enum_value) : list (enum_value * res unit) * enum_def :=
  match vs with
  | [] => ([], e)
  | v :: t =>
      let '(o, e1) := enum_add e v in
      let '(l, e2) := enum_run e1 t in
      ((v, o) :: l, e2)
  end.

(** The values whose call succeeded. *)
Definition accepted {A} (log : list (A * res unit)) : list A :=
  flat_map (fun x => match snd x with Ok _ => [fst x] | _ => [] end) log.

Definition integral (v : pyval) : Prop :=
  match v with VInt _ | VBool _ => True | _ => False end.

(** A value that shares its name, number or an alias with one in the list. *)
Definition clashes (l : list enum_value) (v : enum_value) : Prop :=
  exists w, In w l /\
    (ev_name w = ev_name v \/ py_eq (ev_number v) (ev_number w) = true \/
     exists a, In a (ev_aliases v) /\ In a (ev_aliases w)).

(** ** Member container histories *)

Inductive mem_call : Type :=
| CallAddMember (d : dtype)
| CallAddSection (name : string)
| CallByteSize.

Inductive mem_out : Type :=
| OutAdded (o : res unit)
| OutNothing
| OutSize (s : option Z).

(** [union] selects the GetByteSize of the class. *)
Definition mem_step (union : bool) (s : struct_state) (c : mem_call) : mem_out * struct_state :=
  match c with
  | CallAddMember d => let '(o, s') := struct_add_member s d in (OutAdded o, s')
  | CallAddSection n => (OutNothing, struct_add_section s n)
  | CallByteSize =>
      let '(z, s') := if union then union_get_byte_size s else struct_get_byte_size s in
      (OutSize z, s')
  end.

Fixpoint mem_run (union : bool) (s : struct_state) (cs : list mem_call)
    : list (mem_call * mem_out) * struct_state :=
  match cs with
  | [] => ([], s)
  | c :: t =>
      let '(o, s1) := mem_step union s c in
      let '(l, s2) := mem_run union s1 t in
      ((c, o) :: l, s2)
  end.

(** The members whose addition succeeded, in order. *)
Definition added (log : list (mem_call * mem_out)) : list dtype :=
  flat_map (fun x => match x with (CallAddMember d, OutAdded (Ok _)) => [d] | _ => [] end) log.

(** The members added before the next section starts. *)
Fixpoint segment (log : list (mem_call * mem_out)) : list dtype :=
  match log with
  | [] => []
  | (CallAddSection _, _) :: _ => []
  | (CallAddMember d, OutAdded (Ok _)) :: t => d :: segment t
  | _ :: t => segment t
  end.

(** The sections, each with the members added while it was the last one. *)
Fixpoint sectioned (log : list (mem_call * mem_out)) : list (string * list dtype) :=
  match log with
  | [] => []
  | (CallAddSection n, _) :: t => (n, segment t) :: sectioned t
  | _ :: t => sectioned t
  end.

(** ** Byte sizes from the members *)

(** Offset of the end of the members laid out from [off]: padding extends to the
    next multiple of its alignment, any other member takes its own size. *)
Inductive laid_out : Z -> list dtype -> Z -> Prop :=
| laid_nil off : laid_out off [] off
| laid_padding off m bo a k ms e :
    a <> 0 -> 0 <= k < Z.abs a -> (a | off + k) ->
    laid_out (off + k) ms e ->
    laid_out off (DPadding m bo (Some a) :: ms) e
| laid_member off d n ms e :
    (forall m bo a, d <> DPadding m bo (Some a)) ->
    get_byte_size d = Some n ->
    laid_out (off + n) ms e ->
    laid_out off (d :: ms) e.

(** ** Identifiers *)

Definition letters : list ascii :=
  list_ascii_of_string "abcdefghijklmnopqrstuvwxyzABCDEFGHIJKLMNOPQRSTUVWXYZ".
Definition digits : list ascii := list_ascii_of_string "0123456789".

(** An ASCII Python identifier. *)
Definition identifier (s : string) : Prop :=
  exists c r, list_ascii_of_string s = c :: r /\
    (In c letters \/ c = "_"%char) /\
    Forall (fun c => In c letters \/ In c digits \/ c = "_"%char) r.

(** The keywords of Python 3, from the section Keywords of its language reference. *)
Definition python_keywords : list string :=
  ["False"; "await"; "else"; "import"; "pass"; "None"; "break"; "except"; "in"; "raise";
   "True"; "class"; "finally"; "is"; "return"; "and"; "continue"; "for"; "lambda"; "try";
   "as"; "def"; "from"; "nonlocal"; "while"; "assert"; "del"; "global"; "not"; "with";
   "async"; "elif"; "if"; "or"; "yield"]%string.

(** A name usable in generated code: an identifier that is no keyword. *)
Definition usable (s : string) : Prop := identifier s /\ ~ In s python_keywords.

(** A name that can be assigned to. *)
Definition assignable (s : string) : Prop := usable s /\ s <> "__debug__"%string.

(** Members whose attribute comment can be formatted: a sequence names its
    element type, and any other member without a native Python type names its
    data type. *)
Definition describable (d : dtype) : Prop :=
  match d with
  | DMember _ _ _ dt _ i =>
      match i with
      | DElems KSequence e _ => e_data_type e <> None
      | DBoolean _ _ _ | DCharacter _ | DFloat _ | DInteger _ _ | DUUID _
      | DElems _ _ _ => True
      | _ => dt <> None
      end
  | DElems KSequence e _ => e_data_type e <> None
  | _ => True
  end.
