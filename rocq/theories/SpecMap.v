(** Specification vocabulary for mapping: what is observed when a map is applied
    to a byte stream with a fresh context, and layouts of structures, sequences
    and streams, independent of the loops of the model. *)
From Coq Require Import String List ZArith Bool.
From Verif Require Import Base PyVal PyStruct DataTypes ClassFactory DataMaps SpecPrim.
From Verif Require Export SpecNames.
Import ListNotations.
Open Scope Z_scope.

(** An expression evaluator that looks at a namespace only through the values
    of its names. *)
Definition extensional (orc : oracle) : Prop :=
  forall x e1 e2, (forall k, dict_get k e1 = dict_get k e2) ->
    o_eval orc x e1 = o_eval orc x e2.

(** Equal namespaces, except for the entry __builtins__ that evaluation adds. *)
Definition same_values (e1 e2 : env) : Prop :=
  forall k, k <> "__builtins__"%string -> dict_get k e1 = dict_get k e2.

(** A context without pending state. *)
Definition clean (c : option ctx) : Prop :=
  match c with None => True | Some x => c_state x = st_empty end.

(** Mapping with a fresh context holding the external values [vals] returns [v]
    and reports the byte size [n]. *)
Definition maps (orc : oracle) (fuel : nat) (m : dmap) (bs : bytes) (off : Z) (vals : env)
    (depth : Z) (v : pyval) (n : Z) : Prop :=
  exists c, mapbs orc fuel m bs off (Some (ctx_new vals)) depth = (Ok v, Some c) /\
    c_byte_size c = Some n.

(** Mapping with a fresh context raises [e]. *)
Definition fails (orc : oracle) (fuel : nat) (m : dmap) (bs : bytes) (off : Z) (vals : env)
    (depth : Z) (e : exc) : Prop :=
  fst (mapbs orc fuel m bs off (Some (ctx_new vals)) depth) = Raise e.

(** ** Structures *)

(** The namespace of the expressions inside a structure of class [cls]: the
    external values, and the structure itself under its class name. *)
Definition scope (cls : string) (s : pyval) (vals : env) : env := vals ++ [(cls, s)].

(** The condition of a member evaluates to [b]; no condition is true. *)
Definition condition_is (orc : oracle) (d : dtype) (e : env) (b : bool) : Prop :=
  match truthy_str (member_cond d) with
  | None => b = true
  | Some x => o_eval orc x (ns e) = EvBool b
  end.

(** The condition of a member raises or yields something else than a bool. *)
Definition condition_bad (orc : oracle) (d : dtype) (e : env) : Prop :=
  match truthy_str (member_cond d) with
  | None => False
  | Some x => forall b, o_eval orc x (ns e) <> EvBool b
  end.

(** The value is one of those listed, if any are listed. *)
Definition allowed (d : dtype) (v : pyval) : Prop :=
  match member_values d with
  | Some (x :: r) => exists w, In w (x :: r) /\ py_eq v w = true
  | _ => True
  end.

(** A member of a structure map: its definition, name and map. *)
Definition field : Type := dtype * (string * option dmap).

(** [fields ... l s off s' e]: reading the members [l] from offset [off] on,
    where the structure read so far is [s], ends at offset [e] with the
    structure [s']. *)
Inductive fields (orc : oracle) (fuel : nat) (cls : string) (vals : env) (bs : bytes) (depth : Z)
    : list field -> pyval -> Z -> pyval -> Z -> Prop :=
| fields_nil s off : fields orc fuel cls vals bs depth [] s off s off
| fields_present d name x r s off v n s' e :
    condition_is orc d (scope cls s vals) true ->
    maps orc fuel x bs off (scope cls s vals) (depth + 1) v n ->
    allowed d v ->
    fields orc fuel cls vals bs depth r (py_setattr s name v) (off + n) s' e ->
    fields orc fuel cls vals bs depth ((d, (name, Some x)) :: r) s off s' e
| fields_absent d name x r s off s' e :
    condition_is orc d (scope cls s vals) false ->
    fields orc fuel cls vals bs depth r s off s' e ->
    fields orc fuel cls vals bs depth ((d, (name, x)) :: r) s off s' e.

(** The structure before any member is read. *)
Definition blank (cls : string) (attrs : list (string * option dmap)) : pyval :=
  VStruct cls (map (fun a => (fst a, VNone)) attrs).

(** The member [d] with map [x] cannot be read at [off], where the structure read
    so far is [s], for lack of bytes. *)
Definition member_short (orc : oracle) (fuel : nat) (cls : string) (vals : env) (bs : bytes)
    (depth : Z) (d : dtype) (x : option dmap) (s : pyval) (off : Z) : Prop :=
  condition_is orc d (scope cls s vals) true /\
  exists y, x = Some y /\ fails orc fuel y bs off (scope cls s vals) (depth + 1) ByteStreamTooSmallError.

(** It cannot be read for another reason: its condition fails or is no bool, its
    type has no map, the map fails, or the value is not a supported one. *)
Definition member_bad (orc : oracle) (fuel : nat) (cls : string) (vals : env) (bs : bytes)
    (depth : Z) (d : dtype) (x : option dmap) (s : pyval) (off : Z) : Prop :=
  condition_bad orc d (scope cls s vals) \/
  (condition_is orc d (scope cls s vals) true /\
   (x = None \/
    exists y, x = Some y /\
      ((exists e, e <> ByteStreamTooSmallError /\
          fails orc fuel y bs off (scope cls s vals) (depth + 1) e) \/
       (exists v n, maps orc fuel y bs off (scope cls s vals) (depth + 1) v n /\ ~ allowed d v)))).

(** Some member has the defect [P] after the members before it were read. *)
Definition first_defect (orc : oracle) (fuel : nat) (cls : string) (vals : env) (bs : bytes)
    (depth : Z) (P : dtype -> option dmap -> pyval -> Z -> Prop)
    (l : list field) (s : pyval) (off : Z) : Prop :=
  exists before d name x after s' off',
    l = before ++ (d, (name, x)) :: after /\
    fields orc fuel cls vals bs depth before s off s' off' /\
    P d x s' off'.

(** What a member was read as: absent, or a value and the number of bytes it
    took. *)
Definition reading : Type := option (pyval * Z).

Definition value_of (r : reading) : pyval := match r with Some (v, _) => v | None => VNone end.
Definition size_of (r : reading) : Z := match r with Some (_, n) => n | None => 0 end.

Definition total (l : list reading) : Z := fold_right (fun r a => size_of r + a) 0 l.

(** The structure after its first members were read as [rs]; the others are
    None. *)
Definition partly (cls : string) (names : list string) (rs : list reading) : pyval :=
  VStruct cls (combine names
    (List.map value_of rs ++ repeat VNone (List.length names - List.length rs))).

(** The readings [rs] are right for the members [ms] with maps [xs] from offset
    [off] on: the [i]-th member is absent and its condition false, or its
    condition is true and its value is what its map gives right after the
    members before it, and a supported value.  Conditions and nested maps see the
    structure with the first [i] members set. *)
Definition laid (orc : oracle) (fuel : nat) (cls : string) (vals : env) (bs : bytes) (depth : Z)
    (ms : list dtype) (xs : list (option dmap)) (off : Z) (rs : list reading) : Prop :=
  List.length rs = List.length ms /\
  forall i d x r,
    nth_error ms i = Some d -> nth_error xs i = Some x -> nth_error rs i = Some r ->
    let s := partly cls (List.map dt_name ms) (firstn i rs) in
    let o := off + total (firstn i rs) in
    match r with
    | None => condition_is orc d (scope cls s vals) false
    | Some (v, n) =>
        condition_is orc d (scope cls s vals) true /\ allowed d v /\
        exists y, x = Some y /\ maps orc fuel y bs o (scope cls s vals) (depth + 1) v n
    end.

(** ** Sequences *)

(** The elements [vs] one right after the other from [off] to [e], each of them
    starting inside the stream. *)
Inductive elements (orc : oracle) (fuel : nat) (x : dmap) (bs : bytes) (depth : Z)
    : Z -> list pyval -> Z -> Prop :=
| elements_nil off : elements orc fuel x bs depth off [] off
| elements_cons off v n vs e :
    off < len bs ->
    maps orc fuel x bs off [] (depth + 1) v n ->
    elements orc fuel x bs depth (off + n) vs e ->
    elements orc fuel x bs depth off (v :: vs) e.

(** A sequence governed by a number of elements, a data size or a terminator is
    complete with the elements [vs] that take up [n] bytes. *)
Definition complete (number size : option Z) (term : option pyval) (vs : list pyval) (n : Z) : Prop :=
  number = Some (len vs) \/
  (exists s, size = Some s /\ s <= n) \/
  (exists t, term = Some t /\ vs <> [] /\ py_eq (last vs VNone) t = true).

(** The elements [vs] from [off] on take up [n] bytes, and the sequence is not
    complete before the last of them. *)
Definition walk (orc : oracle) (fuel : nat) (x : dmap) (bs : bytes) (depth : Z)
    (number size : option Z) (term : option pyval) (off : Z) (vs : list pyval) (n : Z) : Prop :=
  elements orc fuel x bs depth off vs (off + n) /\
  forall before after n', vs = before ++ after -> after <> [] ->
    elements orc fuel x bs depth off before (off + n') -> ~ complete number size term before n'.

(** The map never reports a negative size. *)
Definition nonnegative (orc : oracle) (x : dmap) : Prop :=
  forall fuel bs off vals depth v n, 0 <= off <= len bs ->
    maps orc fuel x bs off vals depth v n -> 0 <= n.

(** The sequence is accepted: with a number of elements it has that many,
    otherwise it is complete. *)
Definition accepted (number size : option Z) (term : option pyval) (vs : list pyval) (n : Z) : Prop :=
  match number with
  | Some k => len vs = k
  | None => complete None size term vs n
  end.

(** ** Contexts across calls *)

(** The context given to a call: none, a fresh one with the external values
    [vals], or one that such a context became in successful mappings. *)
Inductive usable (orc : oracle) : env -> option ctx -> Prop :=
| usable_none : usable orc [] None
| usable_new vals : usable orc vals (Some (ctx_new vals))
| usable_after vals c fuel m bs off depth v c' :
    usable orc vals c -> mapbs orc fuel m bs off c depth = (Ok v, c') -> usable orc vals c'.

(** The map has an expression for its number of elements. *)
Definition counts_by_expression (m : dmap) : Prop :=
  match m with
  | MSequence _ e _ _ _ | MStream e _ _ | MString e _ _ => truthy_str (e_number_expr e) <> None
  | _ => False
  end.

(** What a call on the map [m] may do to the values of the caller's context:
    nothing, or set __builtins__ if there is an expression for the number of
    elements. *)
Definition alters (m : dmap) (c c' : option ctx) : Prop :=
  match c, c' with
  | None, None => True
  | Some a, Some b =>
      c_values b = c_values a \/
      (counts_by_expression m /\ c_values b = dict_set "__builtins__" VBuiltins (c_values a))
  | _, _ => False
  end.

(** ** Padding *)

(** [n] is the least number of bytes that brings the offset [off] to a multiple of
    [a]. *)
Definition aligns (a off n : Z) : Prop :=
  0 <= n /\ (off + n) mod a = 0 /\ forall k, 0 <= k < n -> (off + k) mod a <> 0.

(** ** Sizes and counts *)

(** The size or count given by a fixed value, or else by an expression, is [n].
    A fixed value of 0 counts as not given, and a bool counts as a number. *)
Definition measure (orc : oracle) (fixed : option Z) (expr : option string) (vals : env) (n : Z) : Prop :=
  match fixed with
  | Some k => k <> 0
  | None => False
  end /\ fixed = Some n /\ 0 <= n \/
  (fixed = None \/ fixed = Some 0) /\
  exists x, expr = Some x /\ x <> EmptyString /\
    ((o_eval orc x (ns vals) = EvInt n /\ 0 <= n) \/
     (exists b, o_eval orc x (ns vals) = EvBool b /\ n = Z.b2z b)).

(** ** Streams *)

(** The size of a stream given by its data size, or else by its number of
    elements of known size. *)
Definition stream_size (orc : oracle) (e : elems) (ed : dtype) (vals : env) (n : Z) : Prop :=
  (has_data_size e = true /\ measure orc (e_data_size e) (e_data_size_expr e) vals n) \/
  (has_data_size e = false /\ exists k b, get_byte_size ed = Some b /\
     measure orc (e_number e) (e_number_expr e) vals k /\ n = k * b).

(** The stream has neither a data size nor a number of elements of known size. *)
Definition unsized_stream (e : elems) (ed : dtype) : Prop :=
  has_data_size e = false /\ (has_number e = false \/ get_byte_size ed = None).

(** The [k]-th piece of the length of [t] from [off] on is the first one equal to
    [t]. *)
Definition first_at (t l : bytes) (off k : Z) : Prop :=
  0 <= k /\ window l (off + k * len t) (len t) = t /\
  forall j, 0 <= j < k -> window l (off + j * len t) (len t) <> t.

(** What is left of [l] when it is cut before the first piece of it that is [t]. *)
Definition cut_at (t l r : bytes) : Prop :=
  (exists k, first_at t l 0 k /\ r = firstn (Z.to_nat (k * len t)) l) \/
  ((forall k, ~ first_at t l 0 k) /\ r = l).

(** The part of the bytes [l] of a string with terminator [t] that is text. *)
Definition text_part (t : option pyval) (l r : bytes) : Prop :=
  match t with
  | None => r = l
  | Some (VBytes t) => cut_at t l r
  | Some _ => False
  end.

(** The terminator is absent or a non-empty byte string. *)
Definition byte_terminator (t : option pyval) : Prop :=
  match t with
  | None => True
  | Some t => exists b, t = VBytes b /\ 0 < len b
  end.

(** ** Folding *)

(** Folding [v] with a fresh context holding the external values [vals] returns
    the bytes [b]. *)
Definition folds (orc : oracle) (m : dmap) (v : pyval) (vals : env) (b : bytes) : Prop :=
  fst (foldbs orc m v (Some (ctx_new vals))) = Ok (VBytes b).

Definition fold_fails (orc : oracle) (m : dmap) (v : pyval) (vals : env) (e : exc) : Prop :=
  fst (foldbs orc m v (Some (ctx_new vals))) = Raise e.

(** ** Structure groups *)

(** The map that a group uses for the identifier value [id]: that of the first
    entry with an equal value, or else the default. *)
Definition chosen (default : option dmap) (entries : list (pyval * option dmap)) (id : pyval)
    (y : option dmap) : Prop :=
  (exists before k after, entries = before ++ (k, y) :: after /\ py_eq id k = true /\
     Forall (fun x => py_eq id (fst x) = false) before) \/
  (Forall (fun x => py_eq id (fst x) = false) entries /\ y = default).

(** The base of the group maps at [off] to a value with identifier [id]. *)
Definition identified (orc : oracle) (fuel : nat) (identifier : string) (base : option dmap)
    (bs : bytes) (off depth : Z) (id : pyval) : Prop :=
  exists x v n, base = Some x /\ maps orc fuel x bs off [] depth v n /\
    py_getattr v identifier = id.

(** ** Space *)

(** If the map is that of a composite sequence, its elements take up at least one
    byte whenever one is mapped inside a stream. *)
Definition takes_space (orc : oracle) (m : dmap) : Prop :=
  match m with
  | MSequence false _ _ (Some x) _ =>
      forall fuel bs off vals depth v n, 0 <= off <= len bs ->
        maps orc fuel x bs off vals depth v n -> 0 < n
  | _ => True
  end.
