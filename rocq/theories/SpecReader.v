(** Specification vocabulary for the definitions reader: what the format
    specification (docs/sources/Format-specification.md) allows.  No function
    of the reader is used. *)
From Coq Require Import String List ZArith Bool.
From Verif Require Import Base Ieee Yaml DataTypes Reader.
Import ListNotations.
Open Scope Z_scope.
Local Open Scope string_scope.
Local Open Scope list_scope.

(** * Values *)

(** The value is a number equal to z. *)
Inductive equals_number : yval -> Z -> Prop :=
| EqInt : forall z, equals_number (YInt z) z
| EqBool : forall b, equals_number (YBool b) (Z.b2z b)
| EqFloat : forall f z, f64_eqZ f z = true -> equals_number (YFloat f) z.

(** The value is one of these strings. *)
Definition one_of (names : list string) (v : yval) : Prop :=
  exists s, v = Y s /\ In s names.

(** The mapping has the value under the key. *)
Definition entry (v : yval) (key : string) (x : yval) : Prop :=
  exists l, v = YMap l /\ map_get (Y key) l = Some x.

(** The list is empty. *)
Definition nothing {A} (l : list A) : bool := match l with [] => true | _ => false end.

(** The value is something else than null, false, zero or empty. *)
Definition truth (v : yval) : bool :=
  match v with
  | YNull => false
  | YBool b => b
  | YInt z => negb (Z.eqb z 0)
  | YFloat f => negb (f64_eqZ f 0)
  | YStr s => negb (nothing s)
  | YBytes b => negb (nothing b)
  | YDate _ => true
  | YList l => negb (nothing l)
  | YTuple l => negb (nothing l)
  | YSet l => negb (nothing l)
  | YMap l => negb (nothing l)
  end.

(** The value is absent, null, false, zero or empty. *)
Definition falsy (v : yval) : Prop := truth v = false.

(** No two items of the list are equal in the sense of Python. *)
Definition distinct (l : list yval) : Prop :=
  forall i j a b, (i < j)%nat -> nth_error l i = Some a -> nth_error l j = Some b ->
    y_eqb b a = false.

(** * Well-formed definitions *)

Definition a_byte_order : yval -> Prop := one_of ["big-endian"; "little-endian"; "native"].

(** The size is "native" or a number equal to one of the supported sizes. *)
Definition a_size (sizes : list Z) (v : yval) : Prop :=
  v = Y "native" \/ exists z, In z sizes /\ equals_number v z.

Definition fixed_ok (sizes : list Z) (f : rfixed) : Prop :=
  a_byte_order (rf_bo f) /\ a_size sizes (rf_size f).

Definition given {A} (o : option A) : Prop := exists a, o = Some a.

(** What the note on element attributes requires: at least one of data size,
    terminator and number is given, each as a number or an expression, and data
    size and number are not given together. *)
Definition governed (e : relems) : Prop :=
  let size := given (re_data_size e) \/ given (re_data_size_expr e) in
  let number := given (re_number e) \/ given (re_number_expr e) in
  (size \/ number \/ given (re_terminator e)) /\ ~ (size /\ number)
  /\ ~ (given (re_data_size e) /\ given (re_data_size_expr e))
  /\ ~ (given (re_number e) /\ given (re_number_expr e)).

(** The definition classes that may be a member without being wrapped. *)
Definition inline (d : rdef) : Prop :=
  match d with
  | RBoolean _ | RCharacter _ | RFloat _ | RInteger _ _ | RUUID _
  | RPadding _ _ _ | RElems _ _ _ | RUnion _ _ _ _ => True
  | _ => False
  end.

Definition is_member_def (d : rdef) : Prop :=
  match d with RMember _ _ _ _ _ _ => True | _ => inline d end.

(** Only unions may be nameless. *)
Definition member_named (d : rdef) : Prop :=
  falsy (rd_name d) ->
  match d with
  | RUnion _ _ _ _ | RMember _ _ _ _ _ (RUnion _ _ _ _) => True
  | _ => False
  end.

(** The condition of a member is absent. *)
Definition no_condition (d : rdef) : Prop :=
  match d with RMember _ _ c _ _ _ => falsy c | _ => True end.

(** No alias of a value is one of an earlier value. *)
Definition unique_aliases (vs : list renum) : Prop :=
  forall i j x y l l' a b, (i < j)%nat -> nth_error vs i = Some x -> nth_error vs j = Some y ->
    y_iter (rv_aliases x) = Ok l -> y_iter (rv_aliases y) = Ok l' -> In a l -> In b l' ->
    y_eqb b a = false.

Definition enum_ok (vs : list renum) : Prop :=
  vs <> []
  /\ Forall (fun v => ~ falsy (rv_name v) /\ rv_number v <> YNull) vs
  /\ distinct (map rv_name vs) /\ distinct (map rv_number vs) /\ unique_aliases vs.

Inductive well_formed : rdef -> Prop :=
| WBoolean : forall f, fixed_ok [1; 2; 4] f -> well_formed (RBoolean f)
| WCharacter : forall f, fixed_ok [1; 2; 4] f -> well_formed (RCharacter f)
| WFloat : forall f, fixed_ok [4; 8] f -> well_formed (RFloat f)
| WInteger : forall f fmt,
    fixed_ok [1; 2; 4; 8] f -> one_of ["signed"; "unsigned"] fmt ->
    well_formed (RInteger f fmt)
| WUUID : forall f, fixed_ok [16] f -> well_formed (RUUID f)
| WPadding : forall m bo align,
    a_byte_order bo -> (exists z, In z [2; 4; 8; 16] /\ equals_number align z) ->
    well_formed (RPadding m bo align)
| WElems : forall k e elem,
    a_byte_order (re_bo e) -> governed e -> well_formed elem ->
    (k = KString -> ~ falsy (re_encoding e)) ->
    well_formed (RElems k e elem)
| WStructure : forall m bo ss ms,
    a_byte_order bo -> (ms = [] -> ss <> []) -> distinct (map rd_name ms) ->
    Forall (fun d => well_formed d /\ is_member_def d /\ member_named d) ms ->
    well_formed (RStructure m bo ss ms)
| WUnion : forall m bo ss ms,
    a_byte_order bo -> (ms = [] -> ss <> []) -> distinct (map rd_name ms) ->
    Forall (fun d => well_formed d /\ is_member_def d /\ member_named d /\ no_condition d) ms ->
    well_formed (RUnion m bo ss ms)
| WMember : forall m bo c dt vs d,
    a_byte_order bo -> well_formed d ->
    (forall l, vs = Some l -> l <> [] /\ Forall (fun v => is_ystr v = false) l) ->
    (dt = YNull -> inline d /\ (~ falsy c \/ vs <> None)) ->
    well_formed (RMember m bo c dt vs d)
| WConstant : forall m v, v <> YNull -> well_formed (RConstant m v)
| WEnumeration : forall m vs, enum_ok vs -> well_formed (REnumeration m vs)
| WFormat : forall m bo layout md,
    (forall b, bo = Some b -> a_byte_order b) ->
    Forall (fun x => ~ falsy (fst x)) layout ->
    well_formed (RFormat m bo layout md)
| WFamily : forall m base ms,
    well_formed base -> ms <> [] -> distinct (map rd_name ms) -> Forall well_formed ms ->
    well_formed (RFamily m base ms)
| WGroup : forall m bo base identifier default ms,
    a_byte_order bo -> well_formed base -> ~ falsy identifier ->
    (forall d, default = Some d -> well_formed d) ->
    ms <> [] -> distinct (map rd_name ms) ->
    Forall (fun d => well_formed d /\
      exists inner x, rd_members d = Some inner /\ In x inner /\
        y_eqb identifier (rd_name x) = true) ms ->
    well_formed (RGroup m bo base identifier default ms).

(** * Supported keys *)

(** The value is a mapping all of whose keys are among the names. *)
Definition only_keys (names : list string) (v : yval) : Prop :=
  exists l, v = YMap l /\ Forall (fun kv => one_of names (fst kv)) l.

(** Attributes that are given and not empty only have these keys. *)
Definition attribute_keys (names : list string) (v : yval) : Prop :=
  forall a, entry v "attributes" a -> ~ falsy a -> only_keys names a.

(** The keys of a definition of each type, from the tables of the format
    specification. *)
Definition definition_keys (type : string) : list string :=
  ["aliases"; "description"; "name"; "type"; "urls"] ++
  match type with
  | "boolean" | "character" | "floating-point" | "integer" | "uuid" => ["attributes"]
  | "constant" => ["value"]
  | "enumeration" => ["values"]
  | "format" => ["attributes"; "layout"; "metadata"]
  | "sequence" | "stream" =>
      ["element_data_type"; "elements_data_size"; "elements_terminator"; "number_of_elements"]
  | "string" =>
      ["element_data_type"; "elements_data_size"; "elements_terminator"; "number_of_elements";
       "encoding"]
  | "structure" | "union" => ["attributes"; "members"]
  | "structure-family" => ["base"; "members"]
  | "structure-group" => ["base"; "default"; "identifier"; "members"]
  | _ => []
  end.

(** The attributes of each type. *)
Definition type_attributes (type : string) : list string :=
  match type with
  | "boolean" => ["byte_order"; "size"; "units"; "false_value"; "true_value"]
  | "character" | "floating-point" | "uuid" => ["byte_order"; "size"; "units"]
  | "integer" => ["byte_order"; "size"; "units"; "format"]
  | _ => ["byte_order"]
  end.

(** The keys of a member with a data type or with an inline type that is no
    union. *)
Definition member_keys (type : option string) : list string :=
  ["aliases"; "condition"; "data_type"; "description"; "name"; "type"; "value"; "values"] ++
  match type with
  | Some "sequence" | Some "stream" =>
      ["element_data_type"; "elements_data_size"; "elements_terminator"; "number_of_elements"]
  | Some "string" =>
      ["element_data_type"; "elements_data_size"; "elements_terminator"; "number_of_elements";
       "encoding"]
  | Some "padding" => ["alignment_size"]
  | _ => []
  end.

(** The items of the value under the key, if it is given. *)
Definition items (v : yval) (key : string) (l : list yval) : Prop :=
  exists x, entry v key x /\ y_iter x = Ok l.

(** The keys of a member, and of the members of an inline union, are
    supported.  The keys beside "section" are not checked by the reader. *)
Inductive member_supported : yval -> Prop :=
| SupSection : forall v x, entry v "section" x -> ~ falsy x -> member_supported v
| SupDataType : forall v x,
    entry v "data_type" x -> x <> YNull -> only_keys (member_keys None) v ->
    member_supported v
| SupInline : forall v t,
    entry v "type" (Y t) -> t <> "union" -> only_keys (member_keys (Some t)) v ->
    member_supported v
| SupUnion : forall v l,
    entry v "type" (Y "union") -> only_keys (definition_keys "union") v ->
    attribute_keys (type_attributes "union") v ->
    items v "members" l -> Forall member_supported l ->
    member_supported v.

(** The keys of a document are supported. *)
Definition document_supported (v : yval) : Prop :=
  exists t, entry v "type" (Y t)
    /\ only_keys (definition_keys t) v
    /\ attribute_keys (type_attributes t) v
    /\ (In t ["structure"; "union"] ->
        exists l, items v "members" l /\ Forall member_supported l)
    /\ (t = "format" -> forall l, items v "layout" l ->
        Forall (only_keys ["data_type"; "offset"]) l).

(** * References *)

(** The definitions a definition refers to by name, in the definition itself
    and in its inline members. *)
Fixpoint targets (d : rdef) : list rdef :=
  match d with
  | RElems _ _ elem => [elem]
  | RStructure _ _ _ ms | RUnion _ _ _ ms => flat_map targets ms
  | RMember _ _ _ YNull _ inner => targets inner
  | RMember _ _ _ _ _ inner => [inner]
  | RFamily _ base ms => base :: ms
  | RGroup _ _ base _ default ms =>
      base :: match default with Some x => [x] | None => [] end ++ ms
  | _ => []
  end.

(** The name the file uses for each of them, for the definitions that keep
    it. *)
Fixpoint named_targets (d : rdef) : list (yval * rdef) :=
  match d with
  | RElems _ e elem => [(re_data_type e, elem)]
  | RStructure _ _ _ ms | RUnion _ _ _ ms => flat_map named_targets ms
  | RMember _ _ _ YNull _ inner => named_targets inner
  | RMember _ _ _ dt _ inner => [(dt, inner)]
  | _ => []
  end.

(** The name is a name of the definition: the names are equal after lower(), or
    it is one of the aliases. *)
Definition names_definition (env : yenv) (name : yval) (d : rdef) : Prop :=
  (exists k k', y_lower env name = Ok k /\ y_lower env (rd_name d) = Ok k' /\
     y_eqb k k' = true)
  \/ (exists l a, y_iter (rd_aliases d) = Ok l /\ In a l /\ y_eqb name a = true).

(** The definitions of a registry in registration order. *)
Definition registered (r : rreg) : list rdef := map snd (rg_definitions r).

(** The type indicator of a definition. *)
Definition type_of (d : rdef) : string :=
  match d with
  | RBoolean _ => "boolean"
  | RCharacter _ => "character"
  | RFloat _ => "floating-point"
  | RInteger _ _ => "integer"
  | RUUID _ => "uuid"
  | RPadding _ _ _ => "padding"
  | RElems KSequence _ _ => "sequence"
  | RElems KStream _ _ => "stream"
  | RElems KString _ _ => "string"
  | RStructure _ _ _ _ => "structure"
  | RUnion _ _ _ _ => "union"
  | RMember _ _ _ _ _ _ => "member"
  | RConstant _ _ => "constant"
  | REnumeration _ _ => "enumeration"
  | RFormat _ _ _ _ => "format"
  | RFamily _ _ _ => "structure-family"
  | RGroup _ _ _ _ _ _ => "structure-group"
  end.

(** The definition of a document or member is of the type the document says,
    and was made with definitions of [prior] for all the names the document
    refers to. *)
Inductive resolved (env : yenv) (prior : list rdef) : yval -> rdef -> Prop :=
| ResFixed : forall v d,
    match d with
    | RBoolean _ | RCharacter _ | RFloat _ | RInteger _ _ | RUUID _ | RPadding _ _ _
    | RConstant _ _ | REnumeration _ _ | RFormat _ _ _ _ => True
    | _ => False
    end -> entry v "type" (Y (type_of d)) -> resolved env prior v d
| ResElems : forall v n k e elem,
    entry v "type" (Y (type_of (RElems k e elem))) ->
    entry v "element_data_type" n -> In elem prior -> names_definition env n elem ->
    resolved env prior v (RElems k e elem)
| ResStructure : forall v m bo ss ms l,
    entry v "type" (Y "structure") ->
    items v "members" l -> resolved_members env prior l ms ->
    resolved env prior v (RStructure m bo ss ms)
| ResUnion : forall v m bo ss ms l,
    entry v "type" (Y "union") ->
    items v "members" l -> resolved_members env prior l ms ->
    resolved env prior v (RUnion m bo ss ms)
| ResMember : forall v n m bo c vs d,
    entry v "data_type" n -> In d prior -> names_definition env n d ->
    resolved env prior v (RMember m bo c n vs d)
| ResInline : forall v m bo c vs d,
    resolved env prior v d -> resolved env prior v (RMember m bo c YNull vs d)
| ResFamily : forall v n m base ms l,
    entry v "type" (Y "structure-family") ->
    entry v "base" n -> In base prior -> names_definition env n base ->
    items v "members" l ->
    Forall2 (fun x d => In d prior /\ names_definition env x d) l ms ->
    resolved env prior v (RFamily m base ms)
| ResGroup : forall v n m bo base identifier default ms l,
    entry v "type" (Y "structure-group") ->
    entry v "base" n -> In base prior -> names_definition env n base ->
    (forall d, default = Some d ->
       exists x, entry v "default" x /\ In d prior /\ names_definition env x d) ->
    (default = None -> forall x, entry v "default" x -> falsy x) ->
    items v "members" l ->
    Forall2 (fun x d => In d prior /\ names_definition env x d) l ms ->
    resolved env prior v (RGroup m bo base identifier default ms)
with resolved_members (env : yenv) (prior : list rdef) : list yval -> list rdef -> Prop :=
| ResNone : resolved_members env prior [] []
| ResSection : forall v s l ms,
    entry v "section" s -> ~ falsy s -> resolved_members env prior l ms ->
    resolved_members env prior (v :: l) ms
| ResSome : forall v d l ms,
    resolved env prior v d -> resolved_members env prior l ms ->
    resolved_members env prior (v :: l) (d :: ms).

(** * Well-typed documents *)

Definition text (v : yval) : Prop := exists s, v = YStr s.
Definition texts (v : yval) : Prop := exists l, v = YList l /\ Forall text l.
Definition number_or_text (v : yval) : Prop := (exists z, v = YInt z) \/ text v.

(** Text below the limit, or no text. *)
Definition encodable (limit : Z) (v : yval) : Prop :=
  forall s, v = YStr s -> Forall (fun c => 0 <= c < limit) s.

(** The entry is absent, null or has the property. *)
Definition optional (P : yval -> Prop) (key : string) (v : yval) : Prop :=
  forall x, entry v key x -> x = YNull \/ P x.

(** A mapping whose keys are strings. *)
Definition text_keys (v : yval) : Prop :=
  exists l, v = YMap l /\ Forall (fun kv => text (fst kv)) l.

Definition tidy_attributes (v : yval) : Prop :=
  text_keys v /\ optional text "byte_order" v /\ optional text "format" v
  /\ forall x, entry v "size" x -> number_or_text x.

Definition tidy_elements (v : yval) : Prop :=
  optional text "element_data_type" v
  /\ optional number_or_text "elements_data_size" v
  /\ optional number_or_text "number_of_elements" v
  /\ optional (encodable 128) "elements_terminator" v.

(** A member of a structure or union: a section or a mapping with a name. *)
Inductive tidy_member : yval -> Prop :=
| TidySection : forall v x, entry v "section" x -> ~ falsy x -> tidy_member v
| TidyMember : forall v,
    text_keys v -> (exists s, entry v "name" (YStr s)) ->
    optional text "type" v -> optional text "data_type" v ->
    optional (encodable 256) "value" v ->
    optional (fun x => exists l, x = YList l /\ Forall (encodable 256) l) "values" v ->
    optional tidy_attributes "attributes" v -> tidy_elements v ->
    optional number_or_text "alignment_size" v ->
    (entry v "type" (Y "union") -> forall x, entry v "members" x ->
       x = YNull \/ exists l, x = YList l /\ Forall tidy_member l) ->
    tidy_member v.

Definition tidy_enum_value (v : yval) : Prop :=
  text_keys v /\ optional text "name" v /\ optional number_or_text "number" v
  /\ optional texts "aliases" v.

(** A document in which every value has the type the format specification
    gives it; whether the keys and values are supported is left open. *)
Record tidy_document (v : yval) : Prop := {
  td_keys : text_keys v;
  td_name : optional text "name" v;
  td_type : optional text "type" v;
  td_aliases : optional texts "aliases" v;
  td_attributes : optional tidy_attributes "attributes" v;
  td_elements : tidy_elements v;
  td_base : optional text "base" v;
  td_default : optional text "default" v;
  td_identifier : optional text "identifier" v;
  td_members : forall t, entry v "type" (Y t) ->
    optional (fun x => exists l, x = YList l /\
      Forall (if (t =? "structure") || (t =? "union") then tidy_member else text) l)
      "members" v;
  td_values : entry v "type" (Y "enumeration") ->
    optional (fun x => exists l, x = YList l /\ Forall tidy_enum_value l) "values" v;
  td_layout : entry v "type" (Y "format") -> forall x, entry v "layout" x ->
    exists l, x = YList l /\ Forall text_keys l }.
