(** What a definition file says: the definitions that documents following the
    format specification (docs/sources/Format-specification.md) describe.  No
    function of the reader is used; [y_int], [y_lower] and [y_iter] are Python's
    int(), lower() and iter(). *)
From Coq Require Import String List ZArith Bool.
From Verif Require Import Base Ieee Yaml DataTypes Reader SpecReader.
Import ListNotations.
Open Scope Z_scope.
Local Open Scope string_scope.
Local Open Scope list_scope.

(** Values that can be keys: all but lists, sets and mappings, and tuples that
    contain one. *)
Fixpoint hashable (v : yval) : bool :=
  match v with
  | YList _ => false
  | YSet _ => false
  | YMap _ => false
  | YTuple l => forallb hashable l
  | YNull | YBool _ | YInt _ | YFloat _ | YStr _ | YBytes _ | YDate _ => true
  end.

(** The value under the key, or the default if the mapping lacks the key. *)
Definition field_or (default : yval) (v : yval) (key : string) (x : yval) : Prop :=
  entry v key x \/ ((exists l, v = YMap l) /\ (forall y, ~ entry v key y) /\ x = default).

Definition field : yval -> string -> yval -> Prop := field_or YNull.

(** [a] if it is given, otherwise [b]. *)
Definition given_or (a b x : yval) : Prop := (~ falsy a /\ x = a) \/ (falsy a /\ x = b).

(** The name, aliases, description and urls. *)
Definition says_meta (v : yval) (m : rmeta) : Prop :=
  field v "name" (rm_name m)
  /\ (exists a, field v "aliases" a /\ given_or a (YList []) (rm_aliases m))
  /\ field v "description" (rm_desc m) /\ field v "urls" (rm_urls m).

(** The byte order in the attributes: native unless it is given. *)
Definition says_order (names : list string) (v bo : yval) : Prop :=
  exists a, field v "attributes" a
  /\ ((falsy a /\ bo = Y "native")
      \/ (~ falsy a /\ only_keys names a /\ field_or (Y "native") a "byte_order" bo
          /\ a_byte_order bo)).

(** * Types of a fixed size *)

(** Size and units in the attributes. *)
Definition says_size (default : yval) (sizes : list Z) (v size units : yval) : Prop :=
  exists a, field v "attributes" a
  /\ ((falsy a /\ size = default /\ units = Y "bytes")
      \/ (~ falsy a /\ field_or default a "size" size /\ a_size sizes size
          /\ field_or (Y "bytes") a "units" units)).

Definition says_fixed (member : bool) (type : string) (default : yval) (sizes : list Z)
    (v : yval) (f : rfixed) : Prop :=
  only_keys (if member then member_keys None else definition_keys type) v
  /\ says_meta v (rf_meta f)
  /\ says_order (type_attributes type) v (rf_bo f)
  /\ says_size default sizes v (rf_size f) (rf_units f).

(** Integers are signed unless the attributes say otherwise. *)
Definition says_format (v format : yval) : Prop :=
  exists a, field v "attributes" a
  /\ ((falsy a /\ format = Y "signed")
      \/ (~ falsy a /\ field_or (Y "signed") a "format" format
          /\ one_of ["signed"; "unsigned"] format)).

(** * References *)

(** The name stands for the definition: the definition of that name, without
    regard to case, or else the definition that has the alias. *)
Definition stands_for (env : yenv) (prior : list rdef) (name : yval) (d : rdef) : Prop :=
  In d prior
  /\ exists k, y_lower env name = Ok k
  /\ (y_lower env (rd_name d) = Ok k
      \/ ((forall x, In x prior -> y_lower env (rd_name x) <> Ok k)
          /\ exists l, y_iter (rd_aliases d) = Ok l /\ In name l)).

(** * Sequences, streams and strings *)

(** A number, or else an expression. *)
Definition says_amount (env : yenv) (x : yval) (number : option Z) (expr : option yval) : Prop :=
  (x = YNull /\ number = None /\ expr = None)
  \/ (x <> YNull /\ exists z, y_int env x = Ok z /\ number = Some z /\ expr = None)
  \/ (x <> YNull /\ y_int env x = Raise ValueError /\ number = None /\ expr = Some x).

(** Text as bytes, one per character. *)
Definition says_bytes (limit : Z) (x y : yval) : Prop :=
  (exists s b, x = YStr s /\ y = YBytes b
     /\ Forall2 (fun c a => c = byteZ a /\ c < limit) s b)
  \/ (~ text x /\ y = x).

Definition says_terminator (x : yval) (t : option yval) : Prop :=
  (x = YNull /\ t = None)
  \/ (x <> YNull /\ exists y, t = Some y /\ says_bytes 128 x y).

Definition kind_type (k : seq_kind) : string :=
  match k with KSequence => "sequence" | KStream => "stream" | KString => "string" end.

Definition says_elements (env : yenv) (prior : list rdef) (member : bool) (k : seq_kind)
    (v : yval) (e : relems) (elem : rdef) : Prop :=
  only_keys (if member then member_keys (Some (kind_type k)) else definition_keys (kind_type k)) v
  /\ says_meta v (re_meta e)
  /\ field v "element_data_type" (re_data_type e) /\ ~ falsy (re_data_type e)
  /\ stands_for env prior (re_data_type e) elem
  /\ re_bo e = rd_byte_order elem
  /\ (exists size number terminator,
       field v "elements_data_size" size /\ field v "number_of_elements" number
       /\ field v "elements_terminator" terminator
       /\ ~ (size = YNull /\ number = YNull /\ terminator = YNull)
       /\ ~ (size <> YNull /\ number <> YNull)
       /\ says_amount env size (re_data_size e) (re_data_size_expr e)
       /\ says_amount env number (re_number e) (re_number_expr e)
       /\ says_terminator terminator (re_terminator e))
  /\ match k with
     | KString => field v "encoding" (re_encoding e) /\ ~ falsy (re_encoding e)
     | _ => re_encoding e = Y "ascii"
     end.

(** * Members *)

(** The supported values of a member. *)
Definition says_values (v : yval) (vs : option (list yval)) : Prop :=
  exists value values, field v "value" value /\ field v "values" values
  /\ ((value <> YNull /\ values = YNull
        /\ exists y, vs = Some [y] /\ says_bytes 256 value y)
      \/ (value = YNull /\ falsy values /\ vs = None)
      \/ (value = YNull /\ ~ falsy values
          /\ exists l ys, y_iter values = Ok l /\ vs = Some ys /\ Forall2 (says_bytes 256) l ys)).

(** Conditions are only supported in structures. *)
Definition says_condition (conditions : bool) (v c : yval) : Prop :=
  field v "condition" c /\ (conditions = true \/ falsy c).

(** Padding or a type described in place, other than a union. *)
Inductive says_inline (env : yenv) (prior : list rdef) (member : bool) : yval -> rdef -> Prop :=
| SayBoolean : forall v f,
    field v "type" (Y "boolean") -> says_fixed member "boolean" (Y "native") [1; 2; 4] v f ->
    says_inline env prior member v (RBoolean f)
| SayCharacter : forall v f,
    field v "type" (Y "character") -> says_fixed member "character" (Y "native") [1; 2; 4] v f ->
    says_inline env prior member v (RCharacter f)
| SayFloat : forall v f,
    field v "type" (Y "floating-point") ->
    says_fixed member "floating-point" (Y "native") [4; 8] v f ->
    says_inline env prior member v (RFloat f)
| SayInteger : forall v f fmt,
    field v "type" (Y "integer") -> says_fixed member "integer" (Y "native") [1; 2; 4; 8] v f ->
    says_format v fmt ->
    says_inline env prior member v (RInteger f fmt)
| SayUUID : forall v f,
    field v "type" (Y "uuid") -> says_fixed member "uuid" (YInt 16) [16] v f ->
    says_inline env prior member v (RUUID f)
| SayPadding : forall v m align,
    member = true -> field v "type" (Y "padding") ->
    only_keys (member_keys (Some "padding")) v -> says_meta v m ->
    field v "alignment_size" align ->
    (exists z, In z [2; 4; 8; 16] /\ equals_number align z) ->
    says_inline env prior member v (RPadding m (Y "native") align)
| SayElems : forall v k e elem,
    field v "type" (Y (kind_type k)) -> says_elements env prior member k v e elem ->
    says_inline env prior member v (RElems k e elem).

(** What structures and unions have in common. *)
Definition says_container (type : string) (v : yval) (m : rmeta) (bo : yval) (l : list yval) : Prop :=
  field v "type" (Y type) /\ only_keys (definition_keys type) v /\ says_meta v m
  /\ says_order ["byte_order"] v bo
  /\ exists x, field v "members" x /\ ~ falsy x /\ y_iter x = Ok l.

(** Names that can be keys and are all different. *)
Definition unique_names (ms : list rdef) : Prop :=
  Forall (fun d => hashable (rd_name d) = true) ms /\ distinct (map rd_name ms).

(** One member, and the members of a structure or union with the names of those
    before the first section and the sections with the names of theirs. *)
Inductive says_member (env : yenv) (prior : list rdef) : bool -> yval -> rdef -> Prop :=
| SayReference : forall cs v name aliases vs m bo c dt d,
    field v "name" name -> ~ falsy name -> field v "type" YNull ->
    field v "data_type" dt -> dt <> YNull -> stands_for env prior dt d ->
    only_keys (member_keys None) v ->
    says_condition cs v c -> says_values v vs ->
    rm_name m = name -> field v "description" (rm_desc m) -> rm_urls m = YNull ->
    field v "aliases" aliases -> given_or aliases (YList []) (rm_aliases m) ->
    bo = rd_byte_order d ->
    says_member env prior cs v (RMember m bo c dt vs d)
| SayInline : forall cs v name c vs d,
    field v "name" name -> ~ falsy name -> field v "data_type" YNull ->
    says_condition cs v c -> says_values v vs ->
    falsy c -> vs = None -> says_inline env prior true v d ->
    says_member env prior cs v d
| SayWrapped : forall cs v name c vs d,
    field v "name" name -> ~ falsy name -> field v "data_type" YNull ->
    says_condition cs v c -> says_values v vs ->
    ~ (falsy c /\ vs = None) -> says_inline env prior true v d ->
    says_member env prior cs v
      (RMember (mkRMeta name (YList []) YNull YNull) (rd_byte_order d) c YNull vs d)
| SayUnion : forall cs v m bo l ms names ss,
    says_container "union" v m bo l -> says_members env prior false l ms names ss ->
    unique_names ms ->
    says_member env prior cs v (RUnion m bo ss ms)
with says_members (env : yenv) (prior : list rdef)
    : bool -> list yval -> list rdef -> list yval -> list (yval * list yval) -> Prop :=
| SayNone : forall cs, says_members env prior cs [] [] [] []
| SaySection : forall cs v s l ms names ss,
    field v "section" s -> ~ falsy s -> says_members env prior cs l ms names ss ->
    says_members env prior cs (v :: l) ms [] ((s, names) :: ss)
| SayMember : forall cs v s d l ms names ss,
    field v "section" s -> falsy s -> says_member env prior cs v d ->
    says_members env prior cs l ms names ss ->
    says_members env prior cs (v :: l) (d :: ms) (rd_name d :: names) ss.

(** * Other documents *)

Definition says_enum_value (v : yval) (x : renum) : Prop :=
  field v "name" (rv_name x) /\ ~ falsy (rv_name x) /\ hashable (rv_name x) = true
  /\ field v "number" (rv_number x) /\ rv_number x <> YNull /\ hashable (rv_number x) = true
  /\ field v "description" (rv_desc x)
  /\ (exists a, field v "aliases" a /\ given_or a (YList []) (rv_aliases x))
  /\ (exists l, y_iter (rv_aliases x) = Ok l /\ Forall (fun a => hashable a = true) l).

Definition says_layout (v : yval) (x : yval * yval) : Prop :=
  field v "data_type" (fst x) /\ ~ falsy (fst x) /\ field v "offset" (snd x)
  /\ only_keys ["data_type"; "offset"] v.

(** The definition a document describes, given those before it. *)
Inductive says (env : yenv) (prior : list rdef) : yval -> rdef -> Prop :=
| SaysInline : forall v d, says_inline env prior false v d -> says env prior v d
| SaysStructure : forall v m bo l ms names ss,
    says_container "structure" v m bo l -> says_members env prior true l ms names ss ->
    unique_names ms -> says env prior v (RStructure m bo ss ms)
| SaysUnion : forall v m bo l ms names ss,
    says_container "union" v m bo l -> says_members env prior false l ms names ss ->
    unique_names ms -> says env prior v (RUnion m bo ss ms)
| SaysConstant : forall v m x,
    field v "type" (Y "constant") -> only_keys (definition_keys "constant") v ->
    says_meta v m -> field v "value" x -> x <> YNull -> says env prior v (RConstant m x)
| SaysEnumeration : forall v m x l vs,
    field v "type" (Y "enumeration") -> only_keys (definition_keys "enumeration") v ->
    says_meta v m -> field v "values" x -> ~ falsy x -> y_iter x = Ok l ->
    Forall2 says_enum_value l vs ->
    distinct (map rv_name vs) -> distinct (map rv_number vs) -> unique_aliases vs ->
    says env prior v (REnumeration m vs)
| SaysFormat : forall v m a bo x l layout metadata,
    field v "type" (Y "format") -> only_keys (definition_keys "format") v ->
    says_meta v m -> field_or (YList []) v "layout" x -> y_iter x = Ok l ->
    Forall2 says_layout l layout -> field_or (YMap []) v "metadata" metadata ->
    field v "attributes" a ->
    ((falsy a /\ bo = None)
     \/ (exists b, ~ falsy a /\ bo = Some b /\ says_order ["byte_order"] v b)) ->
    says env prior v (RFormat m bo layout metadata)
| SaysFamily : forall v m base n x l ms,
    field v "type" (Y "structure-family") -> only_keys (definition_keys "structure-family") v ->
    says_meta v m -> field v "base" n -> ~ falsy n -> stands_for env prior n base ->
    field v "members" x -> ~ falsy x -> y_iter x = Ok l ->
    Forall2 (stands_for env prior) l ms -> unique_names ms ->
    says env prior v (RFamily m base ms)
| SaysGroup : forall v m base n identifier dn default x l ms,
    field v "type" (Y "structure-group") -> only_keys (definition_keys "structure-group") v ->
    says_meta v m -> field v "base" n -> ~ falsy n -> stands_for env prior n base ->
    field v "identifier" identifier -> ~ falsy identifier ->
    field v "default" dn ->
    ((falsy dn /\ default = None)
     \/ (exists d, ~ falsy dn /\ default = Some d /\ stands_for env prior dn d)) ->
    field v "members" x -> ~ falsy x -> y_iter x = Ok l ->
    Forall2 (stands_for env prior) l ms -> unique_names ms ->
    Forall (fun d => exists inner y, rd_members d = Some inner /\ In y inner /\
      y_eqb identifier (rd_name y) = true) ms ->
    says env prior v (RGroup m (rd_byte_order base) base identifier default ms).

(** The name and aliases are not taken by the definitions before. *)
Definition fresh (env : yenv) (prior : list rdef) (d : rdef) : Prop :=
  exists k l, y_lower env (rd_name d) = Ok k /\ y_iter (rd_aliases d) = Ok l
  /\ Forall (fun a => hashable a = true) l
  /\ forall x, In x prior ->
       y_lower env (rd_name x) <> Ok k
       /\ forall al, y_iter (rd_aliases x) = Ok al ->
            ~ In (rd_name d) al /\ forall a b, In a l -> In b al -> y_eqb a b = false.

(** The definitions a file describes, given those before it. *)
Inductive says_file (env : yenv) : list rdef -> list yval -> list rdef -> Prop :=
| SaysEnd : forall prior, says_file env prior [] []
| SaysMore : forall prior v d docs ds,
    says env prior v d -> ~ falsy (rd_name d) -> fresh env prior d ->
    says_file env (prior ++ [d]) docs ds ->
    says_file env prior (v :: docs) (d :: ds).
