(** Plain documents: what definition files are written with in practice, which is
    what the model of the maps covers. *)
From Coq Require Import String List ZArith Bool.
From Verif Require Import Base Yaml Reader SpecReader.
Import ListNotations.
Open Scope Z_scope.
Local Open Scope string_scope.
Local Open Scope list_scope.

(** Text of ASCII characters. *)
Definition plain_text (v : yval) : Prop :=
  exists s, v = YStr s /\ Forall (fun c => 0 <= c < 128) s.

(** Text of any characters but surrogates. *)
Definition plain_words (v : yval) : Prop :=
  exists s, v = YStr s /\ Forall (fun c => 0 <= c < 1114112 /\ ~ 55296 <= c <= 57343) s.

Definition plain_integer (v : yval) : Prop := exists z, v = YInt z.

(** No collection and no date. *)
Definition plain_scalar (v : yval) : Prop :=
  match v with
  | YNull | YBool _ | YInt _ | YFloat _ | YStr _ | YBytes _ => True
  | _ => False
  end.

Definition plain_list (P : yval -> Prop) (v : yval) : Prop := exists l, v = YList l /\ Forall P l.

(** The value of a key of a document ([top]) or of a mapping in it: names are not
    empty, text other than descriptions is ASCII, sizes are integers, values are scalars. *)
Definition plain_field (top : bool) (key : string) (x : yval) : Prop :=
  match key with
  | "name" => x = YNull \/ plain_text x /\ x <> YStr []
  | "description" => x = YNull \/ plain_words x
  | "condition" | "data_type" | "element_data_type" | "encoding" | "identifier" =>
      x = YNull \/ plain_text x
  | "units" => plain_text x
  | "aliases" => x = YNull \/ plain_list plain_text x
  | "size" => plain_integer x \/ plain_text x
  | "alignment_size" | "offset" => x = YNull \/ plain_integer x
  | "elements_data_size" | "number_of_elements" => x = YNull \/ plain_integer x \/ plain_text x
  | "elements_terminator" | "value" | "number" => plain_scalar x
  | "members" | "layout" => x = YNull \/ plain_list (fun _ => True) x
  | "values" => x = YNull \/ plain_list (if top then fun _ => True else plain_scalar) x
  | _ => True
  end.

(** The values of all keys are plain, and so are the attributes, members, layout
    elements and enumeration values. *)
Inductive plain : bool -> yval -> Prop :=
| Plain : forall top v,
    (forall key x, entry v key x -> plain_field top key x) ->
    (forall x, entry v "attributes" x -> plain false x) ->
    (forall key l x, In key ["members"; "layout"; "values"] -> entry v key (YList l) -> In x l -> plain false x) ->
    plain top v.

Definition plain_document : yval -> Prop := plain true.
