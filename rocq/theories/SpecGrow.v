(** Specification vocabulary for definitions to which members are appended. *)
From Coq Require Import String List ZArith Bool.
From Verif Require Import Base PyVal DataTypes ClassFactory DataMaps SpecMap SpecCreate.
Import ListNotations.
Open Scope Z_scope.

(** [w] is [v], or the structure [v] with the attributes [more] added. *)
Definition extended (more : list string) (v w : pyval) : Prop :=
  w = v \/ exists cls l l', v = VStruct cls l /\ w = VStruct cls (l ++ l') /\ map fst l' = more.

(** The names of both namespaces are the same; their values are, but for
    attributes added to structures. *)
Definition widened_env (more : list string) (e e' : env) : Prop :=
  Forall2 (fun a b => fst a = fst b /\ extended more (snd a) (snd b)) e e'.

(** The expression does not look at the attributes [more]. *)
Definition blind (orc : oracle) (more : list string) (x : string) : Prop :=
  forall e e', widened_env more e e' -> o_eval orc x (ns e') = o_eval orc x (ns e).

(** The expressions of a definition, apart from what it refers to. *)
Definition expressions (d : dtype) : list string :=
  let given (o : option string) := match o with Some x => [x] | None => [] end in
  match d with
  | DElems _ e _ => given (e_data_size_expr e) ++ given (e_number_expr e)
  | DMember _ _ c _ _ _ => given c
  | _ => []
  end.

(** None of the expressions of the definition looks at the attributes [more]. *)
Definition overlooks (orc : oracle) (more : list string) (d : dtype) : Prop :=
  Forall (blind orc more) (expressions d).

(** The definition has no expressions. *)
Definition wordless (d : dtype) : Prop := expressions d = [].
