(** Specification vocabulary for members that are moved into a structure of their own. *)
From Coq Require Import String List ZArith Bool.
From Verif Require Import Base PyVal PyStruct DataTypes ClassFactory DataMaps SpecPrim SpecMap SpecCreate SpecGrow.
Import ListNotations.
Open Scope Z_scope.

(** [v'] is [v], or the structure [v] with a single attribute [x], whatever its value,
    in place of the attributes [names]. *)
Definition regrouped (names : list string) (x : string) (v v' : pyval) : Prop :=
  v' = v \/ exists cls l1 lm l2 w, v = VStruct cls (l1 ++ lm ++ l2) /\ map fst lm = names /\ v' = VStruct cls (l1 ++ (x, w) :: l2).

(** The names of both namespaces are the same; their values are, but for regrouped
    structures. *)
Definition regrouped_env (names : list string) (x : string) (e e' : env) : Prop :=
  Forall2 (fun a b => fst a = fst b /\ regrouped names x (snd a) (snd b)) e e'.

(** The expression looks neither at the attributes [names] nor at [x]. *)
Definition unconcerned (orc : oracle) (names : list string) (x : string) (s : string) : Prop :=
  forall e e', regrouped_env names x e e' -> o_eval orc s (ns e') = o_eval orc s (ns e).

(** None of the expressions of the definition looks at them. *)
Definition untouched_by (orc : oracle) (names : list string) (x : string) (d : dtype) : Prop :=
  Forall (unconcerned orc names x) (expressions d).

(** The member does not take its byte order from the structure, or is not a
    structure or structure group: of these the copy with the byte order of the
    structure is named after it. *)
Definition movable (bo : byte_order) (m : dtype) : Prop :=
  bo = BONative \/ dt_byte_order (type_of m) <> Some BONative \/
  match type_of m with DStructure _ _ _ | DGroup _ _ _ _ _ _ => False | _ => True end.
