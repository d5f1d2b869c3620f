(** Specification vocabulary for the names at which the expressions of a definition look. *)
From Coq Require Import String List ZArith Bool.
From Verif Require Import Base PyVal DataTypes ClassFactory DataMaps SpecGrow.
Import ListNotations.
Open Scope Z_scope.

(** The namespaces have the same values for these names. *)
Definition agree_on (names : list string) (e1 e2 : env) : Prop :=
  forall k, In k names -> dict_get k e1 = dict_get k e2.

(** The result of the expression depends on the values of these names only. *)
Definition looks_only_at (orc : oracle) (names : list string) (x : string) : Prop :=
  forall e1 e2, agree_on names e1 e2 -> o_eval orc x e1 = o_eval orc x e2.

(** So for all expressions of the definition, apart from what it refers to. *)
Definition heeds (orc : oracle) (names : list string) (d : dtype) : Prop :=
  Forall (looks_only_at orc names) (expressions d).
