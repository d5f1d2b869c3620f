(** Specification vocabulary for members kept as bytes. *)
From Coq Require Import String List ZArith Bool.
From Verif Require Import Base PyVal DataTypes ClassFactory DataMaps SpecMap SpecCreate.
Import ListNotations.
Open Scope Z_scope.

(** A member of the same name and under the same condition. *)
Definition in_place_of (x y : dtype) : Prop :=
  dt_name y = dt_name x /\ truthy_str (member_cond y) = truthy_str (member_cond x).

(** Not padding, the size of which depends on where it lies. *)
Definition unpadded (d : dtype) : Prop :=
  match d with DPadding _ _ _ => False | _ => True end.
