(** Specification vocabulary for moving a byte stream. *)
From Coq Require Import List ZArith.
From Verif Require Import Base DataTypes.
Open Scope Z_scope.

(** The distance [k] is a multiple of the alignment of the padding. *)
Definition keeps_alignment (k : Z) (d : dtype) : Prop :=
  match d with
  | DPadding _ _ (Some a) => k mod a = 0
  | _ => True
  end.
