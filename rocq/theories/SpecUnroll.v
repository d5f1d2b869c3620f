(** Specification vocabulary for sequences and the structures that list their elements. *)
From Coq Require Import String List ZArith Bool.
From Verif Require Import Base PyVal DataTypes DataMaps SpecCreate.
Import ListNotations.
Open Scope Z_scope.

(** The member is of type [el], always present, and may have any value. *)
Definition only (el m : dtype) : Prop :=
  type_of m = el /\ truthy_str (member_cond m) = None /\ member_values m = None.

(** The sequence has exactly [k] elements. *)
Definition exactly (k : Z) (e : elems) : Prop :=
  e_data_size e = None /\ e_data_size_expr e = None /\ e_terminator e = None /\ e_number e = Some k.

(** The type does not take its byte order from what it is used in, or is a number,
    character or boolean: elements of other types keep their native byte order, while
    members are given that of the structure. *)
Definition same_order_inside (bo : byte_order) (el : dtype) : Prop :=
  bo = BONative \/ dt_byte_order el <> Some BONative \/ is_composite el = false.
