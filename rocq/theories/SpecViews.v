(** Specification vocabulary for numbers of different types that lie in the same
    bytes. *)
From Coq Require Import String List ZArith Bool.
From Verif Require Import Base PyVal PyStruct DataTypes SpecPrim.
Import ListNotations.
Open Scope Z_scope.

(** The byte order of two definitions is the same on a host. *)
Definition same_order (host : endian) (f f' : fixed) : Prop :=
  order_on host (f_bo f) = order_on host (f_bo f').

(** Where the more and the less significant half of a number of [2 * n] bytes at
    [off] lie. *)
Definition high_half (en : endian) (off n : Z) : Z := match en with Big => off | Little => off + n end.
Definition low_half (en : endian) (off n : Z) : Z := match en with Big => off + n | Little => off end.

Definition opposite (en : endian) : endian := match en with Big => Little | Little => Big end.

Definition mirrored_fixed (host : endian) (f f' : fixed) : Prop :=
  f_size f' = f_size f /\ f_units f' = f_units f /\
  order_on host (f_bo f') = opposite (order_on host (f_bo f)).

(** The same number, boolean or character in the other byte order. *)
Definition mirrored (host : endian) (d d' : dtype) : Prop :=
  match d, d' with
  | DInteger f u, DInteger f' u' => u' = u /\ mirrored_fixed host f f'
  | DFloat f, DFloat f' => mirrored_fixed host f f'
  | DBoolean f fv tv, DBoolean f' fv' tv' => fv' = fv /\ tv' = tv /\ mirrored_fixed host f f'
  | DCharacter f, DCharacter f' => mirrored_fixed host f f'
  | _, _ => False
  end.

(** The bytes are the numbers, each of [n] bytes, one after another. *)
Inductive made_of (signed : bool) (en : endian) (n : Z) : bytes -> list pyval -> Prop :=
| made_of_nothing : made_of signed en n [] []
| made_of_number p w vs : len p = n -> made_of signed en n w vs ->
    made_of signed en n (p ++ w) (VInt (stored_integer signed en p) :: vs).
