(** Specification of rounding: the finite double or single that is nearest to a
    number. *)
From Coq Require Import ZArith Bool.
From Verif Require Import SpecPrim SpecReads.
Open Scope Z_scope.

(** Numbers in units of the smallest subnormal double, 2^-1074. *)
Definition double_number (b : Z) : Z :=
  (if b / 2 ^ 63 =? 0 then 1 else -1) * double_units b.
Definition single_number (b : Z) : Z :=
  (if b / 2 ^ 31 =? 0 then 1 else -1) * (single_units b * 2 ^ (1074 - 149)).
Definition integer_number (z : Z) : Z := z * 2 ^ 1074.

Definition a_finite_double (b : Z) : Prop := 0 <= b < 2 ^ 64 /\ finite_double b.
Definition a_finite_single (b : Z) : Prop := 0 <= b < 2 ^ 32 /\ single_exponent b <> 255.

(** The finite single [s] is nearest to the number [x]; of two that are equally
    near it is the one with an even mantissa. *)
Definition nearest_single (x s : Z) : Prop :=
  a_finite_single s /\
  forall s', a_finite_single s' ->
    Z.abs (single_number s - x) <= Z.abs (single_number s' - x) /\
    (Z.abs (single_number s - x) = Z.abs (single_number s' - x) ->
     single_number s' = single_number s \/ Z.Even (single_mantissa s)).

Definition nearest_double (x w : Z) : Prop :=
  a_finite_double w /\
  forall w', a_finite_double w' ->
    Z.abs (double_number w - x) <= Z.abs (double_number w' - x) /\
    (Z.abs (double_number w - x) = Z.abs (double_number w' - x) ->
     double_number w' = double_number w \/ Z.Even (double_mantissa w)).

(** The single [s] stands for the double [b]: the same sign, and the nearest
    number, or infinity, or a quiet NaN with the upper bits of the payload. *)
Definition narrowed (b s : Z) : Prop :=
  0 <= s < 2 ^ 32 /\ s / 2 ^ 31 = b / 2 ^ 63 /\
  (finite_double b -> nearest_single (double_number b) s) /\
  (~ finite_double b ->
     single_exponent s = 255 /\
     single_mantissa s =
       if double_mantissa b =? 0 then 0
       else 2 ^ 22 + (double_mantissa b / 2 ^ (52 - 23)) mod 2 ^ 22).

(** Integers from half a unit beyond the largest finite double on. *)
Definition too_large_for_double (z : Z) : Prop := (2 ^ 54 - 1) * 2 ^ 970 <= Z.abs z.
