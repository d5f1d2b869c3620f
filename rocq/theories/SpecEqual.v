(** When two Python values are equal: numbers by the number they stand for,
    whatever their type, other values by type and content. *)
From Coq Require Import String List ZArith QArith Bool.
From Verif Require Import Base PyVal.
Import ListNotations.
Open Scope Z_scope.

(** The pattern of a double with sign bit s, exponent field e and mantissa
    field m. *)
Definition pattern (s e m : Z) : Z := s * 2 ^ 63 + e * 2 ^ 52 + m.

Definition sign_of (s : Z) : Q := if s =? 0 then 1%Q else (- (1))%Q.

(** The number a pattern stands for (IEEE 754, 3.4). *)
Inductive double_value : Z -> Q -> Prop :=
| DNormal : forall s e m, 0 <= s <= 1 -> 0 < e < 2047 -> 0 <= m < 2 ^ 52 ->
    double_value (pattern s e m)
      (sign_of s * (1 + inject_Z m / inject_Z (2 ^ 52)) * Qpower 2 (e - 1023))%Q
| DSubnormal : forall s m, 0 <= s <= 1 -> 0 <= m < 2 ^ 52 ->
    double_value (pattern s 0 m)
      (sign_of s * (inject_Z m / inject_Z (2 ^ 52)) * Qpower 2 (- 1022))%Q.

(** The whole number [z] is the number [q] without its fraction. *)
Definition truncated (q : Q) (z : Z) : Prop :=
  ((0 <= q)%Q -> (inject_Z z <= q)%Q /\ (q < inject_Z (z + 1))%Q) /\
  ((q <= 0)%Q -> (q <= inject_Z z)%Q /\ (inject_Z (z - 1) < q)%Q).

(** The number a value stands for. *)
Inductive denotes : pyval -> Q -> Prop :=
| DenInt : forall z, denotes (VInt z) (inject_Z z)
| DenBool : forall b, denotes (VBool b) (if b then 1 else 0)%Q
| DenFloat : forall bits q, double_value bits q -> denotes (VFloat bits) q.

Inductive equal : pyval -> pyval -> Prop :=
| EqNumbers : forall v w p q, denotes v p -> denotes w q -> (p == q)%Q -> equal v w
| EqInfinities : forall s, 0 <= s <= 1 ->
    equal (VFloat (pattern s 2047 0)) (VFloat (pattern s 2047 0))
| EqNone : equal VNone VNone
| EqStr : forall s, equal (VStr s) (VStr s)
| EqBytes : forall b, equal (VBytes b) (VBytes b)
| EqUUID : forall b, equal (VUUID b) (VUUID b)
| EqBuiltins : equal VBuiltins VBuiltins
| EqTuples : forall l l', Forall2 equal l l' -> equal (VTuple l) (VTuple l').

(** Doubles are patterns of 64 bits. *)
Inductive proper : pyval -> Prop :=
| ProFloat : forall bits, 0 <= bits < 2 ^ 64 -> proper (VFloat bits)
| ProTuple : forall l, Forall proper l -> proper (VTuple l)
| ProOther : forall v,
    match v with VFloat _ | VTuple _ => False | _ => True end -> proper v.
