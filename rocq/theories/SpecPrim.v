(** Specification vocabulary for primitive types: stored numbers, independent of
    the functions of the model. *)
From Coq Require Import String List ZArith Bool.
From Verif Require Import Base PyVal PyStruct DataTypes.
Import ListNotations.
Open Scope Z_scope.

(** The [n] bytes at offset [off]. *)
Definition window {A} (l : list A) (off n : Z) : list A :=
  firstn (Z.to_nat n) (skipn (Z.to_nat off) l).

(** Number written with the digits [bs] in base 256, most significant first. *)
Definition msb_number (bs : bytes) : Z :=
  fold_left (fun a b => 256 * a + byteZ b) bs 0.

(** Number stored in [bs] in the given byte order. *)
Definition stored_number (en : endian) (bs : bytes) : Z :=
  match en with Big => msb_number bs | Little => msb_number (rev bs) end.

(** Two's complement reading of an unsigned [n] byte number. *)
Definition twos_complement (n v : Z) : Z :=
  if v <? 2 ^ (8 * n - 1) then v else v - 2 ^ (8 * n).

Definition stored_integer (signed : bool) (en : endian) (bs : bytes) : Z :=
  if signed then twos_complement (len bs) (stored_number en bs)
  else stored_number en bs.

(** The byte order a definition stands for on a host. *)
Definition order_on (host : endian) (bo : byte_order) : endian :=
  match bo with BOBig => Big | BOLittle => Little | BONative => host end.

(** Values representable in [n] bytes. *)
Definition in_range (signed : bool) (n z : Z) : Prop :=
  if signed then - 2 ^ (8 * n - 1) <= z < 2 ^ (8 * n - 1)
  else 0 <= z < 2 ^ (8 * n).

(** A fixed-size definition of [n] bytes. *)
Definition sized (f : fixed) (n : Z) : Prop :=
  f_size f = Some n /\ f_units f = "bytes"%string.

(** The integer a Python value stands for: bool is a subclass of int. *)
Definition as_integer (v : pyval) : option Z :=
  match v with VInt z => Some z | VBool b => Some (Z.b2z b) | _ => None end.

(** What maps to False and to True. *)
Definition stands_for_false (fv tv : option Z) (z : Z) : Prop :=
  fv = Some z \/ (fv = None /\ tv <> Some z).
Definition stands_for_true (fv tv : option Z) (z : Z) : Prop :=
  fv <> Some z /\ (tv = Some z \/ (tv = None /\ fv <> None)).

(** The Unicode code points. *)
Definition code_point (z : Z) : Prop := 0 <= z <= 1114111.

(** UUID.bytes_le from UUID.bytes and back: the first three fields (4, 2 and 2
    bytes) are stored least significant byte first. *)
Definition swap_fields (b : bytes) : option bytes :=
  match b with
  | [b0; b1; b2; b3; b4; b5; b6; b7; b8; b9; ba; bb; bc; bd; be; bf] =>
      Some [b3; b2; b1; b0; b5; b4; b7; b6; b8; b9; ba; bb; bc; bd; be; bf]
  | _ => None
  end.

(** ** IEEE 754 bit patterns *)

(** Exponent and mantissa fields of a single (23 mantissa bits). *)
Definition single_exponent (b : Z) : Z := (b / 2 ^ 23) mod 256.
Definition single_mantissa (b : Z) : Z := b mod 2 ^ 23.

(** A signalling NaN: exponent all ones, mantissa not zero, quiet bit clear. *)
Definition signalling_single (b : Z) : Prop :=
  single_exponent b = 255 /\ 0 < single_mantissa b < 2 ^ 22.

Definition double_exponent (b : Z) : Z := (b / 2 ^ 52) mod 2048.
Definition double_mantissa (b : Z) : Z := b mod 2 ^ 52.

Definition finite_double (b : Z) : Prop := double_exponent b <> 2047.

(** The magnitude of a finite double in units of the smallest subnormal,
    2^-1074. *)
Definition double_units (b : Z) : Z :=
  if double_exponent b =? 0 then double_mantissa b
  else (2 ^ 52 + double_mantissa b) * 2 ^ (double_exponent b - 1).

(** Magnitudes of (2 - 2^-24) * 2^127 and above round to a single beyond the
    largest finite one. *)
Definition too_large_for_single (b : Z) : Prop :=
  finite_double b /\ (2 ^ 25 - 1) * 2 ^ 103 * 2 ^ 1074 <= double_units b.
