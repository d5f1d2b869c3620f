(** IEEE 754 binary32/binary64 bit patterns and the conversions that CPython's
    [struct] module performs for the formats 'f' and 'd'. *)
From Coq Require Import ZArith Bool Lia.
Open Scope Z_scope.

(** A decoded double: NaN (with its 52 bit payload), infinity, or the exact
    number (-1)^neg * m * 2^e with m >= 0.  Values of the formats 'f' and 'd',
    data_maps.py:476-479. *)
Inductive fval : Set :=
| FNan (neg : bool) (payload : Z)
| FInf (neg : bool)
| FFin (neg : bool) (m e : Z).

(** Decoding of a pattern with [mb] mantissa bits and [eb] exponent bits.
    Formats of data_maps.py:476-479, read at byte_operations.py:78. *)
Definition ieee_decode (mb eb : Z) (bits : Z) : fval :=
  let neg := 2 ^ (mb + eb) <=? bits in
  let r := bits mod 2 ^ (mb + eb) in
  let e := r / 2 ^ mb in
  let m := r mod 2 ^ mb in
  if e =? 2 ^ eb - 1 then
    (if m =? 0 then FInf neg else FNan neg m)
  else if e =? 0 then FFin neg m (2 - 2 ^ (eb - 1) - mb)
  else FFin neg (2 ^ mb + m) (e + 1 - 2 ^ (eb - 1) - mb).

(** Round half to even of m / 2^k, for k > 0.  For packing,
    byte_operations.py:96. *)
Definition round_shift (m k : Z) : Z :=
  let q := m / 2 ^ k in
  let r := m mod 2 ^ k in
  let h := 2 ^ (k - 1) in
  if r <? h then q
  else if h <? r then q + 1
  else if Z.even q then q else q + 1.

(** The magnitude bits (without sign) of m * 2^e rounded to nearest-even in the
    format, or None on overflow.  The least exponent of the format is
    2 - 2^(eb-1) - mb.  For packing, byte_operations.py:96. *)
Definition ieee_round (mb eb m e : Z) : option Z :=
  if m =? 0 then Some 0 else
  let emin := 2 - 2 ^ (eb - 1) - mb in
  let k := Z.max emin (Z.log2 m + e - mb) in
  let q := if k <=? e then m * 2 ^ (e - k) else round_shift m (k - e) in
  let b := (k - emin) * 2 ^ mb + q in
  if (2 ^ eb - 1) * 2 ^ mb <=? b then None else Some b.

(** The bits of a number with its sign, byte_operations.py:96. *)
Definition with_sign (mb eb : Z) (neg : bool) (b : Z) : Z :=
  if neg then 2 ^ (mb + eb) + b else b.

(** unpack 'f': exact widening of a single to a double.  A signalling NaN is
    quieted, as the hardware conversion does.  byte_operations.py:78. *)
Definition f32_to_f64 (b : Z) : Z :=
  match ieee_decode 23 8 b with
  | FNan neg p =>
      with_sign 52 11 neg (2047 * 2 ^ 52 + Z.lor (p * 2 ^ 29) (2 ^ 51))
  | FInf neg => with_sign 52 11 neg (2047 * 2 ^ 52)
  | FFin neg m e =>
      with_sign 52 11 neg
        (match ieee_round 52 11 m e with Some b => b | None => 0 end)
  end.

(** pack 'f': rounding to nearest-even; None is CPython's OverflowError
    ("float too large to pack with f format").  byte_operations.py:96. *)
Definition f64_to_f32 (b : Z) : option Z :=
  match ieee_decode 52 11 b with
  | FNan neg p =>
      Some (with_sign 23 8 neg (255 * 2 ^ 23 + Z.lor (p / 2 ^ 29) (2 ^ 22)))
  | FInf neg => Some (with_sign 23 8 neg (255 * 2 ^ 23))
  | FFin neg m e => option_map (with_sign 23 8 neg) (ieee_round 23 8 m e)
  end.

(** Conversion of a Python int to a double by [struct] ('f' and 'd' accept
    ints); None is the error for ints that are too large.
    byte_operations.py:96. *)
Definition Z_to_f64 (z : Z) : option Z :=
  option_map (with_sign 52 11 (z <? 0)) (ieee_round 52 11 (Z.abs z) 0).

(** Numeric [==] between two doubles given as bit patterns.  As for terminators
    and supported values, data_maps.py:1059 and 1793. *)
Definition dyadic_eqb (n1 : bool) (m1 e1 : Z) (n2 : bool) (m2 e2 : Z) : bool :=
  let s1 := if n1 then - m1 else m1 in
  let s2 := if n2 then - m2 else m2 in
  let e := Z.min e1 e2 in
  s1 * 2 ^ (e1 - e) =? s2 * 2 ^ (e2 - e).

(** [==] of two doubles, data_maps.py:1059 and 1793. *)
Definition f64_eqb (a b : Z) : bool :=
  match ieee_decode 52 11 a, ieee_decode 52 11 b with
  | FInf n1, FInf n2 => Bool.eqb n1 n2
  | FFin n1 m1 e1, FFin n2 m2 e2 => dyadic_eqb n1 m1 e1 n2 m2 e2
  | _, _ => false
  end.

(** Numeric [==] between a double and an int.  As for terminators and supported
    values, data_maps.py:1059 and 1793. *)
Definition f64_eqZ (a z : Z) : bool :=
  match ieee_decode 52 11 a with
  | FFin n m e => dyadic_eqb n m e (z <? 0) (Z.abs z) 0
  | _ => false
  end.
