(** The part of CPython's [struct] module that dtfabric uses, and
    dtfabric/runtime/byte_operations.py. *)
From Coq Require Import String List ZArith Bool Lia.
From Verif Require Import Base Ieee PyVal.
Import ListNotations.
Open Scope Z_scope.

(** Resolved byte order of a struct format.  '<', '>' and '=' of
    data_maps.py:143-146. *)
Inductive endian : Set := Big | Little.

(** Format characters b B h H i I q Q f d.  data_maps.py:343-347, 428-432,
    476-479 and 497-511. *)
Inductive fcode : Set := Cb | CB | Ch | CH | Ci | CI | Cq | CQ | Cf | Cd.

(** struct.calcsize of one item in standard size, byte_operations.py:54. *)
Definition code_size (c : fcode) : nat :=
  match c with
  | Cb | CB => 1
  | Ch | CH => 2
  | Ci | CI | Cf => 4
  | Cq | CQ | Cd => 8
  end%nat.

(** The signed integer formats, data_maps.py:428-432 and 497-502. *)
Definition code_signed (c : fcode) : bool :=
  match c with Cb | Ch | Ci | Cq => true | _ => false end.

(** Unsigned value of a byte string, least significant byte first.  For
    unpacking, byte_operations.py:78. *)
Fixpoint le_val (bs : bytes) : Z :=
  match bs with
  | [] => 0
  | b :: r => byteZ b + 256 * le_val r
  end.

(** [n] bytes of [z], least significant byte first.  For packing,
    byte_operations.py:96. *)
Fixpoint le_enc (n : nat) (z : Z) : bytes :=
  match n with
  | O => []
  | S k => Zbyte z :: le_enc k (z / 256)
  end.

(** Bytes of one item in the order of the format, to least significant first
    and back.  data_maps.py:143-146. *)
Definition reorder (en : endian) (bs : bytes) : bytes :=
  match en with Little => bs | Big => rev bs end.

(** Two's complement, for unpacking, byte_operations.py:78. *)
Definition to_signed (n : nat) (v : Z) : Z :=
  if 2 ^ (8 * Z.of_nat n - 1) <=? v then v - 2 ^ (8 * Z.of_nat n) else v.

(** Unpacking of one item from exactly [code_size] bytes.
    byte_operations.py:78. *)
Definition unpack1 (en : endian) (c : fcode) (bs : bytes) : pyval :=
  let v := le_val (reorder en bs) in
  match c with
  | Cf => VFloat (f32_to_f64 v)
  | Cd => VFloat v
  | _ => if code_signed c then VInt (to_signed (code_size c) v) else VInt v
  end.

(** Bytes of one item in the order of the format, byte_operations.py:96. *)
Definition enc_n (en : endian) (n : nat) (z : Z) : bytes := reorder en (le_enc n z).

(** Packing of an integer item: struct.error when out of range.
    byte_operations.py:96. *)
Definition pack_int (en : endian) (c : fcode) (z : Z) : res bytes :=
  let n := code_size c in
  let m := 2 ^ (8 * Z.of_nat n) in
  let lo := if code_signed c then - (m / 2) else 0 in
  let hi := if code_signed c then m / 2 - 1 else m - 1 in
  if (lo <=? z) && (z <=? hi) then Ok (enc_n en n (z mod m)) else Raise IOError.

(** Packing of a double.  OverflowError is not translated by WriteTo.
    byte_operations.py:95-98. *)
Definition pack_float (en : endian) (c : fcode) (bits : Z) : res bytes :=
  match c with
  | Cf => match f64_to_f32 bits with
          | Some b => Ok (enc_n en 4 b)
          | None => Raise OverflowError
          end
  | _ => Ok (enc_n en 8 bits)
  end.

(** Packing of one Python value: integer formats take int and bool, float
    formats take float, int and bool; anything else is struct.error.
    byte_operations.py:96. *)
Definition pack1 (en : endian) (c : fcode) (v : pyval) : res bytes :=
  match c with
  | Cf | Cd =>
      match v with
      | VFloat b => pack_float en c b
      | VInt z => match Z_to_f64 z with
                  | Some b => pack_float en c b
                  | None => Raise IOError
                  end
      | VBool b => match Z_to_f64 (Z.b2z b) with
                   | Some b => pack_float en c b
                   | None => Raise IOError
                   end
      | _ => Raise IOError
      end
  | _ =>
      match v with
      | VInt z => pack_int en c z
      | VBool b => pack_int en c (Z.b2z b)
      | _ => Raise IOError
      end
  end.

(** A compiled format: byte order and counted format characters, the tokens of
    a string such as '<4i' or '>BHI'.  Simplification: formats are token lists
    instead of strings; every format dtfabric builds is a byte order character
    followed by such tokens (data_maps.py:171-183). *)
Record structop : Set := mkOp {
  op_endian : endian;
  op_tokens : list (Z * fcode) }.

(** The items of the format of an operation, byte_operations.py:54. *)
Definition op_codes (o : structop) : list fcode :=
  flat_map (fun '(n, c) => repeat c (Z.to_nat n)) (op_tokens o).

(** The size of the format of an operation, byte_operations.py:54. *)
Definition op_size (o : structop) : Z :=
  fold_right (fun '(n, c) a => n * Z.of_nat (code_size c) + a) 0 (op_tokens o).

(** [struct.Struct(format)] in byte_operations.py:43-64: a negative count is a
    bad format character and a total above sys.maxsize is rejected, both as
    FormatError. *)
Definition make_op (en : endian) (toks : list (Z * fcode)) : res structop :=
  let o := mkOp en toks in
  if forallb (fun '(n, _) => 0 <=? n) toks && (op_size o <=? 2 ^ 63 - 1)
  then Ok o else Raise FormatError.

(** Sequential decoding of a list of items.  byte_operations.py:78. *)
Fixpoint unpack_codes (en : endian) (cs : list fcode) (bs : bytes) : list pyval :=
  match cs with
  | [] => []
  | c :: r =>
      unpack1 en c (firstn (code_size c) bs)
        :: unpack_codes en r (skipn (code_size c) bs)
  end.

(** StructOperation.ReadFrom, byte_operations.py:66-81: unpack_from requires at
    least the format size and ignores the bytes after it. *)
Definition read_from (o : structop) (bs : bytes) : res (list pyval) :=
  if len bs <? op_size o then Raise IOError
  else Ok (unpack_codes (op_endian o) (op_codes o) bs).

(** Sequential encoding of a list of items, byte_operations.py:96. *)
Fixpoint pack_codes (en : endian) (cs : list fcode) (vs : list pyval) : res bytes :=
  match cs, vs with
  | [], [] => Ok []
  | c :: r, v :: s =>
      let* b := pack1 en c v in
      let* t := pack_codes en r s in
      Ok (b ++ t)
  | _, _ => Raise IOError
  end.

(** StructOperation.WriteTo, byte_operations.py:83-98. *)
Definition write_to (o : structop) (vs : list pyval) : res bytes :=
  pack_codes (op_endian o) (op_codes o) vs.
