(** The format strings that data type maps hand to CPython's [struct] module, as
    text, and how [struct] reads them. *)
From Coq Require Import String Ascii List ZArith NArith Bool DecimalString.
From Verif Require Import Base PyVal PyStruct DataTypes DataMaps.
Import ListNotations.
Open Scope Z_scope.

(** * What dtfabric writes *)

(** The characters of the _FORMAT_STRINGS tables, data_maps.py:343-347, 428-432,
    476-479 and 497-511. *)
Definition code_char (c : fcode) : ascii :=
  match c with
  | Cb => "b" | CB => "B" | Ch => "h" | CH => "H" | Ci => "i" | CI => "I"
  | Cq => "q" | CQ => "Q" | Cf => "f" | Cd => "d"
  end%char.

(** _BYTE_ORDER_STRINGS, data_maps.py:143-146. *)
Definition order_char (bo : byte_order) : ascii :=
  match bo with BOBig => ">" | BOLittle => "<" | BONative => "=" end%char.

(** [f'{n:d}'] for an integer.  As at data_maps.py:1231 and 1311. *)
Definition decimal_text (n : Z) : string := NilZero.string_of_int (Z.to_int n).

(** GetStructByteOrderString: StorageDataTypeMap, data_maps.py:185-196, and
    ElementSequenceDataTypeMap, 909-919.  The other maps do not have it. *)
Fixpoint byte_order_text (m : dmap) : res (option string) :=
  match m with
  | MPrim d _ | MUUID d | MStructure _ d _ _ _ _ =>
      match dt_byte_order d with
      | Some bo => Ok (Some (String (order_char bo) EmptyString))
      | None => Raise AttributeError
      end
  | MSequence _ _ _ em _ | MStream _ _ em | MString _ _ em =>
      match em with None => Ok None | Some x => byte_order_text x end
  | MPadding _ | MSemantic _ | MFormat _ | MGroup _ _ _ _ _ => Raise AttributeError
  end.

(** The number of elements in the format string of a sequence,
    data_maps.py:1215-1225; None as the outer option is the early return of
    None. *)
Definition sequence_count (e : elems) (ed : dtype) : res (option (option Z)) :=
  match truthy_Z (e_data_size e) with
  | Some s =>
      match get_byte_size ed with
      | None => Ok None
      | Some b => if b =? 0 then Raise ZeroDivisionError else Ok (Some (Some (s / b)))
      end
  | None => Ok (Some (truthy_Z (e_number e)))
  end.

(** StreamMap.GetStructFormatString, data_maps.py:1300-1311. *)
Definition stream_text (e : elems) (ed : dtype) : option string :=
  match truthy_Z (elems_byte_size e (get_byte_size ed)) with
  | None => None
  | Some n => Some (String.append (decimal_text n) "B")
  end.

(** GetStructFormatString: primitives (data_maps.py:366-374, 434-442, 481-489,
    513-525), StorageDataTypeMap (198-205), SequenceMap (1205-1231), StreamMap
    (1300-1311), PaddingMap (1458-1465) and StructureMap (2038-2059).  The other
    maps do not have it. *)
Fixpoint format_text (m : dmap) : res (option string) :=
  match m with
  | MPrim d _ =>
      Ok (option_map (fun c => String (code_char c) EmptyString) (prim_code d))
  | MUUID _ | MPadding _ => Ok None
  | MSequence _ e ed em _ =>
      match em with
      | None => Ok None
      | Some x =>
          let* n := sequence_count e ed in
          match n with
          | None => Ok None
          | Some n =>
              let* f := format_text x in
              match truthy_Z n, truthy_str f with
              | Some n, Some f => Ok (Some (String.append (decimal_text n) f))
              | _, _ => Ok None
              end
          end
      end
  | MStream e ed _ | MString e ed _ => Ok (stream_text e ed)
  | MStructure _ _ _ _ attrs _ =>
      match attrs with
      | [] => Ok None
      | _ =>
          (fix go (l : list (string * option dmap)) : res (option string) :=
             match l with
             | [] => Ok (Some EmptyString)
             | (_, None) :: _ => Ok None
             | (_, Some x) :: r =>
                 let* f := format_text x in
                 match f with
                 | None => Ok None
                 | Some f =>
                     let* g := go r in
                     Ok (option_map (String.append f) g)
                 end
             end) attrs
      end
  | MSemantic _ | MFormat _ | MGroup _ _ _ _ _ => Raise AttributeError
  end.

(** The operation of a map: [_operation], data_maps.py:248, 960 and 1613. *)
Definition operation (m : dmap) : option structop :=
  match m with
  | MPrim _ op | MSequence _ _ _ _ op | MStructure _ _ _ _ _ op => op
  | _ => None
  end.

(** * What struct reads *)

(** The format characters and the digits of a count.  As accepted by
    struct.Struct, byte_operations.py:54. *)
Definition char_code (c : ascii) : option fcode :=
  match c with
  | "b" => Some Cb | "B" => Some CB | "h" => Some Ch | "H" => Some CH
  | "i" => Some Ci | "I" => Some CI | "q" => Some Cq | "Q" => Some CQ
  | "f" => Some Cf | "d" => Some Cd | _ => None
  end%char.

(** As accepted by struct.Struct, byte_operations.py:54. *)
Definition char_digit (c : ascii) : option Z :=
  let n := Z.of_N (N_of_ascii c) - 48 in
  if (0 <=? n) && (n <=? 9) then Some n else None.

(** The items of a format after the byte order: format characters, each with an
    optional decimal repeat count before it.  A count without a character is an
    error.  Simplification: white space and the other format characters of
    struct, which dtfabric never writes, are errors.  byte_operations.py:54. *)
Fixpoint format_items (s : string) (count : option Z) : option (list (Z * fcode)) :=
  match s with
  | EmptyString => match count with None => Some [] | Some _ => None end
  | String c r =>
      match char_digit c with
      | Some v => format_items r (Some (10 * match count with Some n => n | None => 0 end + v))
      | None =>
          match char_code c with
          | None => None
          | Some k =>
              match format_items r None with
              | None => None
              | Some l => Some ((match count with Some n => n | None => 1 end, k) :: l)
              end
          end
      end
  end.

(** [struct.Struct(format)] of a format that starts with a byte order; a total
    above sys.maxsize is an error.  [host] is the byte order that '=' stands
    for.  byte_operations.py:53-58. *)
Definition compile_format (host : endian) (s : string) : option structop :=
  match s with
  | EmptyString => None
  | String c r =>
      let en := match c with
                | ">" => Some Big | "<" => Some Little | "=" => Some host | _ => None
                end%char in
      match en, format_items r None with
      | Some en, Some l =>
          let o := mkOp en l in if op_size o <=? 2 ^ 63 - 1 then Some o else None
      | _, _ => None
      end
  end.

(** [struct.calcsize(format)].  The format is that of byte_operations.py:54. *)
Definition calcsize (host : endian) (s : string) : option Z :=
  option_map op_size (compile_format host s).
