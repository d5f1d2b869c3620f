(** Concrete codecs: ascii, latin-1 (iso-8859-1), utf-8, utf-16-le,
    utf-16-be, utf-32-le and utf-32-be of CPython with the strict error handler.  They stand for
    [str.encode] (data_maps.py:1533) and [bytes.decode] (data_maps.py:1577) in
    the examples and codec theorems; the map theorems quantify over every
    codec.  Simplification: encoding names are matched literally, not by the
    alias rules of Python's codec registry. *)
From Coq Require Import String List ZArith NArith Bool.
From Coq Require Import Init.Byte.
From Verif Require Import Base.
Import ListNotations.
Open Scope Z_scope.

(** Every code point below the limit is one byte.  ascii and latin1, as for
    data_maps.py:1533. *)
Definition narrow_encode (limit : Z) (s : list Z) : option bytes :=
  if forallb (fun c => (0 <=? c) && (c <? limit)) s then Some (map Zbyte s) else None.
(** ascii and latin1, as for data_maps.py:1579. *)
Definition narrow_decode (limit : Z) (b : bytes) : option (list Z) :=
  let s := map byteZ b in
  if forallb (fun c => c <? limit) s then Some s else None.

(** Code points that UTF-8 and UTF-32 do not encode, data_maps.py:1533. *)
Definition is_surrogate (c : Z) : bool := (55296 <=? c) && (c <=? 57343).

(** ** UTF-8 *)

(** One code point, as for data_maps.py:1533. *)
Definition utf8_enc1 (c : Z) : option bytes :=
  if c <? 0 then None
  else if c <? 128 then Some [Zbyte c]
  else if c <? 2048 then Some [Zbyte (192 + c / 64); Zbyte (128 + c mod 64)]
  else if c <? 65536 then
    if is_surrogate c then None
    else Some [Zbyte (224 + c / 4096); Zbyte (128 + (c / 64) mod 64); Zbyte (128 + c mod 64)]
  else if c <? 1114112 then
    Some [Zbyte (240 + c / 262144); Zbyte (128 + (c / 4096) mod 64);
          Zbyte (128 + (c / 64) mod 64); Zbyte (128 + c mod 64)]
  else None.

(** As for data_maps.py:1533. *)
Fixpoint utf8_encode (s : list Z) : option bytes :=
  match s with
  | [] => Some []
  | c :: r =>
      match utf8_enc1 c, utf8_encode r with
      | Some a, Some b => Some (a ++ b)
      | _, _ => None
      end
  end.

(** A continuation byte, as for data_maps.py:1579. *)
Definition cont (b : byte) : option Z :=
  let z := byteZ b in if (128 <=? z) && (z <? 192) then Some (z - 128) else None.

(** A code point written in the shortest form and no surrogate.  As for
    data_maps.py:1579. *)
Definition utf8_ok (lo c : Z) : bool :=
  (lo <=? c) && (c <? 1114112) && negb (is_surrogate c).

(** As for data_maps.py:1579. *)
Fixpoint utf8_decode (b : bytes) : option (list Z) :=
  match b with
  | [] => Some []
  | x :: r =>
      let z := byteZ x in
      if z <? 128 then option_map (cons z) (utf8_decode r)
      else if z <? 192 then None
      else if z <? 224 then
        match r with
        | y :: r' =>
            match cont y with
            | Some p =>
                let c := (z - 192) * 64 + p in
                if utf8_ok 128 c then option_map (cons c) (utf8_decode r') else None
            | None => None
            end
        | [] => None
        end
      else if z <? 240 then
        match r with
        | y :: y2 :: r' =>
            match cont y, cont y2 with
            | Some p, Some q =>
                let c := ((z - 224) * 64 + p) * 64 + q in
                if utf8_ok 2048 c then option_map (cons c) (utf8_decode r') else None
            | _, _ => None
            end
        | _ => None
        end
      else if z <? 248 then
        match r with
        | y :: y2 :: y3 :: r' =>
            match cont y, cont y2, cont y3 with
            | Some p, Some q, Some t =>
                let c := (((z - 240) * 64 + p) * 64 + q) * 64 + t in
                if utf8_ok 65536 c then option_map (cons c) (utf8_decode r') else None
            | _, _, _ => None
            end
        | _ => None
        end
      else None
  end.

(** ** UTF-16 *)

(** One code point, as for data_maps.py:1533. *)
Definition utf16_enc1 (c : Z) : option (list Z) :=
  if c <? 0 then None
  else if c <? 65536 then if is_surrogate c then None else Some [c]
  else if c <? 1114112 then
    Some [55296 + (c - 65536) / 1024; 56320 + (c - 65536) mod 1024]
  else None.

(** The units of a text, as for data_maps.py:1533. *)
Fixpoint utf16_units (s : list Z) : option (list Z) :=
  match s with
  | [] => Some []
  | c :: r =>
      match utf16_enc1 c, utf16_units r with
      | Some a, Some b => Some (a ++ b)
      | _, _ => None
      end
  end.

(** The text of units, as for data_maps.py:1579. *)
Fixpoint utf16_chars (u : list Z) : option (list Z) :=
  match u with
  | [] => Some []
  | c :: r =>
      if is_surrogate c then
        if c <? 56320 then
          match r with
          | d :: r' =>
              if (56320 <=? d) && (d <=? 57343)
              then option_map (cons (65536 + (c - 55296) * 1024 + (d - 56320))) (utf16_chars r')
              else None
          | [] => None
          end
        else None
      else option_map (cons c) (utf16_chars r)
  end.

(** The bytes of a unit, as for data_maps.py:1533. *)
Definition unit_bytes (big : bool) (u : Z) : bytes :=
  if big then [Zbyte (u / 256); Zbyte u] else [Zbyte u; Zbyte (u / 256)].

(** The units in bytes, as for data_maps.py:1579. *)
Fixpoint units_of (big : bool) (b : bytes) : option (list Z) :=
  match b with
  | [] => Some []
  | x :: y :: r =>
      let u := if big then 256 * byteZ x + byteZ y else byteZ x + 256 * byteZ y in
      option_map (cons u) (units_of big r)
  | [_] => None
  end.

(** As for data_maps.py:1533. *)
Definition utf16_encode (big : bool) (s : list Z) : option bytes :=
  option_map (flat_map (unit_bytes big)) (utf16_units s).
(** As for data_maps.py:1579. *)
Definition utf16_decode (big : bool) (b : bytes) : option (list Z) :=
  match units_of big b with Some u => utf16_chars u | None => None end.

(** ** UTF-32 *)

(** Code points that UTF-32 encodes, as for data_maps.py:1533. *)
Definition scalar (c : Z) : bool := (0 <=? c) && (c <? 1114112) && negb (is_surrogate c).

(** The bytes of a code point in UTF-32, as for data_maps.py:1533. *)
Definition quad_bytes (big : bool) (u : Z) : bytes :=
  let l := [Zbyte u; Zbyte (u / 256); Zbyte (u / 65536); Zbyte (u / 16777216)] in
  if big then rev l else l.

(** The code points in bytes, as for data_maps.py:1579. *)
Fixpoint quads_of (big : bool) (b : bytes) : option (list Z) :=
  match b with
  | [] => Some []
  | x :: y :: z :: w :: r =>
      let u := if big then ((256 * byteZ x + byteZ y) * 256 + byteZ z) * 256 + byteZ w
               else ((256 * byteZ w + byteZ z) * 256 + byteZ y) * 256 + byteZ x in
      option_map (cons u) (quads_of big r)
  | _ => None
  end.

(** As for data_maps.py:1533. *)
Definition utf32_encode (big : bool) (s : list Z) : option bytes :=
  if forallb scalar s then Some (flat_map (quad_bytes big) s) else None.
(** As for data_maps.py:1579. *)
Definition utf32_decode (big : bool) (b : bytes) : option (list Z) :=
  match quads_of big b with
  | Some s => if forallb scalar s then Some s else None
  | None => None
  end.

(** ** By name *)

(** str.encode, data_maps.py:1533. *)
Definition encode (enc : string) (s : list Z) : option bytes :=
  if String.eqb enc "ascii" then narrow_encode 128 s
  else if String.eqb enc "iso-8859-1" then narrow_encode 256 s
  else if String.eqb enc "utf8" || String.eqb enc "utf-8" then utf8_encode s
  else if String.eqb enc "utf-16-le" then utf16_encode false s
  else if String.eqb enc "utf-16-be" then utf16_encode true s
  else if String.eqb enc "utf-32-le" then utf32_encode false s
  else if String.eqb enc "utf-32-be" then utf32_encode true s
  else None.

(** bytes.decode, data_maps.py:1579. *)
Definition decode (enc : string) (b : bytes) : option (list Z) :=
  if String.eqb enc "ascii" then narrow_decode 128 b
  else if String.eqb enc "iso-8859-1" then narrow_decode 256 b
  else if String.eqb enc "utf8" || String.eqb enc "utf-8" then utf8_decode b
  else if String.eqb enc "utf-16-le" then utf16_decode false b
  else if String.eqb enc "utf-16-be" then utf16_decode true b
  else if String.eqb enc "utf-32-le" then utf32_decode false b
  else if String.eqb enc "utf-32-be" then utf32_decode true b
  else None.
