(** An environment and documents for the examples about the reader.  Nothing
    here models the code. *)
From Coq Require Import String List ZArith Bool.
From Verif Require Import Base Ieee Yaml DataTypes Reader.
Import ListNotations.
Open Scope Z_scope.

Definition ascii_lower (s : ustr) : ustr :=
  map (fun c => if (65 <=? c) && (c <=? 90) then c + 32 else c) s.

(** Unsigned decimal numbers only. *)
Definition decimal (s : ustr) : option Z :=
  match s with
  | [] => None
  | _ => fold_left (fun acc c =>
           match acc with
           | Some n => if (48 <=? c) && (c <=? 57) then Some (10 * n + (c - 48)) else None
           | None => None
           end) s (Some 0)
  end.

Definition demo_env : yenv := mkYenv ascii_lower decimal (fun _ => None).

Definition doc (l : list (string * yval)) : yval := YMap (map (fun kv => (Y (fst kv), snd kv)) l).

Local Open Scope string_scope.
Local Open Scope list_scope.

Definition y_uint8 : yval :=
  doc [("name", Y "uint8"); ("aliases", YList [Y "BYTE"]); ("type", Y "integer");
       ("attributes", doc [("format", Y "unsigned"); ("size", YInt 1); ("units", Y "bytes")])].

Definition y_uint32 : yval :=
  doc [("name", Y "uint32"); ("type", Y "integer");
       ("attributes", doc [("byte_order", Y "little-endian"); ("format", Y "unsigned");
                           ("size", YInt 4); ("units", Y "bytes")])].

Definition y_member (name data_type : string) : yval :=
  doc [("name", Y name); ("data_type", Y data_type)].

Definition y_point : yval :=
  doc [("name", Y "point"); ("type", Y "structure"); ("description", Y "a point");
       ("members", YList [y_member "x" "uint32"; y_member "y" "byte"])].

Definition y_bytes : yval :=
  doc [("name", Y "data"); ("type", Y "stream"); ("element_data_type", Y "BYTE");
       ("number_of_elements", YInt 4)].

Definition y_points : yval :=
  doc [("name", Y "points"); ("type", Y "sequence"); ("element_data_type", Y "POINT");
       ("number_of_elements", Y "2")].

(** A file that reads without error, except that byte is no name. *)
Definition y_file : list yval := [y_uint8; y_uint32; y_bytes].

Definition y_struct (name : string) (members : list yval) : yval :=
  doc [("name", Y name); ("type", Y "structure"); ("members", YList members)].

Definition reads_into (docs : list yval) : rreg :=
  snd (read_file demo_env rreg_empty (Some (docs, YEnd))).
