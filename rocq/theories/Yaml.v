(** Values that yaml.safe_load_all yields, and the Python operations that
    dtfabric/reader.py and dtfabric/registry.py apply to them. *)
From Coq Require Import String Ascii List ZArith NArith Bool.
From Verif Require Import Base Ieee.
Import ListNotations.
Open Scope Z_scope.

(** A Python [str] as its code points.  As in the values of reader.py:1361. *)
Definition ustr := list Z.

(** The code points of an ASCII literal.  As compared with in reader.py:15-107.
    *)
Definition us (s : string) : ustr :=
  map (fun c => Z.of_N (N_of_ascii c)) (list_ascii_of_string s).

(** The values safe_load_all constructs: null, bool, int, float (64 bit
    pattern), str, bytes (the tag binary), date and datetime (opaque), list,
    tuple (items of the tags omap and pairs), set and dict in insertion order.
    Simplification: values are trees, so documents with recursive anchors are
    not modelled, and the items of a set have a fixed order.  reader.py:1361. *)
Inductive yval : Type :=
| YNull
| YBool (b : bool)
| YInt (z : Z)
| YFloat (bits : Z)
| YStr (s : ustr)
| YBytes (b : bytes)
| YDate (d : Z)
| YList (l : list yval)
| YTuple (l : list yval)
| YSet (l : list yval)
| YMap (l : list (yval * yval)).

(** A string literal.  As in reader.py:15-107. *)
Definition Y (s : string) : yval := YStr (us s).

(** Python [==].  Lists, sets and dicts are only ever compared with values of
    other types by the modelled code, hence the default.  Simplification: a NaN
    object is not equal to itself, although [in] tests identity first.  As in
    reader.py:15-107 and registry.py:38-92. *)
Fixpoint y_eqb (a b : yval) {struct a} : bool :=
  match a, b with
  | YNull, YNull => true
  | YBool x, YBool y => Bool.eqb x y
  | YBool x, YInt z => Z.b2z x =? z
  | YInt z, YBool x => Z.b2z x =? z
  | YInt x, YInt y => x =? y
  | YFloat x, YFloat y => f64_eqb x y
  | YFloat x, YInt z => f64_eqZ x z
  | YInt z, YFloat x => f64_eqZ x z
  | YFloat x, YBool b => f64_eqZ x (Z.b2z b)
  | YBool b, YFloat x => f64_eqZ x (Z.b2z b)
  | YStr x, YStr y => list_eqb Z.eqb x y
  | YBytes x, YBytes y => bytes_eqb x y
  | YDate x, YDate y => x =? y
  | YTuple x, YTuple y =>
      (fix go (x y : list yval) {struct x} : bool :=
         match x, y with
         | [], [] => true
         | a :: r, b :: s => y_eqb a b && go r s
         | _, _ => false
         end) x y
  | _, _ => false
  end.

(** [v in list], as at reader.py:474. *)
Definition y_in (v : yval) (l : list yval) : bool := existsb (y_eqb v) l.

(** Truth value testing.  As at reader.py:1265-1273. *)
Definition y_truthy (v : yval) : bool :=
  match v with
  | YNull => false
  | YBool b => b
  | YInt z => negb (z =? 0)
  | YFloat f => negb (f64_eqZ f 0)
  | YStr s => negb (is_empty s)
  | YBytes b => negb (is_empty b)
  | YDate _ => true
  | YList l | YTuple l | YSet l => negb (is_empty l)
  | YMap l => negb (is_empty l)
  end.

(** [v is None], as at reader.py:741. *)
Definition y_is_none (v : yval) : bool :=
  match v with YNull => true | _ => false end.

(** Whether [hash(v)] succeeds.  As for reader.py:742 and registry.py:38-92. *)
Fixpoint y_hashable (v : yval) : bool :=
  match v with
  | YList _ | YSet _ | YMap _ => false
  | YTuple l => forallb y_hashable l
  | _ => true
  end.

(** [iter(v)]: lists, tuples and sets yield their items, strings one-character
    strings, bytes ints, dicts their keys.  As at reader.py:731 and
    registry.py:90. *)
Definition y_iter (v : yval) : res (list yval) :=
  match v with
  | YList l | YTuple l | YSet l => Ok l
  | YStr s => Ok (map (fun c => YStr [c]) s)
  | YBytes b => Ok (map (fun c => YInt (byteZ c)) b)
  | YMap l => Ok (map fst l)
  | YNull | YBool _ | YInt _ | YFloat _ | YDate _ => Raise TypeError
  end.

(** [f'{v:s}'].  A date passes the format on to strftime.  As at reader.py:747
    and registry.py:92. *)
Definition y_format_s (v : yval) : res unit :=
  match v with
  | YStr _ | YDate _ => Ok tt
  | YBool _ | YInt _ | YFloat _ => Raise ValueError
  | YNull | YBytes _ | YList _ | YTuple _ | YSet _ | YMap _ => Raise TypeError
  end.

(** [isinstance(v, str)], reader.py:732. *)
Definition is_ystr (v : yval) : bool :=
  match v with YStr _ => true | _ => false end.

(** Lookup in a dict of the parser, reader.py:1268. *)
Fixpoint map_get (k : yval) (l : list (yval * yval)) : option yval :=
  match l with
  | [] => None
  | (k', v) :: r => if y_eqb k k' then Some v else map_get k r
  end.

(** [v.get(key, default)]: only dicts have the method.  As at reader.py:466 and
    626. *)
Definition y_get_or (default : yval) (key : string) (v : yval) : res yval :=
  match v with
  | YMap l => Ok (match map_get (Y key) l with Some x => x | None => default end)
  | _ => Raise AttributeError
  end.

(** [v.get(key, None)].  As at reader.py:1268 and 1272. *)
Definition y_get : string -> yval -> res yval := y_get_or YNull.

(** [v.keys()].  As for the supported keys, reader.py:211. *)
Definition y_keys (v : yval) : res (list yval) :=
  match v with
  | YMap l => Ok (map fst l)
  | _ => Raise AttributeError
  end.

(** Environment: str.lower() and int() of a str or bytes object (None if int()
    raises ValueError).  As used at registry.py:37, 54, 81 and reader.py:469. *)
Record yenv : Type := mkYenv {
  y_lower_str : ustr -> ustr;
  y_int_str : ustr -> option Z;
  y_int_bytes : bytes -> option Z }.

(** [v.lower()]: only str and bytes have the method.  registry.py:37, 54 and 81.
    *)
Definition y_lower (env : yenv) (v : yval) : res yval :=
  match v with
  | YStr s => Ok (YStr (y_lower_str env s))
  | YBytes b =>
      Ok (YBytes (map (fun c =>
        let z := byteZ c in
        if (65 <=? z) && (z <=? 90) then Zbyte (z + 32) else c) b))
  | _ => Raise AttributeError
  end.

(** [int(v)].  reader.py:414, 420 and 469. *)
Definition y_int (env : yenv) (v : yval) : res Z :=
  match v with
  | YBool b => Ok (Z.b2z b)
  | YInt z => Ok z
  | YFloat f =>
      match ieee_decode 52 11 f with
      | FNan _ _ => Raise ValueError
      | FInf _ => Raise OverflowError
      | FFin neg m e =>
          let n := if 0 <=? e then m * 2 ^ e else m / 2 ^ (- e) in
          Ok (if neg then - n else n)
      end
  | YStr s => match y_int_str env s with Some z => Ok z | None => Raise ValueError end
  | YBytes b => match y_int_bytes env b with Some z => Ok z | None => Raise ValueError end
  | YNull | YDate _ | YList _ | YTuple _ | YSet _ | YMap _ => Raise TypeError
  end.

(** [s.encode('ascii')] and [s.encode('latin1')]: [limit] is 128 or 256.
    reader.py:426 and 735. *)
Definition u_encode (limit : Z) (s : ustr) : res bytes :=
  if forallb (fun c => (0 <=? c) && (c <? limit)) s then Ok (map Zbyte s)
  else Raise UnicodeError.

(** The nesting depth of a value.  Bounds the recursion of reader.py:660-787. *)
Fixpoint y_height (v : yval) : nat :=
  match v with
  | YList l | YTuple l | YSet l =>
      S (fold_right (fun x n => Nat.max (y_height x) n) O l)
  | YMap l =>
      S (fold_right (fun kv n =>
           Nat.max (Nat.max (y_height (fst kv)) (y_height (snd kv))) n) O l)
  | _ => O
  end.
