(** Results, exceptions and the Python primitives used by the model. *)
From Coq Require Import String Ascii List ZArith NArith Bool Lia.
From Coq Require Import Init.Byte Strings.Byte.
Import ListNotations.
Open Scope Z_scope.

(** The Python exception classes that can leave the modelled functions.
    Models dtfabric/errors.py:5-43 (the first five), the built-in
    exceptions that the code raises or lets through, and the exceptions of the
    YAML parser that the reader lets through.  Simplification: the
    message text is not modelled. *)
Inductive exc : Set :=
| ByteStreamTooSmallError
| DefinitionReaderError
| FoldingError
| FormatError
| MappingError
| KeyError
| ValueError
| TypeError
| AttributeError
| ZeroDivisionError
| SyntaxError
| UnicodeError
| OverflowError
| IOError
| YAMLError
| NameError
| RecursionError.

(** Outcome of a Python call.  [OutOfFuel] stands for a loop that was still
    running when the fuel of the model ran out; it is not a Python outcome.  The
    errors are those of errors.py:5-43 and of Python. *)
Inductive res (A : Type) : Type :=
| Ok (a : A)
| Raise (e : exc)
| OutOfFuel.
Arguments Ok {A} a.
Arguments Raise {A} e.
Arguments OutOfFuel {A}.

(** One statement after another: an exception ends the method, as everywhere in
    data_maps.py:17-2471. *)
Definition bind {A B} (r : res A) (k : A -> res B) : res B :=
  match r with
  | Ok a => k a
  | Raise e => Raise e
  | OutOfFuel => OutOfFuel
  end.

Notation "'let*' x ':=' e 'in' k" := (bind e (fun x => k))
  (at level 200, x pattern, e at level 100, k at level 200, right associativity).

(** The result of a call passed on through a function, as at
    data_maps.py:310-311. *)
Definition res_map {A B} (f : A -> B) (r : res A) : res B :=
  match r with Ok a => Ok (f a) | Raise e => Raise e | OutOfFuel => OutOfFuel end.

(** [try: r except Exception: raise e].  As at data_maps.py:267, 313, 1076 and
    1789. *)
Definition catch_all {A} (r : res A) (e : exc) : res A :=
  match r with
  | Ok a => Ok a
  | Raise _ => Raise e
  | OutOfFuel => OutOfFuel
  end.

(** Python [bytes].  The byte_stream of data_maps.py:125-137. *)
Definition bytes := list byte.

(** [len(x)] of a sequence.  As at data_maps.py:161. *)
Definition len {A} (l : list A) : Z := Z.of_nat (length l).

(** The integer value of a byte.  As read by struct, byte_operations.py:78. *)
Definition byteZ (b : byte) : Z := Z.of_N (Byte.to_N b).

(** The byte with value [z mod 256].  As written by struct,
    byte_operations.py:96. *)
Definition Zbyte (z : Z) : byte :=
  match Byte.of_N (Z.to_N (z mod 256)) with Some b => b | None => x00 end.

(** Python index normalisation of slice bounds: negative bounds count from the
    end, and bounds are clipped to the sequence.  As for
    byte_stream[byte_offset:], data_maps.py:310. *)
Definition norm_index (n i : Z) : Z :=
  if i <? 0 then Z.max 0 (n + i) else Z.min i n.

(** [l[a:b]].  As at data_maps.py:596, 1363-1364, 1389 and 1494. *)
Definition slice {A} (l : list A) (a b : Z) : list A :=
  let n := len l in
  let a' := norm_index n a in
  let b' := norm_index n b in
  firstn (Z.to_nat (b' - a')) (skipn (Z.to_nat a') l).

(** [l[a:]].  As at data_maps.py:310, 1040 and 1366. *)
Definition slice_from {A} (l : list A) (a : Z) : list A :=
  skipn (Z.to_nat (norm_index (len l) a)) l.

(** [==] of bytes, data_maps.py:1368 and 1571. *)
Definition byte_eqb (a b : byte) : bool := Byte.eqb a b.

(** [==] of sequences, data_maps.py:1368 and 1571. *)
Fixpoint list_eqb {A} (eqb : A -> A -> bool) (l1 l2 : list A) : bool :=
  match l1, l2 with
  | [], [] => true
  | a :: r1, b :: r2 => eqb a b && list_eqb eqb r1 r2
  | _, _ => false
  end.

(** [==] of byte strings, data_maps.py:1368 and 1571. *)
Definition bytes_eqb : bytes -> bytes -> bool := list_eqb byte_eqb.

(** Truthiness of a byte string, [while byte_stream[byte_offset:]],
    data_maps.py:1040 and 1366. *)
Definition is_empty {A} (l : list A) : bool :=
  match l with [] => true | _ => false end.

(** ASCII [str.lower()].  Simplification: names are Coq strings (code points
    0-255) and only the ASCII letters have a lower case; Python also folds
    other Unicode letters.  As at registry.py:37, 54 and 81. *)
Definition ascii_lower (c : ascii) : ascii :=
  let n := N_of_ascii c in
  if ((65 <=? n) && (n <=? 90))%N then ascii_of_N (n + 32) else c.

(** As at registry.py:37, 54 and 81. *)
Fixpoint str_lower (s : string) : string :=
  match s with
  | EmptyString => EmptyString
  | String c r => String (ascii_lower c) (str_lower r)
  end.

(** Insertion-ordered Python [dict] with string keys.  As at registry.py:20-21.
    *)
Definition dict (A : Type) := list (string * A).

(** As at registry.py:56 and 58. *)
Fixpoint dict_get {A} (k : string) (d : dict A) : option A :=
  match d with
  | [] => None
  | (k', v) :: r => if String.eqb k k' then Some v else dict_get k r
  end.

(** [k in d], registry.py:38, 55, 82, 86 and 91. *)
Definition dict_mem {A} (k : string) (d : dict A) : bool :=
  match dict_get k d with Some _ => true | None => false end.

(** [d[k] = v]: in place if the key exists, else appended.  As at registry.py:94
    and 97. *)
Fixpoint dict_set {A} (k : string) (v : A) (d : dict A) : dict A :=
  match d with
  | [] => [(k, v)]
  | (k', v') :: r =>
      if String.eqb k k' then (k', v) :: r else (k', v') :: dict_set k v r
  end.

(** [del d[k]].  As at registry.py:42. *)
Fixpoint dict_del {A} (k : string) (d : dict A) : dict A :=
  match d with
  | [] => []
  | (k', v') :: r => if String.eqb k k' then r else (k', v') :: dict_del k r
  end.

(** [d1.update(d2)]: the values of [d2] in place for the keys of [d1], followed
    by the new keys.  As at data_maps.py:692 and 1737. *)
Definition dict_update {A} (d1 d2 : dict A) : dict A :=
  map (fun kv => (fst kv, match dict_get (fst kv) d2 with Some v => v | None => snd kv end)) d1
  ++ filter (fun kv => negb (dict_mem (fst kv) d1)) d2.

(** The keys of a dict, as at reader.py:211. *)
Definition dict_keys {A} (d : dict A) : list string := map fst d.

(** As at data_types.py:754-762 and runtime.py:162. *)
Definition str_in (s : string) (l : list string) : bool :=
  existsb (String.eqb s) l.

(** As at data_types.py:350-354. *)
Definition opt_bind {A B} (o : option A) (f : A -> option B) : option B :=
  match o with Some a => f a | None => None end.

(** [x or default] of something that may be None, as at data_maps.py:37. *)
Definition opt_default {A} (d : A) (o : option A) : A :=
  match o with Some a => a | None => d end.

(** Truthiness of an optional int: None and 0 are falsy.  As at
    data_types.py:344 and 347. *)
Definition truthy_Z (o : option Z) : option Z :=
  match o with
  | Some z => if z =? 0 then None else Some z
  | None => None
  end.

(** Truthiness of an optional string: None and '' are falsy.  As at
    data_types.py:541 and data_maps.py:1752. *)
Definition truthy_str (o : option string) : option string :=
  match o with
  | Some EmptyString => None
  | o => o
  end.
