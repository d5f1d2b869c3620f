(** Specification vocabulary for folding what was mapped. *)
From Coq Require Import String List ZArith Bool.
From Verif Require Import Base PyVal PyStruct DataTypes ClassFactory DataMaps SpecPrim SpecMap.
Import ListNotations.
Open Scope Z_scope.

(** Encoding gives back what was decoded. *)
Definition faithful (orc : oracle) (encoding : string) : Prop :=
  forall b s, o_decode orc encoding b = Some s -> o_encode orc encoding s = Some b.

(** Sizes are numbers, not expressions. *)
Definition literal (e : elems) : Prop :=
  e_data_size_expr e = None /\ e_number_expr e = None.

Definition number_type (d : dtype) : Prop :=
  match d with DInteger _ _ | DFloat _ => True | _ => False end.

(** The definitions whose values fold back to the bytes they were mapped from:
    integers, floats, padding, UUIDs with an explicit byte order, sequences of a
    fixed size of integers or floats, streams, strings that have a size or a
    terminator but not both and a faithful encoding, and structures (with members
    under conditions or not) of these. *)
Fixpoint folds_back (orc : oracle) (d : dtype) : Prop :=
  match d with
  | DInteger _ _ | DFloat _ | DPadding _ _ _ => True
  | DUUID f => f_bo f <> BONative
  | DElems KSequence e el =>
      number_type el /\ literal e /\ e_terminator e = None /\
      forall s, e_data_size e = Some s -> exists b, get_byte_size el = Some b /\ s mod b = 0
  | DElems KStream e el => True
  | DElems KString e el =>
      faithful orc (e_encoding e) /\ (e_terminator e = None \/ unsized_stream e el)
  | DStructure _ _ ms =>
      (fix go (l : list dtype) : Prop :=
         match l with [] => True | m :: r => folds_back orc m /\ go r end) ms
  | DMember _ _ _ _ _ i => folds_back orc i
  | _ => False
  end.

(** The structure [v] as it was before its [i]-th member was read. *)
Definition before (i : nat) (v : pyval) : pyval :=
  match v with
  | VStruct cls attrs =>
      VStruct cls (firstn i attrs ++ List.map (fun a => (fst a, VNone)) (skipn i attrs))
  | _ => v
  end.

(** [sizes_agree orc d vals fvals v]: when [v] was mapped from [d] with the names
    [vals] and is folded with the names [fvals], every size of a stream or string
    in it is the same.  While a structure is mapped an expression sees the names
    of the caller and the structure with the members read so far; while it is
    folded the expression sees the whole structure and nothing else. *)
Fixpoint sizes_agree (orc : oracle) (d : dtype) (vals fvals : env) (v : pyval) : Prop :=
  match d with
  | DElems KStream e el | DElems KString e el =>
      forall n, stream_size orc e el vals n -> stream_size orc e el fvals n
  | DStructure _ _ ms =>
      (fix go (i : nat) (l : list dtype) : Prop :=
         match l with
         | [] => True
         | m :: r =>
             (py_getattr v (dt_name m) <> VNone ->
              sizes_agree orc m (scope (type_name v) (before i v) vals) [(type_name v, v)]
                (py_getattr v (dt_name m))) /\
             go (S i) r
         end) 0%nat ms
  | DMember _ _ _ _ _ i => sizes_agree orc i vals fvals v
  | _ => True
  end.

(** Not a stream or string with a size expression. *)
Definition fixed_sizes (d : dtype) : Prop :=
  match d with
  | DElems KStream e _ | DElems KString e _ => literal e
  | _ => True
  end.

(** Not a float of 4 bytes. *)
Definition no_single (d : dtype) : Prop :=
  match d with DFloat f => f_size f <> Some 4 | _ => True end.

(** A double that is not a number. *)
Definition nan_double (b : Z) : Prop := double_exponent b = 2047 /\ double_mantissa b <> 0.

(** There is no NaN in the value. *)
Fixpoint no_nan (v : pyval) : Prop :=
  match v with
  | VFloat b => ~ nan_double b
  | VTuple l => (fix go (l : list pyval) : Prop := match l with [] => True | x :: r => no_nan x /\ go r end) l
  | VStruct _ attrs =>
      (fix go (l : list (string * pyval)) : Prop :=
         match l with [] => True | (_, x) :: r => no_nan x /\ go r end) attrs
  | _ => True
  end.

(** [b] is [a], the bytes of members of the types [ds] with the values [vs] one
    right after the other, with the bytes of every boolean replaced by the number
    0 or 1 in the byte order [en]. *)
Inductive rewritten (en : endian) : list dtype -> list pyval -> bytes -> bytes -> Prop :=
| rewritten_nil : rewritten en [] [] [] []
| rewritten_number d ds v vs w a b :
    number_type d -> get_byte_size d = Some (len w) -> rewritten en ds vs a b ->
    rewritten en (d :: ds) (v :: vs) (w ++ a) (w ++ b)
| rewritten_boolean f fv tv ds (x : bool) vs w w' a b :
    fixed_byte_size f = Some (len w) -> len w' = len w -> stored_number en w' = (if x then 1 else 0) ->
    rewritten en ds vs a b ->
    rewritten en (DBoolean f fv tv :: ds) (VBool x :: vs) (w ++ a) (w' ++ b).
