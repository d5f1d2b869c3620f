(** Specification vocabulary for the sizes of values. *)
From Coq Require Import String List ZArith Bool.
From Verif Require Import Base PyVal PyStruct DataTypes DataMaps SpecMap SpecCreate.
Import ListNotations.
Open Scope Z_scope.

(** The number of objects, characters and bytes that a value consists of. *)
Fixpoint parts (v : pyval) : Z :=
  match v with
  | VStr s => 1 + len s
  | VBytes b => 1 + len b
  | VTuple l => 1 + (fix go (l : list pyval) : Z := match l with [] => 0 | x :: r => parts x + go r end) l
  | VStruct _ a =>
      1 + (fix go (l : list (string * pyval)) : Z := match l with [] => 0 | (_, x) :: r => parts x + go r end) a
  | _ => 1
  end.

(** The number of definitions that a definition consists of, where a member
    counts one more than its data type. *)
Fixpoint nodes (d : dtype) : Z :=
  let sum := fix go (l : list dtype) : Z := match l with [] => 0 | m :: r => 1 + nodes m + go r end in
  match d with
  | DElems _ _ el => 1 + nodes el
  | DStructure _ _ ms | DUnion _ _ ms => 1 + sum ms
  | DMember _ _ _ _ _ i => nodes i
  | DFamily _ b ms => 1 + nodes b + sum ms
  | DGroup _ _ b _ df ms => 1 + nodes b + match df with Some x => nodes x | None => 0 end + sum ms
  | _ => 1
  end.

(** Decoded texts have no more characters than bytes. *)
Definition never_longer (orc : oracle) : Prop :=
  forall enc b s, o_decode orc enc b = Some s -> len s <= len b.

(** Values of the definition take up at least one byte: numbers and UUIDs do,
    streams and strings whose size is not computed, sequences of such elements
    with a fixed number or a terminator, structures with such a member that is
    not optional, and groups of such structures.  There are no values of the
    remaining definitions but padding. *)
Fixpoint occupies (d : dtype) : Prop :=
  match d with
  | DPadding _ _ _ => False
  | DElems KSequence e el =>
      e_data_size e = None /\ e_data_size_expr e = None /\ e_number_expr e = None /\ occupies el
  | DElems _ e el =>
      e_data_size_expr e = None /\ e_number_expr e = None /\ get_byte_size el <> Some 0
  | DStructure _ _ ms =>
      (fix go (l : list dtype) : Prop := match l with [] => False | m :: r => occupies m \/ go r end) ms
  | DMember _ _ cond _ _ i => truthy_str cond = None /\ occupies i
  | DGroup _ _ _ _ df ms =>
      match df with Some x => occupies x | None => True end /\
      (fix go (l : list dtype) : Prop := match l with [] => True | m :: r => occupies m /\ go r end) ms
  | _ => True
  end.

(** The elements of a sequence take up at least one byte. *)
Definition elements_occupy (d : dtype) : Prop :=
  match d with DElems KSequence _ el => occupies el | _ => True end.
