(** Specification vocabulary for supported values as a filter. *)
From Coq Require Import String List ZArith Bool.
From Verif Require Import Base PyVal DataTypes ClassFactory DataMaps SpecMap SpecCreate.
Import ListNotations.
Open Scope Z_scope.

(** A definition without the supported values of members, those of the structures of a
    structure group excepted, which tell them apart. *)
Fixpoint relaxed (d : dtype) : dtype :=
  match d with
  | DElems k e el => DElems k e (relaxed el)
  | DStructure m bo ms => DStructure m bo (map relaxed ms)
  | DMember m bo c dt _ i => DMember m bo c dt None (relaxed i)
  | _ => d
  end.

(** Every member that the value has, at any depth, has a supported value. *)
Fixpoint within (d : dtype) (v : pyval) : Prop :=
  match d, v with
  | DElems KSequence _ el, VTuple l =>
      (fix all (l : list pyval) : Prop := match l with [] => True | x :: r => within el x /\ all r end) l
  | DStructure _ _ ms, VStruct _ attrs =>
      (fix go (ms : list dtype) (vs : list pyval) : Prop :=
         match ms, vs with
         | m :: ms', w :: vs' => (w = VNone \/ allowed m w /\ within m w) /\ go ms' vs'
         | _, _ => True
         end) ms (map snd attrs)
  | DMember _ _ _ _ _ i, _ => within i v
  | _, _ => True
  end.

(** No supported values for members that can be None although they are there: UUIDs
    without a byte order, and structure groups. *)
Definition listed (d : dtype) : Prop :=
  match d with
  | DStructure _ _ ms =>
      forall m x r, In m ms -> member_values m = Some (x :: r) ->
        match type_of m with DUUID _ | DGroup _ _ _ _ _ _ => False | _ => True end
  | _ => True
  end.
