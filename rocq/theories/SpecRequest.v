(** Specification vocabulary for the requested size of a context. *)
From Coq Require Import String List ZArith Bool.
From Verif Require Import Base PyVal DataTypes ClassFactory DataMaps SpecPrim SpecMap.
Import ListNotations.
Open Scope Z_scope.

(** Maps of numbers, characters, booleans and UUIDs. *)
Definition single (m : dmap) : Prop :=
  match m with MPrim _ _ | MUUID _ => True | _ => False end.

(** Maps that look for a terminator in the bytes. *)
Definition searching (m : dmap) : Prop :=
  match m with MStream e el _ | MString e el _ => unsized_stream e el | _ => False end.

(** Maps of padding, sequences and structures read in one go, and streams and strings of
    a size that is known before they are read. *)
Definition in_one_piece (m : dmap) : Prop :=
  match m with
  | MPadding _ | MSequence true _ _ _ _ | MStructure true _ _ _ _ _ => True
  | MStream e el _ | MString e el _ => ~ unsized_stream e el
  | _ => False
  end.

(** All others: sequences read element by element, structures read member by member,
    structure groups, and what cannot be mapped. *)
Definition piecemeal (m : dmap) : Prop := ~ single m /\ ~ searching m /\ ~ in_one_piece m.
