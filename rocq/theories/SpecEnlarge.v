(** Specification vocabulary for structure groups that get more structures. *)
From Coq Require Import String List ZArith Bool Permutation.
From Verif Require Import Base PyVal DataTypes ClassFactory DataMaps SpecMap SpecCreate SpecReads.
Import ListNotations.
Open Scope Z_scope.

(** [enlarged d d']: at any depth, structure groups of [d'] list their structures in
    another order, or more of them, or have a default where there was none.  A group
    with a default gets no more structures. *)
Inductive enlarged : dtype -> dtype -> Prop :=
| AsBefore : forall d, enlarged d d
| InElements : forall k e el el', enlarged el el' -> enlarged (DElems k e el) (DElems k e el')
| InStructure : forall mt bo ms ms', Forall2 enlarged ms ms' -> enlarged (DStructure mt bo ms) (DStructure mt bo ms')
| InMember : forall m bo c dt vs i i', enlarged i i' -> enlarged (DMember m bo c dt vs i) (DMember m bo c dt vs i')
| MoreStructures : forall mt bo base base' identifier default' ms ms' more all,
    enlarged base base' -> Forall2 enlarged ms ms' -> Permutation all (ms' ++ more) ->
    enlarged (DGroup mt bo base identifier None ms) (DGroup mt bo base' identifier default' all)
| OtherOrder : forall mt bo base base' identifier df df' ms ms' all,
    enlarged base base' -> enlarged df df' -> Forall2 enlarged ms ms' -> Permutation all ms' ->
    enlarged (DGroup mt bo base identifier (Some df) ms) (DGroup mt bo base' identifier (Some df') all).
