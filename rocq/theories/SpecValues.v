(** Specification vocabulary for values made by hand. *)
From Coq Require Import String List ZArith Bool.
From Verif Require Import Base PyVal.
Import ListNotations.

(** The arguments can be passed: there are no more than members, keywords are
    members, and none of those that an argument by position is for. *)
Definition passable (names : list string) (args : list pyval) (kwargs : list (string * pyval)) : Prop :=
  (List.length args <= List.length names)%nat /\
  Forall (fun kv => exists i, (List.length args <= i)%nat /\ nth_error names i = Some (fst kv)) kwargs.

(** The value for the [i]-th member, named [n]: the [i]-th argument, or the
    keyword, or else None. *)
Definition passed (args : list pyval) (kwargs : list (string * pyval)) (i : nat) (n : string) (v : pyval) : Prop :=
  nth_error args i = Some v \/
  (nth_error args i = None /\ In (n, v) kwargs) \/
  (nth_error args i = None /\ (forall w, ~ In (n, w) kwargs) /\ v = VNone).
