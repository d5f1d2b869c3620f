(** Specification vocabulary for the names of structures and their members. *)
From Coq Require Import String List.
From Verif Require Import Base.
Import ListNotations.

(** Names that Python replaces inside of a class: those with two leading
    underscores that do not end with two. *)
Definition private_name (s : string) : Prop :=
  (exists r, s = String.append "__" r) /\ forall r, s <> String.append r "__".

(** The names in the constructor of a structure class do not hide one another:
    the class is named neither self nor super and is not private, and no member
    is named super or as the class. *)
Definition clear_names (cls : string) (names : list string) : Prop :=
  cls <> "self"%string /\ cls <> "super"%string /\
  ~ In "super"%string names /\ ~ In cls names /\ ~ private_name cls.

(** What making an instance of a class with other names raises: the mangled name
    is not defined, or a class named super makes another instance of itself with
    two arguments, or super is called with or is something else. *)
Definition constructor_raises (cls : string) (names : list string) (e : exc) : Prop :=
  (private_name cls /\ e = NameError) \/
  (~ private_name cls /\ cls = "super"%string /\ ~ In "super"%string names /\ 2 <= List.length names /\
   e = RecursionError) \/
  (~ private_name cls /\ (cls = "super"%string -> In "super"%string names \/ List.length names < 2) /\
   e = TypeError).
