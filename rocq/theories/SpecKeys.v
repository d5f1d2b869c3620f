(** Specification vocabulary for the order of keys in definition files. *)
From Coq Require Import String List ZArith Bool Permutation.
From Verif Require Import Base Yaml.
Import ListNotations.
Local Open Scope string_scope.
Local Open Scope list_scope.

(** Mappings with the same keys, each of which occurs once, in any order.  Under
    each key there is the same value in both, or values related by [R] for that
    key. *)
Definition shuffle (R : string -> yval -> yval -> Prop) (v v' : yval) : Prop :=
  exists l l' p, v = YMap l /\ v' = YMap l' /\ NoDup (map fst l) /\ Permutation l p /\
    Forall2 (fun a b => fst a = fst b /\ (snd a = snd b \/ exists k, fst a = Y k /\ R k (snd a) (snd b))) p l'.

(** The keys of this mapping only, not of those inside. *)
Definition shuffle_here : yval -> yval -> Prop := shuffle (fun _ _ _ => False).

(** Lists with items that are the same or related. *)
Definition lists_of (R : yval -> yval -> Prop) (x y : yval) : Prop :=
  exists xs ys, x = YList xs /\ y = YList ys /\ Forall2 (fun a b => a = b \/ R a b) xs ys.

(** A member of a structure or union, and the members and attributes of a union
    in it, up to depth [n]. *)
Fixpoint shuffle_member (n : nat) : yval -> yval -> Prop :=
  match n with
  | O => fun _ _ => False
  | S n => shuffle (fun k x y => k = "attributes" /\ shuffle_here x y
                              \/ k = "members" /\ lists_of (shuffle_member n) x y)
  end.

(** A document: also its attributes, members, enumeration values and layout
    elements.  The mappings in metadata and wherever else a value is kept as it is
    are left alone. *)
Definition shuffle_document (v v' : yval) : Prop :=
  exists n, shuffle (fun k x y => k = "attributes" /\ shuffle_here x y
                              \/ k = "members" /\ lists_of (shuffle_member n) x y
                              \/ (k = "values" \/ k = "layout") /\ lists_of shuffle_here x y) v v'.
