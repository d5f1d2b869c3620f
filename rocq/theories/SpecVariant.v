(** Specification vocabulary for structures of which only some members are there. *)
From Coq Require Import String List ZArith Bool.
From Verif Require Import Base PyVal DataTypes ClassFactory DataMaps SpecMap SpecCreate SpecReads SpecGrow.
Import ListNotations.
Open Scope Z_scope.

(** Attributes with some of those named [gone] removed. *)
Inductive trimmed (gone : list string) : list (string * pyval) -> list (string * pyval) -> Prop :=
| TrimNone : trimmed gone [] []
| TrimKeep : forall f l l', trimmed gone l l' -> trimmed gone (f :: l) (f :: l')
| TrimDrop : forall f l l', In (fst f) gone -> trimmed gone l l' -> trimmed gone (f :: l) l'.

(** [w] is [v], or the structure [v] without some of these attributes. *)
Definition reduced (gone : list string) (v w : pyval) : Prop :=
  w = v \/ exists cls l l', v = VStruct cls l /\ w = VStruct cls l' /\ trimmed gone l l'.

Definition reduced_env (gone : list string) (e e' : env) : Prop :=
  Forall2 (fun a b => fst a = fst b /\ reduced gone (snd a) (snd b)) e e'.

(** The expression does not look at whether structures have the attributes [gone],
    nor at their values. *)
Definition unaware (orc : oracle) (gone : list string) (x : string) : Prop :=
  forall e e', reduced_env gone e e' -> o_eval orc x (ns e') = o_eval orc x (ns e).

Definition does_without (orc : oracle) (gone : list string) (d : dtype) : Prop :=
  Forall (unaware orc gone) (expressions d).

(** A member that has to be there. *)
Definition unconditional (d : dtype) : dtype :=
  match d with DMember m bo _ dt vs i => DMember m bo None dt vs i | _ => d end.

Definition is_none (v : pyval) : bool := match v with VNone => true | _ => false end.

(** The members that have a value, without conditions. *)
Fixpoint those_there (ms : list dtype) (fields : list (string * pyval)) : list dtype :=
  match ms, fields with
  | m :: ms', (_, w) :: fields' => if is_none w then those_there ms' fields' else unconditional m :: those_there ms' fields'
  | _, _ => []
  end.

(** The attributes with a value, and the names of the others. *)
Definition having (fields : list (string * pyval)) : list (string * pyval) := filter (fun f => negb (is_none (snd f))) fields.
Definition lacking (fields : list (string * pyval)) : list string := map fst (filter (fun f => is_none (snd f)) fields).

(** The attributes of a structure after its first [i] members were read. *)
Definition so_far (i : nat) (fields : list (string * pyval)) : list (string * pyval) :=
  firstn i fields ++ map (fun f => (fst f, VNone)) (skipn i fields).

(** Not a UUID without a byte order nor a structure group, which can be None. *)
Definition never_none (m : dtype) : Prop :=
  match type_of m with DUUID _ | DGroup _ _ _ _ _ _ => False | _ => True end.
