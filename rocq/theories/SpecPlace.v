(** Specification vocabulary for the order of documents in definition files. *)
From Coq Require Import String List ZArith Bool.
From Verif Require Import Base Yaml Reader SpecReader.
Import ListNotations.

(** No alias is the name of another definition, without regard to case. *)
Definition own_aliases (env : yenv) (ds : list rdef) : Prop :=
  forall d x l a k, In d ds -> In x ds -> y_iter (rd_aliases d) = Ok l -> In a l ->
    y_lower env a = Ok k -> y_lower env (rd_name x) = Ok k -> x = d.

(** The definitions a definition refers to by name: the types of members and
    elements, and the structures that make up a family or group. *)
Inductive built_on : rdef -> rdef -> Prop :=
| OnElement : forall k e elem, built_on (RElems k e elem) elem
| OnType : forall m bo c dt vs d, dt <> YNull -> built_on (RMember m bo c dt vs d) d
| OnInline : forall m bo c vs d x, built_on d x -> built_on (RMember m bo c YNull vs d) x
| OnStructure : forall m bo ss ms d x, In d ms -> built_on d x -> built_on (RStructure m bo ss ms) x
| OnUnion : forall m bo ss ms d x, In d ms -> built_on d x -> built_on (RUnion m bo ss ms) x
| OnFamilyBase : forall m base ms, built_on (RFamily m base ms) base
| OnFamily : forall m base ms d, In d ms -> built_on (RFamily m base ms) d
| OnGroupBase : forall m bo base i df ms, built_on (RGroup m bo base i df ms) base
| OnDefault : forall m bo base i d ms, built_on (RGroup m bo base i (Some d) ms) d
| OnGroup : forall m bo base i df ms d, In d ms -> built_on (RGroup m bo base i df ms) d.

(** What a definition refers to comes before it. *)
Definition before_use (ds : list rdef) : Prop :=
  forall a d b x, ds = a ++ d :: b -> built_on d x -> In x a.
