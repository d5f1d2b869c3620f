(** What the attributes of a definition say, read off the definition itself: the
    properties of sequences, streams and members are stated with these words, not
    with the helpers of the model. *)
From Coq Require Import String List ZArith Bool.
From Verif Require Import Base PyVal DataTypes DataMaps SpecMap.
Import ListNotations.
Open Scope Z_scope.

(** The definition has a data size, as a number or as an expression. *)
Definition size_given (e : elems) : Prop := e_data_size e <> None \/ e_data_size_expr e <> None.

(** The definition has a number of elements, as a number or as an expression. *)
Definition number_given (e : elems) : Prop := e_number e <> None \/ e_number_expr e <> None.

(** The size of a stream is [n]: what the data size says if there is one, or else
    the number of elements times their size. *)
Definition stream_extent (orc : oracle) (e : elems) (ed : dtype) (vals : env) (n : Z) : Prop :=
  (size_given e /\ measure orc (e_data_size e) (e_data_size_expr e) vals n) \/
  (~ size_given e /\ exists k b, get_byte_size ed = Some b /\
     measure orc (e_number e) (e_number_expr e) vals k /\ n = k * b).

(** Neither a data size nor a number of elements of known size is given, so that
    only a terminator can end the stream. *)
Definition open_ended (e : elems) (ed : dtype) : Prop :=
  ~ size_given e /\ (~ number_given e \/ get_byte_size ed = None).

(** Definitions that are not read as one number of a fixed format: UUIDs,
    everything that has elements, members or a layout, and members that have a
    condition or such a data type. *)
Inductive composite : dtype -> Prop :=
| composite_uuid f : composite (DUUID f)
| composite_elements k e el : composite (DElems k e el)
| composite_structure m bo ms : composite (DStructure m bo ms)
| composite_union m bo ms : composite (DUnion m bo ms)
| composite_format m bo l : composite (DFormat m bo l)
| composite_family m b ms : composite (DFamily m b ms)
| composite_group m bo b i d ms : composite (DGroup m bo b i d ms)
| composite_condition m bo x t vs i : x <> EmptyString -> composite (DMember m bo (Some x) t vs i)
| composite_member m bo c t vs i : composite i -> composite (DMember m bo c t vs i).

(** The elements of the sequence are read in one go: they are not composite, and
    the sequence has neither expressions nor a terminator. *)
Definition in_one_go (e : elems) (el : dtype) : Prop :=
  ~ composite el /\ e_data_size_expr e = None /\ e_number_expr e = None /\ e_terminator e = None.

(** The condition [cond] of a member evaluates to [b]; without one it is met. *)
Definition decides (orc : oracle) (cond : option string) (e : env) (b : bool) : Prop :=
  ((cond = None \/ cond = Some EmptyString) /\ b = true) \/
  exists x, cond = Some x /\ x <> EmptyString /\ o_eval orc x (ns e) = EvBool b.

(** The condition raises or evaluates to something else than a bool. *)
Definition undecided (orc : oracle) (cond : option string) (e : env) : Prop :=
  exists x, cond = Some x /\ x <> EmptyString /\ forall b, o_eval orc x (ns e) <> EvBool b.

(** The value equals one of the supported ones, if any are listed. *)
Definition supports (values : option (list pyval)) (v : pyval) : Prop :=
  values = None \/ values = Some [] \/ exists l w, values = Some l /\ In w l /\ py_eq v w = true.
