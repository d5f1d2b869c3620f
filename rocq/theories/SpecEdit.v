(** Specification vocabulary for structures of which a single member changes. *)
From Coq Require Import String List ZArith Bool.
From Verif Require Import Base PyVal PyStruct DataTypes ClassFactory DataMaps SpecPrim SpecMap SpecCreate SpecShort SpecGrow SpecWrites.
Import ListNotations.
Open Scope Z_scope.

(** [member_bytes orc mt bo ms x w b]: in a structure of the members [ms] the bytes
    [b] are those of the member [x] with the value [w]: a number in the byte order of
    the structure if the structure is written in one go, otherwise what the type of
    the member writes, and nothing for None. *)
Inductive member_bytes (orc : oracle) (mt : meta) (bo : byte_order) (ms : list dtype) (x : dtype) (w : pyval)
    : bytes -> Prop :=
| AsNumber : forall b,
    at_once (DStructure mt bo ms) -> stores (order_on (o_host orc) bo) (type_of x) w b ->
    member_bytes orc mt bo ms x w b
| AsType : forall vals b,
    ~ at_once (DStructure mt bo ms) -> w <> VNone -> writes orc (used_type (m_name mt) bo x) vals w b ->
    member_bytes orc mt bo ms x w b
| AsNothing :
    ~ at_once (DStructure mt bo ms) ->
    (w = VNone \/ match type_of x with DUnion _ _ _ | DFamily _ _ _ | DMember _ _ _ _ _ _ => True | _ => False end) ->
    member_bytes orc mt bo ms x w [].

(** The type takes [k] bytes whatever its value: a number, a UUID, or numbers or
    bytes of which the definition says how many they are. *)
Definition as_wide_as (d : dtype) (k : Z) : Prop :=
  get_byte_size d = Some k /\
  match d with
  | DInteger _ _ | DFloat _ | DBoolean _ _ _ | DCharacter _ | DUUID _ => True
  | DElems KSequence e el =>
      e_number_expr e = None /\ e_data_size_expr e = None /\ e_terminator e = None /\
      (forall s b, e_data_size e = Some s -> get_byte_size el = Some b -> s mod b = 0)
  | DElems KStream e el => e_number_expr e = None /\ e_data_size_expr e = None /\ e_terminator e = None
  | _ => False
  end.

(** [v'] is [v], or the structure [v] with another value for the attribute [x]. *)
Definition reassigned (x : string) (v v' : pyval) : Prop :=
  v' = v \/ exists cls l1 l2 w w', v = VStruct cls (l1 ++ (x, w) :: l2) /\ v' = VStruct cls (l1 ++ (x, w') :: l2).

(** The names of both namespaces are the same; their values are, but for the
    attribute [x] of structures. *)
Definition reassigned_env (x : string) (e e' : env) : Prop :=
  Forall2 (fun a b => fst a = fst b /\ reassigned x (snd a) (snd b)) e e'.

(** The expression does not depend on the value of the attribute [x]. *)
Definition ignores (orc : oracle) (x : string) (s : string) : Prop :=
  forall e e', reassigned_env x e e' -> o_eval orc s (ns e') = o_eval orc s (ns e).

(** None of the expressions of the definition depends on the attribute [x]. *)
Definition unheeded (orc : oracle) (x : string) (d : dtype) : Prop :=
  Forall (ignores orc x) (expressions d).

(** Not a structure group, whose value can depend on bytes it does not count. *)
Definition lone (d : dtype) : Prop :=
  match d with DGroup _ _ _ _ _ _ => False | _ => True end.
