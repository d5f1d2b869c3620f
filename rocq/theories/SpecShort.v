(** Where a byte stream ends too early: the counterpart of the reference reading
    for streams that lack bytes.  No map, loop, struct format, context or fuel
    occurs here. *)
From Coq Require Import String Ascii List ZArith Bool.
From Verif Require Import Base PyVal PyStruct DataTypes ClassFactory DataMaps SpecPrim SpecMap SpecCreate SpecReads.
From Verif Require SpecMake.
Import ListNotations.
Open Scope Z_scope.

(** Definitions whose bytes are taken from the stream all at once: single values,
    sequences of them with a fixed number or data size, and structures of single
    values without change of byte order. *)
Definition at_once (d : dtype) : Prop :=
  match d with
  | DInteger _ _ | DFloat _ | DBoolean _ _ _ | DCharacter _ | DUUID _ => True
  | DElems KSequence e el =>
      is_composite el = false /\ e_data_size_expr e = None /\ e_number_expr e = None /\ e_terminator e = None
  | DStructure _ bo ms => SpecMake.one_go bo ms
  | _ => False
  end.

(** What ends a sequence: a number of elements, a data size, an element. *)
Inductive governed (orc : oracle) (e : elems) (el : dtype) (vals : env)
    : option Z -> option Z -> option pyval -> Prop :=
| ByNumber : forall k,
    has_data_size e = false -> e_terminator e = None ->
    measure orc (e_number e) (e_number_expr e) vals k ->
    governed orc e el vals (Some k) None None
| ByTerminator : forall t,
    has_data_size e = false -> e_terminator e = Some t ->
    governed orc e el vals None None (Some t)
| BySize : forall s b,
    has_data_size e = true -> get_byte_size el = Some b -> b <> 0 ->
    measure orc (e_data_size e) (e_data_size_expr e) vals s ->
    governed orc e el vals (Some (s / b)) (Some s) None
| BySizeVariable : forall s t k e' el',
    has_data_size e = true -> el = DElems k e' el' -> get_byte_size el = None -> e_terminator e' = Some t ->
    measure orc (e_data_size e) (e_data_size_expr e) vals s ->
    governed orc e el vals None (Some s) (Some t).

(** [lacks orc bs d off vals]: reading [d] at offset [off] of [bs] comes to a
    point where all is well so far and the next bytes are not there. *)
Inductive lacks (orc : oracle) (bs : bytes) : dtype -> Z -> env -> Prop :=
| LackBytes : forall d n off vals,
    at_once d -> get_byte_size d = Some n -> len bs < off + n ->
    lacks orc bs d off vals
| LackPadding : forall mt bo a n off vals,
    0 < a -> aligns a off n -> len bs < off + n ->
    lacks orc bs (DPadding mt bo (Some a)) off vals
| LackStream : forall e el n off vals,
    ~ unsized_stream e el -> stream_size orc e el vals n -> len bs < off + n ->
    lacks orc bs (DElems KStream e el) off vals
| LackTerminator : forall e el t off vals,
    unsized_stream e el -> e_terminator e = Some (VBytes t) -> (forall k, ~ first_at t bs off k) ->
    lacks orc bs (DElems KStream e el) off vals
| LackString : forall e el off vals,
    lacks orc bs (DElems KStream e el) off vals ->
    lacks orc bs (DElems KString e el) off vals
(* some elements are read, none of them ends the sequence, and either the stream
   ends or the next element lacks bytes; or the data size is used up before the
   number of elements is reached *)
| LackElement : forall e el number size term rs off vals,
    ~ at_once (DElems KSequence e el) ->
    governed orc e el vals number size term ->
    reads_elements orc bs (element_type e el) off rs ->
    (forall before after, rs = before ++ after -> after <> [] ->
       ~ complete number size term (map fst before) (span before)) ->
    ~ SpecMap.accepted number size term (map fst rs) (span rs) ->
    (complete number size term (map fst rs) (span rs) \/ len bs <= off + span rs \/
     lacks orc bs (element_type e el) (off + span rs) []) ->
    lacks orc bs (DElems KSequence e el) off vals
(* the members before are read, the member is there and lacks bytes *)
| LackMember : forall mt bo before m after rs off vals,
    ~ at_once (DStructure mt bo (before ++ m :: after)) ->
    let names := map dt_name (before ++ m :: after) in
    let sees := scope (m_name mt) (partly (m_name mt) names rs) vals in
    reads_members orc bs (m_name mt) bo names vals [] before off rs ->
    condition_is orc m sees true ->
    lacks orc bs (used_type (m_name mt) bo m) (off + total rs) sees ->
    lacks orc bs (DStructure mt bo (before ++ m :: after)) off vals
| LackBase : forall mt bo base identifier default ms off vals,
    lacks orc bs base off [] ->
    lacks orc bs (DGroup mt bo base identifier default ms) off vals
| LackSelected : forall mt bo base identifier default ms b k d off vals,
    reads orc bs base off [] b k -> py_getattr b identifier <> VNone ->
    selects identifier default ms (py_getattr b identifier) d ->
    lacks orc bs d off [] ->
    lacks orc bs (DGroup mt bo base identifier default ms) off vals.
