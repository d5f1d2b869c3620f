(** Specification vocabulary for mappings that are interrupted and resumed. *)
From Coq Require Import String List ZArith Bool.
From Verif Require Import Base PyVal PyStruct DataTypes ClassFactory DataMaps SpecPrim SpecMap.
Import ListNotations.
Open Scope Z_scope.

(** Maps without composite sequences and groups: primitives, UUIDs, padding,
    streams, strings, sequences and structures that are read in one go, and
    structures of these. *)
Fixpoint resumable (m : dmap) : Prop :=
  match m with
  | MSequence false _ _ _ _ | MGroup _ _ _ _ _ => False
  | MStructure false _ _ _ attrs _ =>
      (fix go (l : list (string * option dmap)) : Prop :=
         match l with
         | [] => True
         | (_, Some x) :: r => resumable x /\ go r
         | (_, None) :: r => go r
         end) attrs
  | _ => True
  end.

(** Everything but a composite structure or sequence and a group is mapped as a whole. *)
Definition whole (m : dmap) : Prop :=
  match m with
  | MStructure false _ _ _ _ _ | MSequence false _ _ _ _ | MGroup _ _ _ _ _ => False
  | _ => True
  end.

(** Mapping [m] on [bs] from [off] on gets as far as offset [p]: what is there has
    to be mapped as a whole and [bs] is too small for it.  In a composite sequence
    [bs] may also be used up by the elements.  A group maps its base and then, at
    the same offset, the member that the base tells. *)
Inductive stalls (orc : oracle) (fuel : nat) (bs : bytes) : dmap -> Z -> env -> Z -> Z -> Prop :=
| stalls_whole m off vals depth :
    whole m -> fails orc fuel m bs off vals depth ByteStreamTooSmallError ->
    stalls orc fuel bs m off vals depth off
| stalls_member d cls ms attrs op off vals depth before mem name x after s e p :
    combine ms attrs = before ++ (mem, (name, Some x)) :: after ->
    fields orc fuel cls vals bs depth before (blank cls attrs) off s e ->
    condition_is orc mem (scope cls s vals) true ->
    stalls orc fuel bs x e (scope cls s vals) (depth + 1) p ->
    stalls orc fuel bs (MStructure false d cls ms attrs op) off vals depth p
| stalls_end e t x op off vals depth vs p :
    elements orc fuel x bs depth off vs p -> len bs <= p ->
    stalls orc fuel bs (MSequence false e t (Some x) op) off vals depth p
| stalls_element e t x op off vals depth vs o p :
    elements orc fuel x bs depth off vs o -> o < len bs ->
    stalls orc fuel bs x o [] (depth + 1) p ->
    stalls orc fuel bs (MSequence false e t (Some x) op) off vals depth p
| stalls_base d i x default entries off vals depth p :
    stalls orc fuel bs x off [] depth p ->
    stalls orc fuel bs (MGroup d i (Some x) default entries) off vals depth p
| stalls_chosen d i base default entries off vals depth id y p :
    identified orc fuel i base bs off depth id -> id <> VNone -> chosen default entries id (Some y) ->
    stalls orc fuel bs y off [] depth p ->
    stalls orc fuel bs (MGroup d i base default entries) off vals depth p.

(** [c] is the context after attempts to map [m] at [off] on streams that went on
    growing, the last of them [bs], each of which raised ByteStreamTooSmallError.
    The first attempt had a fresh context.  Every other one continued with the
    context of the one before, at the offset where that one had stalled. *)
Inductive interrupted (orc : oracle) (fuel : nat) (m : dmap) (off : Z) (vals : env) (depth : Z)
    : bytes -> ctx -> Prop :=
| interrupted_first bs c :
    0 <= off <= len bs ->
    mapbs orc fuel m bs off (Some (ctx_new vals)) depth = (Raise ByteStreamTooSmallError, Some c) ->
    interrupted orc fuel m off vals depth bs c
| interrupted_again bs c s p c' :
    interrupted orc fuel m off vals depth bs c ->
    stalls orc fuel bs m off vals depth p ->
    mapbs orc fuel m (bs ++ s) p (Some c) depth = (Raise ByteStreamTooSmallError, Some c') ->
    interrupted orc fuel m off vals depth (bs ++ s) c'.
