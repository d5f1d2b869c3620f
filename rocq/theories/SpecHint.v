(** Specification vocabulary for size hints. *)
From Coq Require Import String List ZArith Bool.
From Verif Require Import Base PyVal PyStruct DataTypes ClassFactory DataMaps SpecPrim SpecMap.
Import ListNotations.
Open Scope Z_scope.

(** An evaluator whose results do not change when names are added to the
    namespace. *)
Definition monotone_eval (orc : oracle) : Prop :=
  forall x e1 e2,
    (forall k v, dict_get k e1 = Some v -> dict_get k e2 = Some v) ->
    o_eval orc x e1 <> EvExc -> o_eval orc x e2 = o_eval orc x e1.

(** Members that are mapped in one go: numbers, UUIDs, padding, sequences of
    numbers, structures of numbers of which the names do not hide one another,
    and streams and strings, where a count is a
    count of elements of known size. *)
Definition leaf (m : dmap) : Prop :=
  match m with
  | MPrim _ _ | MUUID _ | MPadding _ => True
  | MSequence true e ed _ _ | MStream e ed _ | MString e ed _ =>
      has_number e = true -> exists b, get_byte_size ed = Some b /\ 0 < b
  | MStructure true _ cls _ attrs _ =>
      clear_names cls (map fst attrs) /\
      forall a, In a attrs -> exists p q, snd a = Some (MPrim p q)
  | _ => False
  end.

(** No terminator, or one of a single byte without a count. *)
Definition narrow (m : dmap) : Prop :=
  match m with
  | MStream e ed _ | MString e ed _ =>
      e_terminator e <> None -> has_number e = false /\ get_byte_size ed = Some 1
  | _ => True
  end.

(** The offset is a multiple of the alignment of the padding. *)
Definition aligned (off : Z) (m : dmap) : Prop :=
  match m with
  | MPadding (DPadding _ _ (Some a)) => off mod a = 0
  | _ => True
  end.

(** [m] is a structure of which every member has a map and [P] holds for it, and
    every member definition is one for which [Q] holds. *)
Definition structure_of (P : dmap -> Prop) (Q : dtype -> Prop) (m : dmap) : Prop :=
  match m with
  | MStructure false _ _ ms attrs _ =>
      (forall a, In a attrs -> exists x, snd a = Some x /\ P x) /\
      (forall d, In d ms -> Q d)
  | _ => False
  end.

Definition unconditional (d : dtype) : Prop := truthy_str (member_cond d) = None.

(** ** Nested structures and sequences *)

(** Maps that take up the size of their definition whenever they are mapped. *)
Definition solid (m : dmap) : Prop :=
  match m with
  | MPrim _ _ | MUUID _ | MStructure true _ _ _ _ _ => True
  | _ => False
  end.

(** Maps of which it can be told that there is at least one byte: numbers, UUIDs,
    streams and strings that end with a terminator, and structures that begin with
    one of these. *)
Fixpoint opens (m : dmap) : Prop :=
  match m with
  | MPrim d _ | MUUID d => exists b, get_byte_size d = Some b /\ 0 < b
  | MStream e _ _ | MString e _ _ =>
      has_data_size e = false /\ has_number e = false /\ e_terminator e <> None
  | MStructure false _ _ (d :: _) ((_, Some x) :: _) _ => unconditional d /\ opens x
  | _ => False
  end.

(** Members for which hints can be told from what was mapped: those that are
    mapped in one go, sequences of elements of a fixed size, sequences of elements of
    different sizes that open with at least one byte and are not bounded by a data
    size, and structures of all of these, without padding. *)
Fixpoint hinted (m : dmap) : Prop :=
  match m with
  | MPadding _ => False
  | MSequence false e ed em _ =>
      ((exists x, em = Some x /\ solid x) /\ (exists b, get_byte_size ed = Some b /\ 0 < b)) \/
      (get_byte_size ed = None /\ has_data_size e = false /\
       match em with Some x => opens x /\ hinted x | None => False end)
  | MStructure false _ cls _ attrs _ =>
      clear_names cls (map fst attrs) /\
      (fix go (l : list (string * option dmap)) : Prop :=
         match l with
         | [] => True
         | (_, Some x) :: r => hinted x /\ go r
         | (_, None) :: _ => False
         end) attrs
  | _ => leaf m
  end.

(** Members of which the hint is not more than they take up: no member is
    conditional, terminated streams have elements of a single byte and sequences
    of structures are not bounded by a data size and have elements of one size. *)
Fixpoint frugal (m : dmap) : Prop :=
  match m with
  | MSequence false e ed _ _ => has_data_size e = false /\ get_byte_size ed <> None
  | MStructure false _ _ ms attrs _ =>
      (forall d, In d ms -> unconditional d) /\
      (fix go (l : list (string * option dmap)) : Prop :=
         match l with
         | [] => True
         | (_, Some x) :: r => frugal x /\ go r
         | (_, None) :: r => go r
         end) attrs
  | _ => narrow m
  end.

(** The names of the structures inside of a map are neither in [names] nor those
    of structures around them. *)
Fixpoint unhidden (names : list string) (m : dmap) : Prop :=
  match m with
  | MStructure false _ cls _ attrs _ =>
      ~ In cls names /\
      (fix go (l : list (string * option dmap)) : Prop :=
         match l with
         | [] => True
         | (_, Some x) :: r => unhidden (names ++ [cls]) x /\ go r
         | (_, None) :: r => go r
         end) attrs
  | _ => True
  end.

(** What can be read by hints at [off]: a structure with members of which the
    hints can be told, padding included if [off] is a multiple of its alignment,
    or anything else of which the hints can be told. *)
Definition hinted_at (off : Z) (m : dmap) : Prop :=
  match m with
  | MStructure false _ _ _ attrs _ =>
      forall a, In a attrs -> exists x, snd a = Some x /\ (hinted x \/ (leaf x /\ aligned off x))
  | _ => hinted m
  end.

(** The names of the structures inside of the members of a structure hide nothing. *)
Definition unhidden_inside (names : list string) (m : dmap) : Prop :=
  match m with
  | MStructure false _ cls _ attrs _ =>
      forall a x, In a attrs -> snd a = Some x -> unhidden (names ++ [cls]) x
  | _ => True
  end.

(** The base and the members of a structure group are such that [P] holds, and no
    member is for the identifier None. *)
Definition group_of (P : dmap -> Prop) (m : dmap) : Prop :=
  match m with
  | MGroup _ _ base _ entries =>
      (exists x, base = Some x /\ P x) /\
      (forall y, In y entries -> fst y <> VNone /\ exists x, snd y = Some x /\ P x)
  | _ => False
  end.

(** A structure group without a default. *)
Definition no_default (m : dmap) : Prop :=
  match m with MGroup _ _ _ default _ => default = None | _ => True end.

(** The base of a structure group takes up [n] bytes. *)
Definition base_takes (orc : oracle) (fuel : nat) (m : dmap) (bs : bytes) (off depth n : Z) : Prop :=
  match m with
  | MGroup _ _ (Some x) _ _ => exists v, maps orc fuel x bs off [] depth v n
  | _ => False
  end.

(** The first [k] bytes. *)
Definition prefix_of (k : Z) (b : bytes) : bytes := firstn (Z.to_nat k) b.

(** Reading by hints: [reads orc fuel m b vals k v k'] if mapping the first [k]
    bytes of [b], and as long as that raises ByteStreamTooSmallError, mapping as
    many bytes as the context of the last attempt hints at, ends with the value
    [v] after [k'] bytes of [b] have been looked at. *)
Inductive reads (orc : oracle) (fuel : nat) (m : dmap) (b : bytes) (vals : env)
    : Z -> pyval -> Z -> Prop :=
| reads_done k v c :
    mapbs orc fuel m (prefix_of k b) 0 (Some (ctx_new vals)) 0 = (Ok v, c) ->
    reads orc fuel m b vals k v k
| reads_more k h v k' c :
    mapbs orc fuel m (prefix_of k b) 0 (Some (ctx_new vals)) 0 = (Raise ByteStreamTooSmallError, c) ->
    fst (hint orc m 0 c) = Ok (Some h) ->
    reads orc fuel m b vals h v k' ->
    reads orc fuel m b vals k v k'.

(** ** Hints before anything is mapped *)

(** A number of elements is not given together with a terminator. *)
Definition counted_or_ended (d : dtype) : Prop :=
  match d with DElems _ e _ => e_number e = None \/ e_terminator e = None | _ => True end.

(** Every member of a structure has a map and the names of the members do not
    hide one another. *)
Definition whole (m : dmap) : Prop :=
  match m with
  | MStructure _ _ cls _ attrs _ => clear_names cls (map fst attrs) /\ forall a, In a attrs -> snd a <> None
  | _ => True
  end.

(** No context, or one in which nothing has been mapped. *)
Definition untouched (c : option ctx) : Prop := c = None \/ exists vals, c = Some (ctx_new vals).
