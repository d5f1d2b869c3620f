(** Specification vocabulary for hosts of different byte orders. *)
From Coq Require Import String List ZArith Bool.
From Verif Require Import Base PyVal PyStruct DataTypes DataMaps SpecCreate.
Import ListNotations.
Open Scope Z_scope.

(** The same environment on a host of byte order [h]. *)
Definition on_host (h : endian) (orc : oracle) : oracle :=
  mkOracle h (o_eval orc) (o_parses orc) (o_encode orc) (o_decode orc).

Definition explicit (bo : byte_order) : Prop := bo <> BONative.

(** A number, character or boolean of a single byte. *)
Definition one_byte (d : dtype) : Prop :=
  match d with
  | DBoolean f _ _ | DCharacter f | DFloat f | DInteger f _ => f_size f = Some 1
  | _ => False
  end.

(** The byte order of every number that the map of a definition reads is written
    down, at the number or where it inherits it from.  [settled]: the definition
    has a byte order of its own or takes over that of the structure or sequence it
    is in. *)
Fixpoint portable (settled : Prop) (d : dtype) : Prop :=
  match d with
  | DBoolean f _ _ | DCharacter f | DFloat f | DInteger f _ =>
      settled \/ explicit (f_bo f) \/ one_byte d
  | DElems KSequence e el =>
      portable ((settled \/ explicit (e_bo e)) /\ is_composite el = false) el
  | DStructure _ bo ms =>
      (* a structure of native byte order is not read in one go, or holds single
         bytes only *)
      ((settled \/ explicit bo) \/ Forall (fun m => one_byte (type_of m)) ms \/
       Exists (fun m => is_composite m = true \/ is_padding m = true) ms) /\
      (fix go (l : list dtype) : Prop :=
         match l with
         | [] => True
         | m :: r => portable (settled \/ explicit bo) m /\ go r
         end) ms
  | DMember _ _ _ _ _ i => portable settled i
  | DGroup _ _ b _ df ms =>
      portable False b /\
      match df with Some x => portable False x | None => True end /\
      (fix go (l : list dtype) : Prop :=
         match l with [] => True | m :: r => portable False m /\ go r end) ms
  | _ => True
  end.

(** A number, character or boolean has a byte order of its own. *)
Definition numbers_explicit (d : dtype) : Prop :=
  match d with
  | DBoolean f _ _ | DCharacter f | DFloat f | DInteger f _ => explicit (f_bo f)
  | _ => True
  end.

(** Two maps that cannot be told apart by mapping, folding or asking for a size. *)
Definition indistinguishable (o : oracle) (m : dmap) (o' : oracle) (m' : dmap) : Prop :=
  (forall fuel bs off c depth, mapbs o fuel m bs off c depth = mapbs o' fuel m' bs off c depth) /\
  (forall v c, foldbs o m v c = foldbs o' m' v c) /\
  (forall off c, hint o m off c = hint o' m' off c).
