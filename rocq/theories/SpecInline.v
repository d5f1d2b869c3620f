(** Specification vocabulary for members described in place and members that refer
    to a definition. *)
From Coq Require Import String List ZArith Bool.
From Verif Require Import Base PyVal DataTypes ClassFactory DataMaps SpecContainers.
Import ListNotations.
Open Scope string_scope.
Open Scope list_scope.
Open Scope Z_scope.

Definition label (n : string) : meta := mkMeta n [] None.
Definition fixed_plain (f : fixed) : fixed := mkFixed (label "") (f_bo f) (f_size f) (f_units f).
Definition order_or_native (d : dtype) : byte_order := match dt_byte_order d with Some b => b | None => BONative end.
Definition supported (vs : option (list pyval)) : option (list pyval) := match vs with Some [] => None | _ => vs end.

(** A definition without what says how it was written down: the names of the types in
    it other than structures, all aliases and descriptions, and whether the type of a
    member is described in place or by reference. *)
Fixpoint plain (d : dtype) : dtype :=
  match d with
  | DBoolean f fv tv => DBoolean (fixed_plain f) fv tv
  | DCharacter f => DCharacter (fixed_plain f)
  | DFloat f => DFloat (fixed_plain f)
  | DInteger f u => DInteger (fixed_plain f) u
  | DUUID f => DUUID (fixed_plain f)
  | DElems k e el =>
      DElems k (mkElems (label "") (e_bo e) (e_data_size e) (e_data_size_expr e) None (e_terminator e)
                  (e_number e) (e_number_expr e) (e_encoding e)) (plain el)
  | DStructure m bo ms =>
      DStructure (label (m_name m)) bo
        (map (fun x =>
           match x with
           | DMember m b c _ vs i => DMember (label (m_name m)) b (truthy_str c) None (supported vs) (plain i)
           | DBoolean _ _ _ | DCharacter _ | DFloat _ | DInteger _ _ | DUUID _ | DElems _ _ _ =>
               DMember (label (dt_name x)) (order_or_native x) None None None (plain x)
           | DPadding m b a => DPadding (label (m_name m)) b a
           | _ => x
           end) ms)
  | DPadding m b a => DPadding (label "") b a
  | DMember _ b c dt vs i => DMember (label "") b c dt vs i
  | _ => d
  end.

(** The members of a structure say of what type they are, which the reader takes care
    of. *)
Definition described (d : dtype) : Prop :=
  match d with DStructure _ _ ms => Forall describable ms | _ => True end.
