(** Values that lie one after another in a stream, such as a header and records.

    The caller maps the first at some offset, adds the byte size that the context
    gives, maps the next there, and so on.  Each value can have its own definition
    and its own external values. *)
From Coq Require Import String List ZArith.
From Verif Require Import Base PyVal DataTypes ClassFactory DataMaps SpecMap SpecCreate SpecReads SpecFold SpecFits.
Import ListNotations.
Open Scope Z_scope.

Record item : Type := mkItem {
  i_type : dtype;       (* its definition *)
  i_map : dmap;         (* the map for it *)
  i_vals : env;         (* the external values it is mapped with *)
  i_value : pyval;
  i_size : Z
}.

(** [in_a_row orc bs off l e]: the values of [l] are mapped one after another from
    [off] on, and the last one ends at [e]. *)
Inductive in_a_row (orc : oracle) (bs : bytes) : Z -> list item -> Z -> Prop :=
| NoMore : forall off, in_a_row orc bs off [] off
| NextItem : forall off i l e,
    (exists fuel, SpecMap.maps orc fuel (i_map i) bs off (i_vals i) 0 (i_value i) (i_size i)) ->
    in_a_row orc bs (off + i_size i) l e -> in_a_row orc bs off (i :: l) e.

(** The values of [l] fit their definitions at the offsets where they come to lie
    if they are written one after another from [off] on. *)
Fixpoint fit_in_a_row (orc : oracle) (off : Z) (l : list item) : Prop :=
  match l with
  | [] => True
  | i :: r => fits orc (i_type i) off (i_vals i) (i_value i) (i_size i) /\ fit_in_a_row orc (off + i_size i) r
  end.

(** What C54 asks of a definition, a map and a value. *)
Definition writable_item (orc : oracle) (i : item) : Prop :=
  everywhere regular (i_type i) /\ folds_back orc (i_type i) /\ create orc (i_type i) None = Ok (Some (i_map i)) /\
  levels (i_type i) <= 11 /\ (everywhere no_single (i_type i) \/ no_nan (i_value i)) /\
  sizes_agree orc (i_type i) (i_vals i) [] (i_value i).

(** [b] is what folding the value of [i] gives. *)
Definition folded_as (orc : oracle) (i : item) (b : bytes) : Prop :=
  fst (foldbs orc (i_map i) (i_value i) None) = Ok (VBytes b).

(** There is a map for the definition. *)
Definition created_item (orc : oracle) (i : item) : Prop := everywhere sound (i_type i) /\ create orc (i_type i) None = Ok (Some (i_map i)).

(** Definitions without structure groups, and without elements that take up no space. *)
Definition plain_item (orc : oracle) (i : item) : Prop :=
  everywhere sound (i_type i) /\ create orc (i_type i) None = Ok (Some (i_map i)) /\
  all_maps no_group (i_map i) /\ all_maps (takes_space orc) (i_map i).

(** The same maps with the same external values; the values and sizes are open. *)
Definition same_map (i j : item) : Prop := i_map i = i_map j /\ i_vals i = i_vals j.
