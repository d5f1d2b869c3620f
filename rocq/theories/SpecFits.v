(** Which values a definition can hold, in terms of the definition alone: no bytes,
    maps, loops or struct formats occur here. *)
From Coq Require Import String List ZArith Bool.
From Verif Require Import Base PyVal PyStruct DataTypes ClassFactory DataMaps SpecPrim SpecMap SpecCreate SpecReads SpecFold.
Import ListNotations.
Open Scope Z_scope.

(** [fits orc d off vals v n]: [v] is a value of the definition [d] that takes [n]
    bytes when it is stored at offset [off]; expressions see [vals]. *)
Inductive fits (orc : oracle) : dtype -> Z -> env -> pyval -> Z -> Prop :=
| FitInteger : forall f u n z off vals,
    In n [1; 2; 4; 8] -> sized f n -> in_range (negb u) n z ->
    fits orc (DInteger f u) off vals (VInt z) n
| FitDouble : forall f w off vals,
    sized f 8 -> 0 <= w < 2 ^ 64 ->
    fits orc (DFloat f) off vals (VFloat w) 8
| FitSingle : forall f s w off vals,
    sized f 4 -> 0 <= s < 2 ^ 32 -> widened s w ->
    fits orc (DFloat f) off vals (VFloat w) 4
| FitUUID : forall f u off vals,
    sized f 16 -> f_bo f <> BONative -> len u = 16 ->
    fits orc (DUUID f) off vals (VUUID u) 16
| FitPadding : forall mt bo a b off vals,
    0 < a -> aligns a off (len b) ->
    fits orc (DPadding mt bo (Some a)) off vals (VBytes b) (len b)
(* as many numbers as the definition says *)
| FitCounted : forall e el rs off vals,
    number_type el -> has_data_size e = false -> e_terminator e = None ->
    measure orc (e_number e) (e_number_expr e) vals (len rs) ->
    fits_elements orc (element_type e el) off rs ->
    fits orc (DElems KSequence e el) off vals (VTuple (map fst rs)) (span rs)
(* as many numbers as fill the data size *)
| FitSized : forall e el s b rs off vals,
    number_type el -> has_data_size e = true -> get_byte_size el = Some b -> 0 < b ->
    measure orc (e_data_size e) (e_data_size_expr e) vals s -> len rs = s / b ->
    fits_elements orc (element_type e el) off rs ->
    fits orc (DElems KSequence e el) off vals (VTuple (map fst rs)) (span rs)
(* a stream of the given size *)
| FitStream : forall e el b off vals,
    ~ unsized_stream e el -> stream_size orc e el vals (len b) ->
    fits orc (DElems KStream e el) off vals (VBytes b) (len b)
(* a stream that ends with the terminator and has none before *)
| FitStreamTerminated : forall e el t k b off vals,
    unsized_stream e el -> e_terminator e = Some (VBytes t) ->
    first_at t b 0 k -> len b = (k + 1) * len t ->
    fits orc (DElems KStream e el) off vals (VBytes b) (len b)
| FitString : forall e el l r s n off vals,
    fits orc (DElems KStream e el) off vals (VBytes l) n ->
    text_part (e_terminator e) l r -> o_decode orc (e_encoding e) r = Some s ->
    fits orc (DElems KString e el) off vals (VStr s) n
| FitStructure : forall mt bo ms rs off vals,
    fits_members orc (m_name mt) bo (map dt_name ms) vals [] ms off rs ->
    fits orc (DStructure mt bo ms) off vals
      (VStruct (m_name mt) (combine (map dt_name ms) (map value_of rs))) (total rs)

with fits_elements (orc : oracle) : dtype -> Z -> list (pyval * Z) -> Prop :=
| FitNoElement : forall d off, fits_elements orc d off []
| FitElement : forall d off v n rs,
    fits orc d off [] v n -> fits_elements orc d (off + n) rs ->
    fits_elements orc d off ((v, n) :: rs)

(** The members [ms] after those that hold [done]: each is absent and its condition
    false, or its condition is true and its value fits and is a supported one. *)
with fits_members (orc : oracle)
    : string -> byte_order -> list string -> env -> list reading -> list dtype -> Z -> list reading -> Prop :=
| FitNoMember : forall cls bo names vals done off,
    fits_members orc cls bo names vals done [] off []
| FitPresent : forall cls bo names vals done m ms off v n rs,
    condition_is orc m (scope cls (partly cls names done) vals) true ->
    fits orc (used_type cls bo m) off (scope cls (partly cls names done) vals) v n ->
    allowed m v ->
    fits_members orc cls bo names vals (done ++ [Some (v, n)]) ms (off + n) rs ->
    fits_members orc cls bo names vals done (m :: ms) off (Some (v, n) :: rs)
| FitAbsent : forall cls bo names vals done m ms off rs,
    condition_is orc m (scope cls (partly cls names done) vals) false ->
    fits_members orc cls bo names vals (done ++ [None]) ms off rs ->
    fits_members orc cls bo names vals done (m :: ms) off (None :: rs).
