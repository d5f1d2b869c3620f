(** Specification vocabulary for the ways in which a definition says how long a sequence,
    stream or string is. *)
From Coq Require Import String List ZArith Bool.
From Verif Require Import Base PyVal DataTypes DataMaps SpecPrim SpecMap.
Import ListNotations.
Open Scope Z_scope.

(** The sequence definition asks for as many elements as [vs] has: by a number of
    elements, a terminator or a data size. *)
Definition asks_for (orc : oracle) (e : elems) (el : dtype) (vals : env) (vs : list pyval) : Prop :=
  (has_data_size e = false /\ e_terminator e = None /\
   measure orc (e_number e) (e_number_expr e) vals (len vs)) \/
  (has_data_size e = false /\ exists t before w, e_terminator e = Some t /\ vs = before ++ [w] /\
   Forall (fun v => py_eq v t = false) before /\ py_eq w t = true) \/
  (has_data_size e = true /\ exists s b, get_byte_size el = Some b /\ 0 < b /\
   measure orc (e_data_size e) (e_data_size_expr e) vals s /\ len vs = s / b).

(** The stream definition asks for as many bytes as [l] has: by a data size, a number of
    elements or a terminator, which [l] then ends with and contains nowhere else. *)
Definition asks_for_bytes (orc : oracle) (e : elems) (el : dtype) (vals : env) (l : bytes) : Prop :=
  (~ unsized_stream e el /\ stream_size orc e el vals (len l)) \/
  (unsized_stream e el /\ exists t k, e_terminator e = Some (VBytes t) /\ first_at t l 0 k /\
   len l = (k + 1) * len t).
