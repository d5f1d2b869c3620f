(** C84: values one after another in a stream, such as a header and records. *)
From Coq Require Import String Ascii List ZArith Bool Lia.
From Verif Require Import Base PyVal PyStruct DataTypes ClassFactory DataMaps Expr Demo SpecPrim SpecMap SpecCreate SpecReads SpecFold SpecFits SpecShift SpecRecords RecordsProofs DemoProofs RecordsWitness.
Import ListNotations.
Open Scope string_scope.
Open Scope list_scope.
Open Scope Z_scope.

(** C84. The bytes of values that fit, put one after another anywhere in a stream, are read back one after another. *)
Theorem C84_written : forall orc l off,
  extensional orc -> Forall (writable_item orc) l -> 0 <= off -> fit_in_a_row orc off l ->
  exists bl, Forall2 (folded_as orc) l bl /\
    forall pre post, len pre = off -> in_a_row orc (pre ++ concat bl ++ post) off l (off + len (concat bl)).
Proof. exact RecordsProofs.records_written. Qed.
Print Assumptions C84_written.

Example C84_example_written : exists bl, Forall2 (folded_as demo) file_items bl /\
  forall pre post, len pre = 0 -> in_a_row demo (pre ++ concat bl ++ post) 0 file_items (0 + len (concat bl)).
Proof. exact (C84_written demo file_items 0 extensional_demo file_writable (Z.le_refl 0) file_fit). Qed.

(** C84. Folding values that were read one after another gives the bytes that were read. *)
Theorem C84_read : forall orc l bs off e,
  extensional orc -> Forall (writable_item orc) l -> 0 <= off <= len bs -> in_a_row orc bs off l e ->
  off <= e <= len bs /\ exists bl, Forall2 (folded_as orc) l bl /\ concat bl = window bs off (e - off).
Proof. exact RecordsProofs.records_read. Qed.
Print Assumptions C84_read.

Example C84_example_read : 0 <= 9 <= len file_bytes /\
  exists bl, Forall2 (folded_as demo) file_items bl /\ concat bl = window file_bytes 0 (9 - 0).
Proof. exact (C84_read demo file_items file_bytes 0 9 extensional_demo file_writable file_offset file_row). Qed.

(** C84. The values, their sizes and where they end depend on the stream and the maps only. *)
Theorem C84_alike : forall orc bs l l' off e e',
  Forall2 same_map l l' -> in_a_row orc bs off l e -> in_a_row orc bs off l' e' ->
  map i_value l = map i_value l' /\ map i_size l = map i_size l' /\ e = e'.
Proof. exact RecordsProofs.records_alike. Qed.
Print Assumptions C84_alike.

Example C84_example_alike : in_a_row demo file_bytes 0 file_items 9 /\ Forall2 same_map file_items file_items.
Proof. split; [exact file_row|exact file_same]. Qed.

(** C84. From a stream that ends early the values before the end are read as before, and the next one raises ByteStreamTooSmallError. *)
Theorem C84_cut : forall orc l bs off e k,
  extensional orc -> Forall (plain_item orc) l -> 0 <= off <= k -> k <= len bs -> in_a_row orc bs off l e ->
  exists before after o, l = before ++ after /\ in_a_row orc (firstn (Z.to_nat k) bs) off before o /\ o <= k /\
    ((after = [] /\ o = e) \/
     exists i rest, after = i :: rest /\ k < o + i_size i /\
       (forall fuel v, fst (mapbs orc fuel (i_map i) (firstn (Z.to_nat k) bs) o (Some (ctx_new (i_vals i))) 0) <> Ok v) /\
       exists least, forall fuel, (least <= fuel)%nat ->
         SpecMap.fails orc fuel (i_map i) (firstn (Z.to_nat k) bs) o (i_vals i) 0 ByteStreamTooSmallError).
Proof. exact RecordsProofs.records_cut. Qed.
Print Assumptions C84_cut.

(** The stream ends inside of the first record. *)
Example C84_example_cut : exists before after o, file_items = before ++ after /\
  in_a_row demo (firstn (Z.to_nat 6) file_bytes) 0 before o /\ o <= 6 /\
  ((after = [] /\ o = 9) \/
   exists i rest, after = i :: rest /\ 6 < o + i_size i /\
     (forall fuel v, fst (mapbs demo fuel (i_map i) (firstn (Z.to_nat 6) file_bytes) o (Some (ctx_new (i_vals i))) 0) <> Ok v) /\
     exists least, forall fuel, (least <= fuel)%nat ->
       SpecMap.fails demo fuel (i_map i) (firstn (Z.to_nat 6) file_bytes) o (i_vals i) 0 ByteStreamTooSmallError).
Proof. exact (C84_cut demo file_items file_bytes 0 9 6 extensional_demo file_plain (proj1 file_cut) (proj2 file_cut) file_row). Qed.

(** C84. Two streams put together give the values of the first and then those of the second. *)
Theorem C84_joined : forall orc bs1 bs2 l1 l2 e,
  extensional orc -> Forall (created_item orc) (l1 ++ l2) ->
  Forall (fun i => everywhere (keeps_alignment (len bs1)) (i_type i)) l2 ->
  in_a_row orc bs1 0 l1 (len bs1) -> in_a_row orc bs2 0 l2 e -> in_a_row orc (bs1 ++ bs2) 0 (l1 ++ l2) (len bs1 + e).
Proof. exact RecordsProofs.records_joined. Qed.
Print Assumptions C84_joined.

Example C84_example_joined : in_a_row demo (file_bytes ++ bs [2; 80; 81]) 0 (file_items ++ [rec_item [80; 81]]) (len file_bytes + 3).
Proof.
  exact (C84_joined demo file_bytes (bs [2; 80; 81]) file_items [rec_item [80; 81]] 3
    extensional_demo file_items_created more_aligned file_row more_row).
Qed.
