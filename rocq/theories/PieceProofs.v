(** A sequence or stream can be read in parts. *)
From Coq Require Import String List ZArith Bool Lia.
From Verif Require Import Base PyVal PyStruct DataTypes ClassFactory DataMaps.
From Verif Require Import BytesProofs SpecPrim PrimProofs SpecMap SpecCreate SpecReads SpecFold SpecGrow SpecRegroup SpecSize SpecExtent
  CreateProofs StreamProofs SteadyProofs SizeProofs FoldProofs ReadsProofs FitProofs TellProofs GrowProofs DisturbProofs RegroupProofs ExtentProofs.
Import ListNotations.
Open Scope Z_scope.
#[local] Arguments Z.mul : simpl never.
#[local] Arguments Z.add : simpl never.
#[local] Arguments Z.div : simpl never.

Lemma elements_split orc bs d a : forall off c, reads_elements orc bs d off (a ++ c) ->
  reads_elements orc bs d off a /\ reads_elements orc bs d (off + span a) c.
Proof.
  induction a as [|[v n] a IH]; intros off c R.
  - split; [constructor|]. unfold span. cbn. now rewrite Z.add_0_r.
  - inversion R; subst. change (span ((v, n) :: a)) with (n + span a). rewrite Z.add_assoc.
    edestruct IH as [A B]; [eassumption|]. split; [constructor; auto|exact B].
Qed.

Lemma elements_join orc bs d a : forall off c, reads_elements orc bs d off a -> reads_elements orc bs d (off + span a) c ->
  reads_elements orc bs d off (a ++ c).
Proof.
  induction a as [|[v n] a IH]; intros off c R S.
  - unfold span in S. cbn in S. now rewrite Z.add_0_r in S.
  - inversion R; subst. change (span ((v, n) :: a)) with (n + span a) in S. rewrite Z.add_assoc in S.
    cbn. constructor; auto.
Qed.

(** Consecutive elements are what a sequence that asks for them maps. *)
Lemma elements_maps orc e e' el m' bs off vals' depth rs :
  extensional orc -> e_bo e' = e_bo e -> (has_data_size e' = true -> everywhere exact el) ->
  everywhere regular (DElems KSequence e' el) -> create orc (DElems KSequence e' el) None = Ok (Some m') ->
  0 <= off <= len bs -> depth + levels (DElems KSequence e' el) <= 11 ->
  asks_for orc e' el vals' (map fst rs) -> reads_elements orc bs (element_type e el) off rs ->
  exists fuel, maps orc fuel m' bs off vals' depth (VTuple (map fst rs)) (span rs).
Proof.
  intros X B Ex R2 C2 Ho D A Q.
  apply (reading_maps orc _ m' bs off vals' depth _ (span rs) X R2 C2 Ho D).
  apply elements_twin with (d' := element_type e' el) in Q; [|now apply twin_element].
  destruct (element_map _ _ _ _ R2 C2) as (x & Cx). pose proof (regular_element _ _ _ R2) as Rx.
  apply (elements_asked orc bs e' el off vals' rs (match get_byte_size el with Some b => b | None => 0 end)); auto; [|lia|].
  - intros H o v k Hk Rd G.
    apply (reading_maps orc _ x bs o [] (1 - levels (element_type e' el)) v k X Rx Cx Hk) in Rd; [|lia]. destruct Rd as (fuel & Rd).
    eapply (exact_size orc fuel (element_type e' el)); eauto; [now apply regular_sound|apply exact_element; auto|now rewrite element_bytes|lia].
  - destruct A as [(H & _)|[(H & _)|(H & s & b & G & _)]]; auto. left. now rewrite G.
Qed.

Lemma maps_elements orc e el m bs off vals depth vs n :
  extensional orc -> everywhere regular (DElems KSequence e el) -> create orc (DElems KSequence e el) None = Ok (Some m) ->
  0 <= off <= len bs -> depth + levels (DElems KSequence e el) <= 11 ->
  (exists fuel, maps orc fuel m bs off vals depth (VTuple vs) n) ->
  exists rs, vs = map fst rs /\ n = span rs /\ reads_elements orc bs (element_type e el) off rs.
Proof.
  intros X R C Ho D M. apply (reading_maps orc _ m bs off vals depth _ n X R C Ho D) in M. now apply sequence_elements in M.
Qed.

(** C75: a sequence is its parts. *)
Lemma read_in_parts orc el e m vals e1 m1 vals1 e2 m2 vals2 bs off depth vs1 vs2 n :
  extensional orc -> e_bo e1 = e_bo e -> e_bo e2 = e_bo e ->
  (has_data_size e || has_data_size e1 || has_data_size e2 = true -> everywhere exact el) ->
  everywhere regular (DElems KSequence e el) -> create orc (DElems KSequence e el) None = Ok (Some m) ->
  everywhere regular (DElems KSequence e1 el) -> create orc (DElems KSequence e1 el) None = Ok (Some m1) ->
  everywhere regular (DElems KSequence e2 el) -> create orc (DElems KSequence e2 el) None = Ok (Some m2) ->
  asks_for orc e el vals (vs1 ++ vs2) -> asks_for orc e1 el vals1 vs1 -> asks_for orc e2 el vals2 vs2 ->
  0 <= off <= len bs -> depth + levels (DElems KSequence e el) <= 11 ->
  ((exists fuel, maps orc fuel m bs off vals depth (VTuple (vs1 ++ vs2)) n) <->
   exists n1 n2, n = n1 + n2 /\
     (exists fuel, maps orc fuel m1 bs off vals1 depth (VTuple vs1) n1) /\
     (exists fuel, maps orc fuel m2 bs (off + n1) vals2 depth (VTuple vs2) n2)).
Proof.
  intros X B1 B2 Ex R C R1 C1 R2 C2 A A1 A2 Ho D.
  assert (Ee : has_data_size e = true -> everywhere exact el) by (intros H; apply Ex; now rewrite H).
  assert (Ee1 : has_data_size e1 = true -> everywhere exact el) by (intros H; apply Ex; now rewrite H, orb_true_r).
  assert (Ee2 : has_data_size e2 = true -> everywhere exact el) by (intros H; apply Ex; now rewrite H, orb_true_r).
  split.
  - intros M. apply maps_elements with (e := e) (el := el) in M; auto. destruct M as (rs & E & -> & Q).
    symmetry in E. apply map_eq_app in E. destruct E as (a & c & -> & <- & <-).
    apply elements_split in Q. destruct Q as [Qa Qc].
    exists (span a), (span c). split; [apply span_app|].
    assert (M1 : exists fuel, maps orc fuel m1 bs off vals1 depth (VTuple (map fst a)) (span a)).
    { eapply elements_maps with (e := e) (e' := e1); eauto. }
    split; [exact M1|]. pose proof (inside _ _ _ _ _ _ _ _ _ X R1 C1 Ho M1) as [P I].
    eapply elements_maps with (e := e) (e' := e2); eauto. lia.
  - intros (n1 & n2 & -> & M1 & M2). pose proof (inside _ _ _ _ _ _ _ _ _ X R1 C1 Ho M1) as [P I].
    apply maps_elements with (e := e1) (el := el) in M1; auto. destruct M1 as (a & -> & -> & Qa).
    apply maps_elements with (e := e2) (el := el) in M2; auto; [|lia]. destruct M2 as (c & -> & -> & Qc).
    rewrite <- map_app, <- span_app. rewrite <- map_app in A.
    eapply elements_maps with (e := e) (e' := e); eauto. apply elements_join.
    + eapply elements_twin; [exact Qa|]. now apply twin_element.
    + eapply elements_twin; [exact Qc|]. now apply twin_element.
Qed.

Lemma window_two (bs : bytes) off a c : 0 <= off -> 0 <= a -> 0 <= c -> off + a + c <= len bs ->
  window bs off (a + c) = window bs off a ++ window bs (off + a) c.
Proof.
  intros Ho Ha Hc L. unfold window. rewrite Z2Nat.inj_add by lia.
  rewrite <- (firstn_skipn (Z.to_nat a) (firstn (Z.to_nat a + Z.to_nat c) (skipn (Z.to_nat off) bs))).
  rewrite firstn_firstn, Nat.min_l by lia. f_equal.
  rewrite skipn_firstn_comm. replace (Z.to_nat a + Z.to_nat c - Z.to_nat a)%nat with (Z.to_nat c) by lia. f_equal.
  rewrite Z2Nat.inj_add by lia. generalize (Z.to_nat off) as k. intros k. clear. revert bs. induction k as [|k IH]; intros bs; [reflexivity|].
  destruct bs; [now rewrite skipn_nil|]. cbn. apply IH.
Qed.

(** C75: a stream is its parts. *)
Lemma streamed_in_parts orc el e m vals el1 e1 m1 vals1 el2 e2 m2 vals2 bs off depth l1 l2 n :
  extensional orc ->
  everywhere regular (DElems KStream e el) -> create orc (DElems KStream e el) None = Ok (Some m) ->
  everywhere regular (DElems KStream e1 el1) -> create orc (DElems KStream e1 el1) None = Ok (Some m1) ->
  everywhere regular (DElems KStream e2 el2) -> create orc (DElems KStream e2 el2) None = Ok (Some m2) ->
  asks_for_bytes orc e el vals (l1 ++ l2) -> asks_for_bytes orc e1 el1 vals1 l1 -> asks_for_bytes orc e2 el2 vals2 l2 ->
  0 <= off <= len bs -> depth <= 11 ->
  ((exists fuel, maps orc fuel m bs off vals depth (VBytes (l1 ++ l2)) n) <->
   exists n1 n2, n = n1 + n2 /\
     (exists fuel, maps orc fuel m1 bs off vals1 depth (VBytes l1) n1) /\
     (exists fuel, maps orc fuel m2 bs (off + n1) vals2 depth (VBytes l2) n2)).
Proof.
  intros X R C R1 C1 R2 C2 A A1 A2 Ho D.
  assert (L : forall e el m vals off l n, everywhere regular (DElems KStream e el) -> create orc (DElems KStream e el) None = Ok (Some m) ->
    0 <= off <= len bs -> asks_for_bytes orc e el vals l ->
    ((exists fuel, maps orc fuel m bs off vals depth (VBytes l) n) <-> 0 <= n /\ off + n <= len bs /\ l = window bs off n)).
  { clear - X D. intros e el m vals off l n R C Ho A. split.
    - intros M. pose proof (inside _ _ _ _ _ _ _ _ _ X R C Ho M) as [P I].
      apply (reading_maps orc _ m bs off vals depth _ n X R C Ho) in M; [|cbn; lia].
      pose proof (stream_window _ _ _ _ _ _ _ _ M) as E. injection E as E. auto.
    - intros (P & I & ->). apply (reading_maps orc _ m bs off vals depth _ n X R C Ho); [cbn; lia|]. apply stream_asked; auto. lia. }
  rewrite (L e el m vals off (l1 ++ l2) n R C Ho A). split.
  - intros (P & I & E).
    assert (N : n = len l1 + len l2).
    { unfold len at 1 2. rewrite <- Nat2Z.inj_add, <- app_length, E. fold (len (window bs off n)). rewrite window_len by lia. lia. }
    pose proof (len_nonneg l1). pose proof (len_nonneg l2).
    rewrite N, window_two in E by lia.
    assert (W : len (window bs off (len l1)) = len l1) by (rewrite window_len; lia).
    assert (S : l1 = window bs off (len l1) /\ l2 = window bs (off + len l1) (len l2)).
    { apply app_eq_app in E. destruct E as (q & [(E1 & E2)|(E1 & E2)]).
      - assert (q = []). { destruct q; auto. apply (f_equal len) in E1. rewrite len_app, len_cons in E1. pose proof (len_nonneg q). lia. }
        subst q. rewrite app_nil_r in E1. auto.
      - assert (q = []). { destruct q; auto. apply (f_equal len) in E1. rewrite len_app, len_cons in E1. pose proof (len_nonneg q). lia. }
        subst q. rewrite app_nil_r in E1. auto. }
    exists (len l1), (len l2). split; [exact N|].
    rewrite (L e1 el1 m1 vals1 off l1 (len l1) R1 C1 Ho A1).
    rewrite (L e2 el2 m2 vals2 (off + len l1) l2 (len l2) R2 C2) by (auto; lia).
    destruct S. repeat split; auto; lia.
  - intros (n1 & n2 & -> & M1 & M2). rewrite (L e1 el1 m1 vals1 off l1 n1 R1 C1 Ho A1) in M1. destruct M1 as (P1 & I1 & ->).
    rewrite (L e2 el2 m2 vals2 (off + n1) l2 n2 R2 C2) in M2 by (auto; lia). destruct M2 as (P2 & I2 & ->).
    split; [lia|]. split; [lia|]. now rewrite window_two by lia.
Qed.
