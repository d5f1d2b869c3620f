(** Values one after another. *)
From Coq Require Import String List ZArith Bool Lia.
From Verif Require Import Base PyVal DataTypes ClassFactory DataMaps.
From Verif Require Import BytesProofs SpecMap SpecCreate SpecReads SpecFold SpecFits SpecRecords SpecPrim PrimProofs
  SpecShift WindowProofs TruncProofs FitProofs FoldProofs ShiftProofs FuelProofs ReadsProofs.
Import ListNotations.
Open Scope Z_scope.
#[local] Arguments Z.add : simpl never.

Lemma maps_more orc m fuel fuel' bs off vals depth v n : (fuel <= fuel')%nat ->
  SpecMap.maps orc fuel m bs off vals depth v n -> SpecMap.maps orc fuel' m bs off vals depth v n.
Proof.
  intros L (c & E & S). exists c. split; auto. apply (fuel_irrelevant orc m fuel fuel' _ _ _ _ _ E); auto. discriminate.
Qed.

Lemma maps_alike orc m fuel fuel' bs off vals depth v n v' n' :
  SpecMap.maps orc fuel m bs off vals depth v n -> SpecMap.maps orc fuel' m bs off vals depth v' n' -> v = v' /\ n = n'.
Proof.
  intros M M'. apply (maps_more _ _ _ (Nat.max fuel fuel')) in M; [|lia]. apply (maps_more _ _ _ (Nat.max fuel fuel')) in M'; [|lia].
  eapply StructProofs.maps_det; eauto.
Qed.

Lemma item_inside orc i bs off : extensional orc -> everywhere sound (i_type i) -> create orc (i_type i) None = Ok (Some (i_map i)) ->
  0 <= off <= len bs -> (exists fuel, SpecMap.maps orc fuel (i_map i) bs off (i_vals i) 0 (i_value i) (i_size i)) ->
  0 <= i_size i /\ off + i_size i <= len bs.
Proof.
  intros X E C Ho (fuel & M). destruct (mapping_footprint orc fuel _ _ bs off _ _ _ _ X E C Ho M) as (r & A & B & _). lia.
Qed.

(** *** Writing and reading back *)

Lemma records_written orc l off : extensional orc -> Forall (writable_item orc) l -> 0 <= off -> fit_in_a_row orc off l ->
  exists bl, Forall2 (folded_as orc) l bl /\
    forall pre post, len pre = off -> in_a_row orc (pre ++ concat bl ++ post) off l (off + len (concat bl)).
Proof.
  intros X F. revert off. induction F as [|i l W F IH]; intros off Ho R.
  - exists []. split; [constructor|]. intros pre post L. cbn [concat]. rewrite len_nil, Z.add_0_r. constructor.
  - destruct R as [R1 R2]. destruct W as (W1 & W2 & W3 & W4 & W5 & W6).
    destruct (fits_folds orc (i_type i) (i_map i) off (i_vals i) (i_value i) (i_size i) X W1 W2 W3 W4 Ho R1 W5 None) as (b & B1 & B2 & B3); [exact I|exact W6|].
    assert (0 <= i_size i) by (rewrite <- B2; apply len_nonneg).
    destruct (IH (off + i_size i)) as (bl & G1 & G2); [lia|exact R2|].
    exists (b :: bl). split; [constructor; auto|]. intros pre post L. cbn [concat]. rewrite len_app, B2, Z.add_assoc. constructor.
    + rewrite <- app_assoc. apply B3. exact L.
    + replace (pre ++ (b ++ concat bl) ++ post) with ((pre ++ b) ++ concat bl ++ post) by now rewrite !app_assoc.
      apply G2. rewrite len_app. lia.
Qed.

Lemma records_read orc l bs off e : extensional orc -> Forall (writable_item orc) l -> 0 <= off <= len bs -> in_a_row orc bs off l e ->
  off <= e <= len bs /\ exists bl, Forall2 (folded_as orc) l bl /\ concat bl = window bs off (e - off).
Proof.
  intros X F. revert off. induction F as [|i l W F IH]; intros off Ho R; inversion R; subst.
  - split; [lia|]. exists []. split; [constructor|]. rewrite Z.sub_diag. reflexivity.
  - destruct W as (W1 & W2 & W3 & W4 & W5 & W6). pose proof (regular_sound _ W1) as S1.
    destruct (item_inside orc i bs off X S1 W3 Ho) as [N L]; auto.
    destruct (IH (off + i_size i)) as (G0 & bl & G1 & G2); [lia|auto|]. split; [lia|].
    match goal with H : exists fuel, _ |- _ => destruct H as (fuel & M) end.
    exists (window bs off (i_size i) :: bl). split.
    + constructor; auto. unfold folded_as. eapply (map_then_fold orc fuel (i_type i) (i_map i)); eauto; try lia; exact I.
    + cbn [concat]. rewrite G2. rewrite <- window_plus by lia. f_equal. lia.
Qed.

Lemma records_alike orc bs l l' off e e' : Forall2 same_map l l' -> in_a_row orc bs off l e -> in_a_row orc bs off l' e' ->
  map i_value l = map i_value l' /\ map i_size l = map i_size l' /\ e = e'.
Proof.
  intros F. revert off. induction F as [|i j l l' [S1 S2] F IH]; intros off R R'.
  - inversion R; inversion R'; subst; auto.
  - inversion R as [|? ? ? ? M1 Q1]; inversion R' as [|? ? ? ? M2 Q2]; subst. destruct M1 as (f1 & M1). destruct M2 as (f2 & M2). rewrite <- S1, <- S2 in M2.
    destruct (maps_alike _ _ _ _ _ _ _ _ _ _ _ _ M1 M2) as [V N]. rewrite <- N in Q2. destruct (IH _ Q1 Q2) as (A & B & C). cbn. rewrite V, N. split; [congruence|]. split; congruence.
Qed.

(** *** Streams that end early *)

Lemma records_cut orc l bs off e k : extensional orc -> Forall (plain_item orc) l -> 0 <= off <= k -> k <= len bs -> in_a_row orc bs off l e ->
  exists before after o, l = before ++ after /\ in_a_row orc (firstn (Z.to_nat k) bs) off before o /\ o <= k /\
    ((after = [] /\ o = e) \/
     exists i rest, after = i :: rest /\ k < o + i_size i /\
       (forall fuel v, fst (mapbs orc fuel (i_map i) (firstn (Z.to_nat k) bs) o (Some (ctx_new (i_vals i))) 0) <> Ok v) /\
       exists least, forall fuel, (least <= fuel)%nat ->
         SpecMap.fails orc fuel (i_map i) (firstn (Z.to_nat k) bs) o (i_vals i) 0 ByteStreamTooSmallError).
Proof.
  intros X F. revert off. induction F as [|i l W F IH]; intros off Ho Hk R.
  - inversion R; subst. exists [], [], e. split; auto. split; [constructor|]. split; [lia|]. now left.
  - inversion R as [|? ? ? ? M R2]; subst. destruct W as (W1 & W2 & W3 & W4).
    destruct (item_inside orc i bs off X W1 W2) as [N L]; auto; [lia|].
    destruct M as (f & M).
    destruct (Z_le_gt_dec (off + i_size i) k) as [C|C].
    + destruct (IH (off + i_size i)) as (b & a & o & -> & A1 & A2 & A3); [lia|lia|auto|].
      exists (i :: b), a, o. split; [reflexivity|]. split; [|auto]. constructor; [|exact A1]. exists f.
      eapply (mapping_window_exact orc f (i_type i) (i_map i) bs off); eauto; [lia|rewrite len_firstn; lia|].
      rewrite <- (firstn_skipn (Z.to_nat k) bs) at 2. symmetry. apply WindowProofs.window_app; try lia. rewrite len_firstn. lia.
    + exists [], (i :: l), off. split; auto. split; [constructor|]. split; [lia|]. right. exists i, l. split; auto. split; [lia|].
      split.
      * intros fuel v Q. set (g := Nat.max f fuel).
        apply (maps_more _ _ _ g) in M; [|unfold g; lia].
        destruct (truncated orc g (i_type i) (i_map i) bs off (i_vals i) 0 (i_value i) (i_size i) k X W1 W2 M) as (T & _); try lia.
        apply (T v). rewrite (fuel_irrelevant orc (i_map i) fuel g _ _ _ _ _ eq_refl); [exact Q| |unfold g; lia]. rewrite Q. discriminate.
      * exists (Nat.max f (S (Z.to_nat (k - off)))). intros fuel Lf.
        apply (maps_more _ _ _ fuel) in M; [|lia].
        destruct (truncated orc fuel (i_type i) (i_map i) bs off (i_vals i) 0 (i_value i) (i_size i) k X W1 W2 M) as (_ & _ & T); try lia.
        apply T; auto. lia.
Qed.

(** *** Streams put together *)

Lemma row_app orc bs l1 l2 off m e : in_a_row orc bs off l1 m -> in_a_row orc bs m l2 e -> in_a_row orc bs off (l1 ++ l2) e.
Proof. induction 1; cbn; auto. intros R. constructor; auto. Qed.

Lemma row_longer orc bs s l off e : extensional orc -> Forall (created_item orc) l -> 0 <= off <= len bs ->
  in_a_row orc bs off l e -> in_a_row orc (bs ++ s) off l e.
Proof.
  intros X F. revert off. induction F as [|i l [W1 W2] F IH]; intros off Ho R; inversion R; subst; [constructor|].
  destruct (item_inside orc i bs off X W1 W2) as [N L]; auto.
  match goal with H : exists fuel, _ |- _ => destruct H as (fuel & M) end.
  constructor; [|apply IH; auto; lia]. exists fuel. apply (mapping_monotone orc fuel (i_type i)); auto.
Qed.

Lemma row_moved orc pre bs l off e : extensional orc -> Forall (created_item orc) l -> Forall (fun i => everywhere (keeps_alignment (len pre)) (i_type i)) l ->
  0 <= off <= len bs -> in_a_row orc bs off l e -> in_a_row orc (pre ++ bs) (len pre + off) l (len pre + e).
Proof.
  intros X F. revert off. induction F as [|i l [W1 W2] F IH]; intros off K Ho R; inversion R; subst; [constructor|].
  inversion K; subst. destruct (item_inside orc i bs off X W1 W2) as [N L]; auto.
  match goal with H : exists fuel, _ |- _ => destruct H as (fuel & c & M & S) end.
  constructor.
  - exists fuel, c. split; auto. rewrite (mapping_moves orc fuel (i_type i)); auto. repeat split; reflexivity.
  - replace (len pre + off + i_size i) with (len pre + (off + i_size i)) by lia. apply IH; auto. lia.
Qed.

Lemma records_joined orc bs1 bs2 l1 l2 e : extensional orc -> Forall (created_item orc) (l1 ++ l2) ->
  Forall (fun i => everywhere (keeps_alignment (len bs1)) (i_type i)) l2 ->
  in_a_row orc bs1 0 l1 (len bs1) -> in_a_row orc bs2 0 l2 e -> in_a_row orc (bs1 ++ bs2) 0 (l1 ++ l2) (len bs1 + e).
Proof.
  intros X F K R1 R2. apply Forall_app in F as [F1 F2]. apply (row_app orc _ l1 l2 0 (len bs1)).
  - apply row_longer; auto. pose proof (len_nonneg bs1). lia.
  - replace (len bs1) with (len bs1 + 0) at 1 by lia. apply row_moved; auto. pose proof (len_nonneg bs2). lia.
Qed.
