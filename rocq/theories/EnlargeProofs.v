(** Structure groups with more structures, or with structures in another order. *)
From Coq Require Import String List ZArith Bool Lia Permutation.
From Verif Require Import Base PyVal PyStruct DataTypes ClassFactory DataMaps.
From Verif Require Import BytesProofs SpecPrim PrimProofs SpecMap SpecCreate SpecReads SpecEnlarge
  CreateProofs ReadsProofs FitProofs TellProofs GrowProofs DisturbProofs SteadyProofs FilterProofs.
From Verif Require EqualProofs SpecMake MakeProofs.
Import ListNotations.
Open Scope Z_scope.
#[local] Arguments Z.add : simpl never.

(** *** Equality of values *)

Lemma eq_meets a : forall b c, py_eq a b = true -> py_eq a c = true -> py_eq b c = true.
Proof.
  revert a. fix IH 1. intros a b c H1 H2.
  destruct (EqualProofs.is_num (EqualProofs.pnum a)) eqn:N.
  - apply (EqualProofs.py_eq_num _ _ N) in H1, H2. pose proof (EqualProofs.is_num_neq _ _ H1) as Nb.
    apply (EqualProofs.py_eq_num _ _ Nb). eapply EqualProofs.neq_trans; [apply EqualProofs.neq_sym; exact H1|exact H2].
  - destruct a; try discriminate N;
      try (exfalso; cbn [EqualProofs.pnum] in N; unfold EqualProofs.fnum in N; match type of N with context [Ieee.ieee_decode ?p ?q ?x] => destruct (Ieee.ieee_decode p q x); discriminate end);
      destruct b; cbn [py_eq] in H1; try discriminate H1;
      destruct c; cbn [py_eq] in H2; try discriminate H2; cbn [py_eq].
    + reflexivity.
    + apply EqualProofs.list_eqb_Z_iff in H1, H2. apply EqualProofs.list_eqb_Z_iff. congruence.
    + apply bytes_eqb_eq in H1, H2. apply bytes_eqb_eq. congruence.
    + apply bytes_eqb_eq in H1, H2. apply bytes_eqb_eq. congruence.
    + clear N. revert l0 l1 H1 H2. induction l as [|x l IHl]; intros [|y l0] [|z l1] H1 H2;
        try discriminate H1; try discriminate H2; try reflexivity.
      apply andb_true_iff in H1, H2. destruct H1 as [A1 A2], H2 as [B1 B2].
      apply andb_true_iff. split; [exact (IH x y z A1 B1)|exact (IHl _ _ A2 B2)].
    + reflexivity.
Qed.

Lemma different_split a x b w1 w2 id : SpecMake.all_different (a ++ x ++ b) -> In w1 (a ++ b) -> In w2 x ->
  py_eq id w1 = true -> py_eq id w2 = true -> False.
Proof.
  unfold SpecMake.all_different. intros D I1 I2 E1 E2.
  assert (G : forall l1 l2, ForallOrdPairs (fun a b => py_eq b a = false) (l1 ++ l2) -> forall u v, In u l1 -> In v l2 -> py_eq v u = false).
  { clear. induction l1 as [|h l1 IH]; intros l2 F u v Iu Iv; [destruct Iu|]. cbn in F. inversion F as [|? ? F1 F2]; subst.
    destruct Iu as [->|Iu]; [|eapply IH; eauto]. rewrite Forall_forall in F1. apply F1. apply in_or_app. now right. }
  apply in_app_or in I1. destruct I1 as [I1|I1].
  - assert (Q : py_eq w2 w1 = false) by (apply (G a (x ++ b) D); auto; apply in_or_app; now left).
    rewrite (eq_meets id w2 w1 E2 E1) in Q. discriminate.
  - rewrite app_assoc in D. assert (Q : py_eq w1 w2 = false) by (apply (G (a ++ x) b D); auto; apply in_or_app; now right).
    rewrite (eq_meets id w1 w2 E1 E2) in Q. discriminate.
Qed.

(** *** What stays as it is *)

Lemma enlarged_refl_list ms : Forall2 enlarged ms ms.
Proof. induction ms; constructor; auto using AsBefore. Qed.

Lemma enlarged_elems k e el d' : enlarged (DElems k e el) d' -> exists el', d' = DElems k e el' /\ enlarged el el'.
Proof. intros E. inversion E; subst; eauto using AsBefore. Qed.
Lemma enlarged_structure mt bo ms d' : enlarged (DStructure mt bo ms) d' -> exists ms', d' = DStructure mt bo ms' /\ Forall2 enlarged ms ms'.
Proof. intros E. inversion E; subst; eauto using enlarged_refl_list. Qed.
Lemma enlarged_group mt bo base i df ms d' : enlarged (DGroup mt bo base i df ms) d' ->
  exists base' df' ms' more all, d' = DGroup mt bo base' i df' all /\ enlarged base base' /\ Forall2 enlarged ms ms' /\ Permutation all (ms' ++ more) /\
    (df = None \/ more = [] /\ exists x y, df = Some x /\ df' = Some y /\ enlarged x y).
Proof.
  intros E. inversion E; subst.
  - exists base, df, ms, [], ms. rewrite app_nil_r. repeat split; auto using AsBefore, enlarged_refl_list.
    destruct df as [x|]; [right|now left]. split; auto. exists x, x. auto using AsBefore.
  - eexists _, _, _, _, _. repeat split; eauto.
  - eexists _, _, _, [], _. rewrite app_nil_r. repeat split; eauto. right. split; auto. eauto.
Qed.

Lemma name_enlarged d d' : enlarged d d' -> dt_name d' = dt_name d.
Proof. now destruct 1. Qed.
Lemma names_enlarged ms ms' : Forall2 enlarged ms ms' -> map dt_name ms' = map dt_name ms.
Proof. induction 1; cbn; auto. f_equal; auto using name_enlarged. Qed.
Lemma order_enlarged d d' : enlarged d d' -> dt_byte_order d' = dt_byte_order d.
Proof. now destruct 1. Qed.
Lemma align_enlarged d d' : enlarged d d' -> pad_align d' = pad_align d.
Proof. now destruct 1. Qed.
Lemma cond_enlarged d d' : enlarged d d' -> member_cond d' = member_cond d.
Proof. now destruct 1. Qed.
Lemma values_enlarged d d' : enlarged d d' -> member_values d' = member_values d.
Proof. now destruct 1. Qed.
Lemma composite_enlarged d d' : enlarged d d' -> is_composite d' = is_composite d.
Proof. induction 1; auto. cbn. now rewrite IHenlarged. Qed.
Lemma type_enlarged m m' : enlarged m m' -> enlarged (type_of m) (type_of m').
Proof. intros E. inversion E; subst; auto using AsBefore; cbn; econstructor; eauto. Qed.
Lemma copy_enlarged n b d d' : enlarged d d' -> enlarged (set_name_bo n b d) (set_name_bo n b d').
Proof. intros E. inversion E; subst; cbn; try (now constructor); econstructor; eauto. Qed.

Lemma used_enlarged c bo m m' : enlarged m m' -> enlarged (used_type c bo m) (used_type c bo m').
Proof.
  intros E. apply type_enlarged in E. unfold used_type. rewrite (order_enlarged _ _ E), (name_enlarged _ _ E).
  destruct bo; auto; destruct (dt_byte_order (type_of m)) as [[]|]; auto using copy_enlarged.
Qed.
Lemma element_enlarged e d d' : enlarged d d' -> enlarged (element_type e d) (element_type e d').
Proof.
  intros E. unfold element_type. rewrite (order_enlarged _ _ E), (name_enlarged _ _ E), (composite_enlarged _ _ E).
  destruct (e_bo e); auto; destruct (dt_byte_order d) as [[]|]; auto; destruct (is_composite d); auto using copy_enlarged.
Qed.

Lemma size_enlarged : forall d d', enlarged d d' -> get_byte_size d' = get_byte_size d.
Proof.
  fix IH 3. intros d d' E. destruct E; try reflexivity.
  - cbn. now rewrite (IH _ _ E).
  - cbn. assert (G : forall acc, (fix go (l : list dtype) (acc : Z) : option Z :=
             match l with [] => Some acc | m :: r => match struct_size_step acc (pad_align m) (get_byte_size m) with Some a => go r a | None => None end end) ms' acc
        = (fix go (l : list dtype) (acc : Z) : option Z :=
             match l with [] => Some acc | m :: r => match struct_size_step acc (pad_align m) (get_byte_size m) with Some a => go r a | None => None end end) ms acc).
    { revert ms ms' H. fix IL 3. intros ms ms' F. destruct F; intros acc; [reflexivity|].
      rewrite (align_enlarged _ _ H), (IH _ _ H). destruct (struct_size_step _ _ _); auto. }
    destruct H; [reflexivity|]. exact (G 0).
  - cbn. now rewrite (IH _ _ E).
Qed.

Lemma lists_enlarged i x x' vs : enlarged x x' -> (lists i x vs <-> lists i x' vs).
Proof.
  intros E. inversion E; subst; try tauto; try (split; intros (? & ? & ? & ? & ? & ? & ? & ? & [Q|Q] & _); discriminate Q).
  split; intros (mt1 & bo1 & ms1 & m1 & bo' & c & ty & inner & [Q|Q] & I0 & N); try discriminate Q; injection Q as <- <- <-.
  - assert (G : exists i', In (DMember m1 bo' c ty (Some vs) i') ms').
    { clear -H I0. induction H as [|a b l l' A F IH]; [destruct I0|]. destruct I0 as [-> |I0].
      - inversion A; subst; eexists; left; reflexivity.
      - destruct (IH I0) as (j & J). exists j. now right. }
    destruct G as (i' & G). exists mt, bo, ms', m1, bo', c, ty, i'. auto.
  - assert (G : exists i', In (DMember m1 bo' c ty (Some vs) i') ms).
    { clear -H I0. induction H as [|a b l l' A F IH]; [destruct I0|]. destruct I0 as [-> |I0].
      - inversion A; subst; eexists; left; reflexivity.
      - destruct (IH I0) as (j & J). exists j. now right. }
    destruct G as (i' & G). exists mt, bo, ms, m1, bo', c, ty, i'. auto.
Qed.

(** *** The structure that a group selects *)

Lemma app_inj_len {A} (a c b d : list A) : List.length a = List.length c -> a ++ b = c ++ d -> a = c /\ b = d.
Proof.
  revert c. induction a as [|x a IH]; intros [|y c] L E; try discriminate; auto. cbn in E. injection E as -> E.
  destruct (IH c) as [-> ->]; auto.
Qed.

Lemma selects_enlarged orc i df df' ms ms' more all id d mt bo base :
  Forall2 enlarged ms ms' -> Permutation all (ms' ++ more) ->
  (df = None \/ more = [] /\ exists x y, df = Some x /\ df' = Some y /\ enlarged x y) ->
  orderly (DGroup mt bo base i df' all) -> SpecMake.mappable orc (DGroup mt bo base i df' all) ->
  selects i df ms id d ->
  exists d', selects i df' all id d' /\ enlarged d d' /\ SpecMake.mappable orc d' /\ (In d' all \/ df' = Some d').
Proof.
  intros F P Df O M [(before & after & -> & H & NB)|[N ->]].
  - apply Forall2_app_inv_l in F. destruct F as (b' & r' & F1 & F2 & ->). inversion F2 as [|? d' ? a' E F3]; subst.
    assert (I0 : In d' all). { eapply Permutation_in; [symmetry; exact P|]. apply in_or_app. left. apply in_or_app. right. now left. }
    destruct H as (vs & w & L & Iw & Ew). apply (lists_enlarged i d d' vs E) in L.
    inversion M as [| | | | | | | | | | | | | |? ? ? ? ? ? vss MD MB NE ID AD FM]; subst.
    apply in_split in I0. destruct I0 as (l1 & l2 & ->).
    assert (U : forall x vs1 vs2, In x (l1 ++ d' :: l2) -> lists i x vs1 -> lists i x vs2 -> vs1 = vs2).
    { intros x vs1 vs2 Ix. destruct (O x Ix) as (mt1 & bo1 & l & -> & ND). now apply lists_unique. }
    apply Forall2_app_inv_l in ID. destruct ID as (v1 & v2 & ID1 & ID2 & ->). inversion ID2 as [|? vd ? v3 LD ID3]; subst.
    assert (vd = vs) as -> by (apply (U d'); auto; apply in_or_app; right; now left).
    assert (MP : SpecMake.mappable orc d').
    { apply Forall2_app_inv_l in FM. destruct FM as (u1 & u2 & FM1 & FM2 & Q). 
      assert (L1 : List.length u1 = List.length v1).
      { clear -FM1 ID1. assert (A : forall (A B C : Type) (P : A -> B -> Prop) (Q : A -> C -> Prop) l x y, Forall2 P l x -> Forall2 Q l y -> List.length x = List.length y).
        { intros A B C P0 Q0 l x z G. revert z. induction G as [|? ? ? ? ? ? IHG]; intros z K; inversion K; subst; cbn; auto. }
        eapply A; eauto. }
      inversion FM2 as [|? vy ? vr M1 M2]; subst.
      assert (Z0 : v1 = u1 /\ vs :: v3 = vy :: vr).
      { apply app_inj_len; [now rewrite L1|exact Q]. }
      destruct Z0 as [_ Z0]. injection Z0 as <- <-. apply M1. intros ->. destruct Iw. }
    exists d'. split; [left|split; [exact E|split; [exact MP|left; apply in_or_app; right; now left]]].
    exists l1, l2. split; [reflexivity|]. split; [exists vs, w; auto|].
    apply Forall_forall. intros x Ix (vs1 & w1 & L1 & I1 & E1).
    assert (G : In w1 (concat v1)).
    { clear -ID1 Ix L1 I1 U. assert (U1 : forall x vs1 vs2, In x l1 -> lists i x vs1 -> lists i x vs2 -> vs1 = vs2) by (intros; eapply U; eauto; apply in_or_app; now left).
      clear U. induction ID1 as [|y v l v1 L F IH]; [destruct Ix|]. cbn. apply in_or_app. destruct Ix as [-> |Ix].
      - left. rewrite (U1 x v vs1); auto. now left.
      - right. apply IH; auto. intros; eapply U1; eauto. now right. }
    rewrite concat_app in AD. cbn [concat] in AD. apply (different_split (concat v1) vs (concat v3) w1 w id AD); auto.
    apply in_or_app. now left.
  - destruct Df as [Q|(-> & x & y & Q & -> & E)]; [discriminate|]. injection Q as ->. rewrite app_nil_r in P.
    exists y. split; [right; split; auto|split; [exact E|split; [|now right]]].
    + apply Forall_forall. intros z Iz (vs & w & L & Iw & Ew). apply (Permutation_in _ P) in Iz.
      assert (G : exists z0, In z0 ms /\ enlarged z0 z).
      { clear -F Iz. induction F as [|a b l l' A F IH]; [destruct Iz|]. destruct Iz as [-> |Iz]; [exists a; split; auto; now left|].
        destruct (IH Iz) as (z0 & I0 & E0). exists z0. split; auto. now right. }
      destruct G as (z0 & I0 & E0). rewrite Forall_forall in N. apply (N z0 I0). exists vs, w. split; auto. now apply (lists_enlarged i z0 z).
    + inversion M; subst. auto.
Qed.

(** *** Reading *)

Lemma condition_enlarged orc m m' e b : enlarged m m' -> condition_is orc m e b -> condition_is orc m' e b.
Proof. intros E. unfold condition_is. now rewrite (cond_enlarged _ _ E). Qed.
Lemma allowed_enlarged m m' v : enlarged m m' -> allowed m v -> allowed m' v.
Proof. intros E. unfold allowed. now rewrite (values_enlarged _ _ E). Qed.

Lemma mappable_element orc k e el : SpecMake.mappable orc (DElems k e el) -> SpecMake.mappable orc (element_type e el).
Proof. intros M. now inversion M. Qed.

Ltac as_before := match goal with E : enlarged _ ?d' |- _ => inversion E; subst end.

Lemma reads_enlarged orc bs d off vals v n : reads orc bs d off vals v n ->
  forall d', enlarged d d' -> everywhere regular d' -> SpecMake.mappable orc d' -> reads orc bs d' off vals v n.
Proof.
  intros Q. induction Q using reads_ind' with
    (P0 := fun d off rs => forall d', enlarged d d' -> everywhere regular d' -> SpecMake.mappable orc d' -> reads_elements orc bs d' off rs)
    (P1 := fun cls bo names vals done ms off rs => forall ms', Forall2 enlarged ms ms' ->
       Forall (fun m => everywhere regular (used_type cls bo m)) ms' -> Forall (fun m => SpecMake.mappable orc (used_type cls bo m)) ms' ->
       reads_members orc bs cls bo names vals done ms' off rs).
  - intros d' E R M. as_before. now apply ReadInteger.
  - intros d' E R M. as_before. now apply ReadDouble.
  - intros d' E R M. as_before. now apply ReadSingle.
  - intros d' E R M. as_before. now apply ReadBoolean.
  - intros d' E R M. as_before. now apply (ReadCharacter _ _ _ n).
  - intros d' E R M. as_before. now apply ReadUUID.
  - intros d' E R M. as_before. now apply ReadPadding.
  - intros d' E R M. apply enlarged_elems in E. destruct E as (el' & -> & E).
    apply ReadCounted; auto. apply IHQ; [now apply element_enlarged|eapply regular_element; eauto|eapply mappable_element; eauto].
  - intros d' E R M. apply enlarged_elems in E. destruct E as (el' & -> & E).
    eapply ReadTerminated; eauto. apply IHQ; [now apply element_enlarged|eapply regular_element; eauto|eapply mappable_element; eauto].
  - intros d' E R M. apply enlarged_elems in E. destruct E as (el' & -> & E).
    eapply ReadSized; eauto; [now rewrite (size_enlarged _ _ E)|]. apply IHQ; [now apply element_enlarged|eapply regular_element; eauto|eapply mappable_element; eauto].
  - intros d' E R M. apply enlarged_elems in E. destruct E as (el2 & -> & E). pose proof E as E2.
    apply enlarged_elems in E2. destruct E2 as (el3 & -> & E2).
    eapply ReadSizedVariable; eauto; [now rewrite (size_enlarged _ _ E)|]. apply IHQ; [now apply element_enlarged|eapply regular_element; eauto|eapply mappable_element; eauto].
  - intros d' E R M. apply enlarged_elems in E. destruct E as (el' & -> & E).
    apply ReadStream; auto; [unfold unsized_stream|unfold stream_size]; now rewrite (size_enlarged _ _ E).
  - intros d' E R M. apply enlarged_elems in E. destruct E as (el' & -> & E).
    apply ReadStreamTerminated; auto. unfold unsized_stream; now rewrite (size_enlarged _ _ E).
  - intros d' E R M. apply enlarged_elems in E. destruct E as (el' & -> & E).
    eapply ReadString; eauto. apply IHQ; [now constructor| |].
    + destruct R as [[S _] R]. split; [|exact R]. split; [exact S|exact I].
    + inversion M; subst. now constructor.
  - intros d' E R M. apply enlarged_structure in E. destruct E as (ms' & -> & E).
    rewrite <- (names_enlarged _ _ E). apply ReadStructure. rewrite (names_enlarged _ _ E). apply IHQ; auto.
    + now apply regular_members.
    + inversion M; subst. now apply Forall_forall.
  - intros d' E R M. apply enlarged_group in E. destruct E as (base' & df' & ms' & more & all & -> & EB & EM & P & Df).
    assert (O : orderly (DGroup mt bo base' identifier df' all)) by apply R.
    assert (MB : SpecMake.mappable orc base') by now inversion M.
    destruct (selects_enlarged orc _ _ _ _ _ _ _ _ _ mt bo base' EM P Df O M H0) as (d2 & S2 & E2 & M2 & W2).
    destruct R as [_ (R1 & R2 & R3)]. apply everywhere_list in R3.
    eapply ReadGroup; eauto. apply IHQ2; auto.
    destruct W2 as [W2| ->]; [|exact R2]. rewrite Forall_forall in R3. auto.
  - intros d' E R M. constructor.
  - intros d' E R M. constructor; auto.
  - intros ms' F _ _. inversion F; subst. constructor.
  - intros ms' F R M. inversion F as [|? m' ? ms2 E F2]; subst. inversion R; inversion M; subst.
    apply ReadPresent; [eapply condition_enlarged; eauto| |eapply allowed_enlarged; eauto|auto].
    apply IHQ; auto. now apply used_enlarged.
  - intros ms' F R M. inversion F as [|? m' ? ms2 E F2]; subst. inversion R; inversion M; subst.
    apply ReadAbsent; [eapply condition_enlarged; eauto|auto].
Qed.

(** *** Mapping *)

Lemma mapped_enlarged orc d d' m m' fuel bs off vals depth v n :
  extensional orc -> enlarged d d' ->
  everywhere regular d -> everywhere regular d' -> everywhere SpecMake.shaped d' ->
  create orc d None = Ok (Some m) -> create orc d' None = Ok (Some m') ->
  0 <= off <= len bs -> depth + levels d <= 11 -> depth + levels d' <= 11 ->
  SpecMap.maps orc fuel m bs off vals depth v n ->
  exists fuel', SpecMap.maps orc fuel' m' bs off vals depth v n.
Proof.
  intros X E R R' SH C C' Ho L L' M.
  apply (reading_maps orc d' m' bs off vals depth v n X R' C' Ho L').
  apply (reads_enlarged orc bs d off vals v n); auto.
  - apply (reading_maps orc d m bs off vals depth v n X R C Ho L). eauto.
  - apply MakeProofs.creation_succeeds; eauto using regular_sound.
Qed.

Lemma alike_enlarged orc d d' m m' fuel fuel' bs off vals depth v n v' n' :
  extensional orc -> enlarged d d' ->
  everywhere regular d -> everywhere regular d' -> everywhere SpecMake.shaped d' ->
  create orc d None = Ok (Some m) -> create orc d' None = Ok (Some m') ->
  0 <= off <= len bs -> 0 <= depth -> depth + levels d <= 11 -> depth + levels d' <= 11 ->
  SpecMap.maps orc fuel m bs off vals depth v n -> SpecMap.maps orc fuel' m' bs off vals depth v' n' -> v' = v /\ n' = n.
Proof.
  intros X E R R' SH C C' Ho D0 L L' M M'.
  destruct (mapped_enlarged orc d d' m m' fuel bs off vals depth v n) as (f2 & M2); auto.
  apply (reading_unique orc d' m' bs off vals v' n' v n); auto; [lia| |]; apply (reading_maps orc d' m' bs off vals depth _ _ X R' C' Ho L'); eauto.
Qed.

Lemma mapped_ordered orc mt bo base identifier default ms ms' m m' bs off vals depth v n :
  extensional orc -> Permutation.Permutation ms ms' ->
  everywhere regular (DGroup mt bo base identifier default ms) -> everywhere SpecMake.shaped (DGroup mt bo base identifier default ms) ->
  create orc (DGroup mt bo base identifier default ms) None = Ok (Some m) ->
  create orc (DGroup mt bo base identifier default ms') None = Ok (Some m') ->
  0 <= off <= len bs -> depth + levels (DGroup mt bo base identifier default ms) <= 11 ->
  ((exists fuel, SpecMap.maps orc fuel m bs off vals depth v n) <-> (exists fuel, SpecMap.maps orc fuel m' bs off vals depth v n)).
Proof.
  intros X P R SH C C' Ho L.
  assert (G : forall Q : dtype -> Prop, everywhere Q (DGroup mt bo base identifier default ms) -> Q (DGroup mt bo base identifier default ms') -> everywhere Q (DGroup mt bo base identifier default ms')).
  { intros Q (_ & A & B & D) Q'. split; auto. split; auto. split; auto. apply everywhere_list. apply everywhere_list in D. now rewrite <- P. }
  assert (R' : everywhere regular (DGroup mt bo base identifier default ms')).
  { apply G; auto. destruct R as [[S O] _]. split; [exact S|]. intros x Ix. apply O. eapply Permutation_in; [symmetry|]; eauto. }
  assert (SH' : everywhere SpecMake.shaped (DGroup mt bo base identifier default ms')) by (apply G; auto; exact I).
  assert (L' : depth + levels (DGroup mt bo base identifier default ms') <= 11).
  { cbn [levels] in *. assert (Q : fold_right (fun m a => Z.max (levels m) a) 0 ms' = fold_right (fun m a => Z.max (levels m) a) 0 ms).
    { clear -P. induction P; cbn; lia. } rewrite Q. exact L. }
  assert (E : forall a b, Permutation a b -> enlarged (DGroup mt bo base identifier default a) (DGroup mt bo base identifier default b)).
  { intros a b Pa. destruct default as [df|].
    - apply OtherOrder with (ms' := a); auto using AsBefore, enlarged_refl_list. now symmetry.
    - apply MoreStructures with (ms' := a) (more := []); auto using AsBefore, enlarged_refl_list. rewrite app_nil_r. now symmetry. }
  split; intros (fuel & M).
  - exact (mapped_enlarged orc _ _ m m' fuel bs off vals depth v n X (E ms ms' P) R R' SH' C C' Ho L L' M).
  - exact (mapped_enlarged orc _ _ m' m fuel bs off vals depth v n X (E ms' ms (Permutation_sym P)) R' R SH C' C Ho L' L M).
Qed.
