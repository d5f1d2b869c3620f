(** Supported values decide whether a value is mapped, not to what. *)
From Coq Require Import String List ZArith Bool Lia.
From Verif Require Import Base PyVal PyStruct DataTypes ClassFactory DataMaps.
From Verif Require Import BytesProofs SpecPrim PrimProofs SpecMap SpecCreate SpecReads SpecFold SpecGrow SpecEdit SpecShort SpecWrites SpecFilter
  CreateProofs StreamProofs SteadyProofs FoldProofs ReadsProofs FitProofs WritesProofs TellProofs GrowProofs EditProofs DisturbProofs.
From Verif Require TurnProofs SpecMake MakeProofs SpecContainers.
Import ListNotations.
Open Scope Z_scope.
#[local] Arguments Z.mul : simpl never.
#[local] Arguments Z.add : simpl never.
#[local] Arguments Z.div : simpl never.

Lemma name_relaxed d : dt_name (relaxed d) = dt_name d.
Proof. destruct d; reflexivity. Qed.
Lemma names_relaxed l : map dt_name (map relaxed l) = map dt_name l.
Proof. rewrite map_map. apply map_ext. exact name_relaxed. Qed.
Lemma order_relaxed d : dt_byte_order (relaxed d) = dt_byte_order d.
Proof. destruct d; reflexivity. Qed.
Lemma composite_relaxed d : is_composite (relaxed d) = is_composite d.
Proof. induction d; cbn; auto. now rewrite IHd. Qed.
Lemma padding_relaxed d : is_padding (relaxed d) = is_padding d.
Proof. destruct d; reflexivity. Qed.
Lemma align_relaxed d : pad_align (relaxed d) = pad_align d.
Proof. destruct d; reflexivity. Qed.
Lemma cond_relaxed d : member_cond (relaxed d) = member_cond d.
Proof. destruct d; reflexivity. Qed.
Lemma values_relaxed d : member_values (relaxed d) = None.
Proof. destruct d; reflexivity. Qed.
Lemma type_relaxed m : type_of (relaxed m) = relaxed (type_of m).
Proof. destruct m; reflexivity. Qed.
Lemma copy_relaxed n b d : relaxed (set_name_bo n b d) = set_name_bo n b (relaxed d).
Proof. destruct d; reflexivity. Qed.

Lemma size_relaxed d : get_byte_size (relaxed d) = get_byte_size d.
Proof.
  induction d using dtype_rect'; cbn; auto.
  - rewrite IHd. reflexivity.
  - assert (G : forall acc, (fix go (l : list dtype) (acc : Z) : option Z :=
             match l with [] => Some acc | m :: r => match struct_size_step acc (pad_align m) (get_byte_size m) with Some a => go r a | None => None end end) (map relaxed ms) acc
        = (fix go (l : list dtype) (acc : Z) : option Z :=
             match l with [] => Some acc | m :: r => match struct_size_step acc (pad_align m) (get_byte_size m) with Some a => go r a | None => None end end) ms acc).
    { induction H as [|x l Hx Hl IH]; intros acc; cbn [map]; auto. rewrite align_relaxed, Hx. destruct (struct_size_step _ _ _); auto. }
    destruct ms; [reflexivity|]. exact (G 0).
  - now rewrite IHd.
Qed.

Lemma levels_relaxed d : levels (relaxed d) = levels d.
Proof.
  induction d using dtype_rect'; cbn [relaxed levels]; auto.
  - destruct k; auto. now rewrite IHd.
  - f_equal. induction H as [|x l Hx _ IH]; cbn [map fold_right]; auto. now rewrite Hx, IH.
Qed.

Lemma used_relaxed c bo m : used_type c bo (relaxed m) = relaxed (used_type c bo m).
Proof.
  unfold used_type. rewrite !type_relaxed, order_relaxed, name_relaxed.
  destruct bo; auto; destruct (dt_byte_order (type_of m)) as [[]|]; auto; now rewrite copy_relaxed.
Qed.

Lemma element_relaxed e d : element_type e (relaxed d) = relaxed (element_type e d).
Proof.
  unfold element_type. rewrite order_relaxed, composite_relaxed, name_relaxed.
  destruct (e_bo e); auto; destruct (dt_byte_order d) as [[]|]; auto; destruct (is_composite d); auto; now rewrite copy_relaxed.
Qed.

Lemma unsized_relaxed e el : unsized_stream e (relaxed el) <-> unsized_stream e el.
Proof. unfold unsized_stream. now rewrite size_relaxed. Qed.
Lemma stream_relaxed orc e el vals n : stream_size orc e (relaxed el) vals n <-> stream_size orc e el vals n.
Proof. unfold stream_size. now rewrite size_relaxed. Qed.
Lemma condition_relaxed orc m vals q : condition_is orc (relaxed m) vals q <-> condition_is orc m vals q.
Proof. unfold condition_is. now rewrite cond_relaxed. Qed.

(** *** What a value within its definition says *)

Lemma within_copy n b d v : within (set_name_bo n b d) v <-> within d v.
Proof. destruct d; cbn; tauto. Qed.
Lemma within_type m v : within (type_of m) v <-> within m v.
Proof. destruct m; cbn; tauto. Qed.
Lemma within_used c bo m v : within (used_type c bo m) v <-> within m v.
Proof.
  rewrite <- (within_type m v). unfold used_type. destruct bo; try tauto; destruct (dt_byte_order (type_of m)) as [[]|]; try tauto; apply within_copy.
Qed.
Lemma within_element e d v : within (element_type e d) v <-> within d v.
Proof.
  unfold element_type. destruct (e_bo e); try tauto; destruct (dt_byte_order d) as [[]|]; try tauto; destruct (is_composite d); try tauto; apply within_copy.
Qed.

Definition within_members (ms : list dtype) (vs : list pyval) : Prop :=
  Forall2 (fun m w => w = VNone \/ allowed m w /\ within m w) ms vs.

Lemma members_count ms vs : within_members ms vs -> List.length ms = List.length vs.
Proof. induction 1; cbn; auto. Qed.

Lemma within_sequence e el l : within (DElems KSequence e el) (VTuple l) <-> Forall (within el) l.
Proof.
  cbn [within]. induction l as [|x l IH]; [split; auto|]. split.
  - intros [A B]. constructor; auto. now apply IH.
  - intros F. inversion F; subst. split; auto. now apply IH.
Qed.

Lemma within_structure mt bo ms cls names vs : List.length names = List.length ms -> List.length vs = List.length ms ->
  (within (DStructure mt bo ms) (VStruct cls (combine names vs)) <-> within_members ms vs).
Proof.
  cbn [within]. revert names vs. induction ms as [|m ms IH]; intros [|n names] [|w vs] L1 L2; try discriminate.
  - split; [constructor|auto].
  - injection L1 as L1. injection L2 as L2. cbn [combine map snd]. rewrite (IH names vs L1 L2). split.
    + intros [A B]. constructor; auto.
    + intros F. inversion F; subst. auto.
Qed.

Lemma reads_not_none orc bs d off vals v n : reads orc bs d off vals v n ->
  match d with DUUID _ | DGroup _ _ _ _ _ _ => True | _ => v <> VNone end.
Proof. intros R. destruct R; try discriminate; exact I. Qed.

Lemma used_cases c bo m : used_type c bo m = type_of m \/ exists n b, used_type c bo m = set_name_bo n b (type_of m).
Proof.
  unfold used_type. destruct bo; auto; destruct (dt_byte_order (type_of m)) as [[]|]; auto; right; eauto.
Qed.

Lemma used_not_none orc bs c bo m off vals n : reads orc bs (used_type c bo (relaxed m)) off vals VNone n ->
  match type_of m with DUUID _ | DGroup _ _ _ _ _ _ => True | _ => False end.
Proof.
  intros R. apply reads_not_none in R. rewrite used_relaxed in R.
  destruct (used_cases c bo m) as [Q|(k & b & Q)]; rewrite Q in R; destruct (type_of m); cbn in R; auto.
Qed.

(** *** Reading *)

Lemma relaxed_reads orc bs d off vals v n : reads orc bs d off vals v n -> reads orc bs (relaxed d) off vals v n /\ within d v.
Proof.
  intros Q. induction Q using reads_ind' with
    (P0 := fun d off rs => reads_elements orc bs (relaxed d) off rs /\ Forall (within d) (map fst rs))
    (P1 := fun cls bo names vals done ms off rs =>
       reads_members orc bs cls bo names vals done (map relaxed ms) off rs /\ within_members ms (map value_of rs)).
  - split; [eapply ReadInteger; eauto|exact I].
  - split; [eapply ReadDouble; eauto|exact I].
  - split; [eapply ReadSingle; eauto|exact I].
  - split; [eapply ReadBoolean; eauto|exact I].
  - split; [eapply ReadCharacter; eauto|exact I].
  - split; [eapply ReadUUID; eauto|exact I].
  - split; [eapply ReadPadding; eauto|exact I].
  - destruct IHQ as [A B]. split.
    + apply ReadCounted; auto. now rewrite element_relaxed.
    + apply within_sequence. revert B. apply Forall_impl. intros w. apply within_element.
  - destruct IHQ as [A B]. split.
    + eapply ReadTerminated; eauto. now rewrite element_relaxed.
    + apply within_sequence. rewrite map_app in B. revert B. apply Forall_impl. intros w0. apply within_element.
  - destruct IHQ as [A B]. split.
    + eapply ReadSized; eauto; [now rewrite size_relaxed|now rewrite element_relaxed].
    + apply within_sequence. revert B. apply Forall_impl. intros w0. apply within_element.
  - destruct IHQ as [A B]. split.
    + cbn [relaxed]. eapply ReadSizedVariable; eauto.
      * rewrite <- (size_relaxed (DElems k e' el')) in H0. exact H0.
      * rewrite <- element_relaxed in A. exact A.
    + apply within_sequence. revert B. apply Forall_impl. intros w0. apply within_element.
  - split; [|exact I]. apply ReadStream; auto; [now rewrite unsized_relaxed|now rewrite stream_relaxed].
  - split; [|exact I]. apply ReadStreamTerminated; auto. now rewrite unsized_relaxed.
  - split; [|exact I]. destruct IHQ as [A _]. eapply ReadString; eauto.
  - destruct IHQ as [A B]. split.
    + cbn [relaxed]. rewrite <- names_relaxed. apply ReadStructure. now rewrite names_relaxed.
    + apply within_structure; auto; [apply map_length|]. symmetry. exact (members_count _ _ B).
  - split; [|exact I]. eapply ReadGroup; eauto.
  - split; constructor.
  - destruct IHQ as [A B], IHQ0 as [A2 B2]. split; [now constructor|now constructor].
  - split; constructor.
  - destruct IHQ as [A B], IHQ0 as [A2 B2]. split.
    + cbn [map]. apply ReadPresent; auto; [now rewrite condition_relaxed|now rewrite used_relaxed|]. unfold allowed. now rewrite values_relaxed.
    + cbn [map value_of]. constructor; auto. right. split; auto. now apply within_used in B.
  - destruct IHQ as [A B]. split.
    + cbn [map]. apply ReadAbsent; auto. now rewrite condition_relaxed.
    + cbn [map value_of]. constructor; auto.
Qed.

Lemma listed_copy n b d : everywhere listed d -> everywhere listed (set_name_bo n b d).
Proof. destruct d; cbn; auto. Qed.
Lemma listed_used c bo m : everywhere listed m -> everywhere listed (used_type c bo m).
Proof.
  intros E. apply everywhere_type in E. unfold used_type. destruct bo; auto; destruct (dt_byte_order (type_of m)) as [[]|]; auto; now apply listed_copy.
Qed.
Lemma listed_element e d : everywhere listed d -> everywhere listed (element_type e d).
Proof.
  intros E. unfold element_type. destruct (e_bo e); auto; destruct (dt_byte_order d) as [[]|]; auto; destruct (is_composite d); auto; now apply listed_copy.
Qed.

Ltac same d Eq := destruct d; try discriminate Eq; cbn [relaxed] in Eq; injection Eq as; subst.

Lemma reads_relaxed orc bs d1 off vals v n : reads orc bs d1 off vals v n ->
  forall d, d1 = relaxed d -> everywhere listed d -> within d v -> reads orc bs d off vals v n.
Proof.
  intros Q. induction Q using reads_ind' with
    (P0 := fun d1 off rs => forall d, d1 = relaxed d -> everywhere listed d -> Forall (within d) (map fst rs) -> reads_elements orc bs d off rs)
    (P1 := fun cls bo names vals done ms1 off rs => forall ms, ms1 = map relaxed ms ->
       Forall (everywhere listed) ms ->
       (forall m x r, In m ms -> member_values m = Some (x :: r) ->
          match type_of m with DUUID _ | DGroup _ _ _ _ _ _ => False | _ => True end) ->
       within_members ms (map value_of rs) -> reads_members orc bs cls bo names vals done ms off rs).
  - intros d Eq _ _. same d Eq. now apply ReadInteger.
  - intros d Eq _ _. same d Eq. now apply ReadDouble.
  - intros d Eq _ _. same d Eq. now apply ReadSingle.
  - intros d Eq _ _. same d Eq. now apply ReadBoolean.
  - intros d Eq _ _. same d Eq. now apply (ReadCharacter _ _ _ n).
  - intros d Eq _ _. same d Eq. now apply ReadUUID.
  - intros d Eq _ _. same d Eq. now apply ReadPadding.
  - intros d Eq E W. same d Eq. apply within_sequence in W. destruct E as [_ E].
    apply ReadCounted; auto. apply IHQ; [apply element_relaxed|now apply listed_element|].
    revert W. apply Forall_impl. intros x. apply within_element.
  - intros d Eq E W. same d Eq. apply within_sequence in W. destruct E as [_ E].
    eapply ReadTerminated; eauto. apply IHQ; [apply element_relaxed|now apply listed_element|].
    rewrite map_app. revert W. apply Forall_impl. intros x. apply within_element.
  - intros d Eq E W. same d Eq. apply within_sequence in W. destruct E as [_ E].
    eapply ReadSized; eauto; [now rewrite <- size_relaxed|]. apply IHQ; [apply element_relaxed|now apply listed_element|].
    revert W. apply Forall_impl. intros x. apply within_element.
  - intros d Eq E W. destruct d; try discriminate Eq. cbn [relaxed] in Eq. injection Eq as <- <- Eq2. destruct d; try discriminate Eq2. cbn [relaxed] in Eq2. injection Eq2 as; subst. apply within_sequence in W. destruct E as [_ E].
    eapply ReadSizedVariable; eauto.
    + now rewrite <- size_relaxed.
    + apply IHQ; [apply (element_relaxed _ (DElems _ _ _))|now apply listed_element|].
      revert W. apply Forall_impl. intros x. apply within_element.
  - intros d Eq E W. same d Eq. apply ReadStream; auto; [now rewrite <- unsized_relaxed|now rewrite <- stream_relaxed].
  - intros d Eq E W. same d Eq. apply ReadStreamTerminated; auto. now rewrite <- unsized_relaxed.
  - intros d Eq E W. same d Eq. eapply ReadString; eauto.
  - intros d Eq E W. same d Eq. rewrite names_relaxed in *. cbn [everywhere] in E. rewrite everywhere_list in E. destruct E as [E1 E2].
    apply ReadStructure. apply IHQ; auto.
    apply within_structure in W; auto; [apply map_length|].
    match goal with R : reads_members _ _ _ _ _ _ _ _ _ _ |- _ => apply members_length in R; now rewrite map_length, R, map_length end.
  - intros d2 Eq E W. same d2 Eq. eapply ReadGroup; eauto.
  - intros d2 Eq E W. constructor.
  - intros d2 Eq E W. cbn [map fst] in W. inversion W; subst. constructor; auto.
  - intros [|] Eq E L W; [|discriminate]. constructor.
  - intros [|m1 ms1] Eq E L W; [discriminate|]. cbn [map] in Eq. injection Eq as -> ->. cbn [map value_of] in W.
    inversion W as [|? ? ? ? W1 W2]; subst. inversion E; subst.
    assert (A : allowed m1 v /\ within m1 v).
    { destruct W1 as [-> |W1]; [|exact W1].
      match goal with R : reads _ _ (used_type _ _ _) _ _ _ _ |- _ => apply used_not_none in R; rename R into U end. split.
      - unfold allowed. destruct (member_values m1) as [[|x r]|] eqn:V; auto. exfalso.
        specialize (L m1 x r (or_introl eq_refl) V). destruct (type_of m1); contradiction.
      - rewrite <- within_type. destruct (type_of m1); try contradiction; exact I. }
    destruct A as [A1 A2]. apply ReadPresent; auto.
    + now rewrite <- condition_relaxed.
    + apply IHQ; [apply used_relaxed|now apply listed_used|now apply within_used].
    + apply IHQ0; auto. intros x y r I0. apply L. now right.
  - intros [|m1 ms1] Eq E L W; [discriminate|]. cbn [map] in Eq. injection Eq as -> ->. cbn [map value_of] in W.
    inversion W; subst. inversion E; subst. apply ReadAbsent; auto.
    + now rewrite <- condition_relaxed.
    + apply IHQ; auto. intros x y r I0. apply L. now right.
Qed.

(** *** Definitions stay what they are *)

Lemma everywhere_relaxed (P : dtype -> Prop) d :
  (forall x, P x -> P (relaxed x)) -> everywhere P d -> everywhere P (relaxed d).
Proof.
  intros PT.
  assert (L : forall l, Forall (fun d => everywhere P d -> everywhere P (relaxed d)) l -> Forall (everywhere P) l -> Forall (everywhere P) (map relaxed l)).
  { induction 1 as [|x l H _ IH]; cbn; intros F; inversion F; subst; constructor; auto. }
  induction d using dtype_rect'; intros E; cbn [relaxed]; auto; cbn [everywhere] in *; rewrite ?everywhere_list in *; destruct E as [E1 E2]; (split; [exact (PT _ E1)|]); auto.
Qed.

Lemma well_named_relaxed d : well_named d -> well_named (relaxed d).
Proof.
  destruct d; cbn; auto. intros [A B]. split.
  - intros m1 m2 I1 I2. apply in_map_iff in I1, I2. destruct I1 as (x & <- & Ix), I2 as (y & <- & Iy).
    rewrite !type_relaxed, !name_relaxed. intros E. now rewrite (A x y Ix Iy E).
  - intros m0 r I0. apply in_map_iff in I0. destruct I0 as (x & <- & Ix). rewrite type_relaxed, name_relaxed. now apply B.
Qed.

Lemma sound_relaxed d : sound d -> sound (relaxed d).
Proof.
  intros [A W]. split; [|now apply well_named_relaxed]. clear W. destruct d; cbn in *; auto.
  rewrite size_relaxed. exact A.
Qed.

Lemma orderly_relaxed d : orderly d -> orderly (relaxed d).
Proof.
  destruct d; cbn; auto.
  - destruct k; auto. rewrite size_relaxed. intros [A B]. split; auto. destruct d; auto.
  - rewrite names_relaxed. intros (A & B & C & D). refine (conj A (conj _ (conj _ _))).
    + intros x r I0. apply in_map_iff in I0. destruct I0 as (y & <- & Iy). rewrite name_relaxed. now apply B.
    + intros x mt1 ms1 N I0 T. apply in_map_iff in I0. destruct I0 as (y & <- & Iy). rewrite type_relaxed in T.
      assert (E : exists ms0, type_of y = DStructure mt1 BONative ms0 /\ ms1 = map relaxed ms0).
      { destruct (type_of y); try discriminate T. cbn in T. injection T as <- -> <-. eauto. }
      destruct E as (ms0 & E & ->). destruct (C y mt1 ms0) as [C1 C2]; auto.
      split; auto. intros w mt2 ms2 Iw. apply in_map_iff in Iw. destruct Iw as (z & <- & Iz). rewrite type_relaxed. intros Q.
      destruct (type_of z) eqn:Ez; try discriminate Q. cbn in Q. injection Q as <- -> <-.
      now apply (C2 z m0 members0 Iz).
    + destruct D as [(x & Ix & D)|D].
      * left. exists (relaxed x). split; [now apply in_map|]. now rewrite composite_relaxed, padding_relaxed.
      * right. intros x Ix. apply in_map_iff in Ix. destruct Ix as (y & <- & Iy). rewrite type_relaxed, padding_relaxed, order_relaxed.
        now apply D.
Qed.

Lemma regular_relaxed d : everywhere regular d -> everywhere regular (relaxed d).
Proof. apply everywhere_relaxed. intros x [A B]. split; [now apply sound_relaxed|now apply orderly_relaxed]. Qed.

(** *** Creation *)

Lemma one_go_relaxed last ms : SpecMake.one_go last (map relaxed ms) <-> SpecMake.one_go last ms.
Proof.
  revert last. induction ms as [|m ms IH]; intros last; cbn [map SpecMake.one_go]; [tauto|].
  rewrite composite_relaxed, padding_relaxed, order_relaxed.
  split; intros (A & B & C); (split; [exact A|split; [exact B|]]); intros b Q; destruct (C b Q) as [C1 C2]; (split; [exact C1|]); now apply IH.
Qed.

Lemma shaped_relaxed d : SpecMake.shaped d -> SpecMake.shaped (relaxed d).
Proof.
  destruct d; cbn; auto; rewrite names_relaxed; auto. intros [A B]. split; auto. clear A.
  induction B as [|x l [b Q] _ IH]; cbn [map]; constructor; auto. exists b. now rewrite order_relaxed.
Qed.

Lemma has_map_relaxed d : SpecMake.has_map (relaxed d) <-> SpecMake.has_map d.
Proof. now destruct d. Qed.

Lemma unit_relaxed d : SpecMake.unit_size (relaxed d) = SpecMake.unit_size d.
Proof. now destruct d. Qed.

Lemma describable_relaxed d : SpecContainers.describable d -> SpecContainers.describable (relaxed d).
Proof.
  destruct d as [| | | | | |k| | |mt bo c dt vs i| | | | |]; auto. destruct i as [| | | | | |k| | | | | | | |]; auto.
Qed.

Lemma ordered_relaxed d : SpecMake.ordered d -> SpecMake.ordered (relaxed d).
Proof. intros [b Q]. exists b. now rewrite order_relaxed. Qed.

Lemma go_fits_relaxed ms : SpecMake.one_go_fits ms -> SpecMake.one_go_fits (map relaxed ms).
Proof.
  intros [A B]. split.
  - intros before m after E. intros S. apply map_eq_app in E. destruct E as (l1 & l2 & -> & <- & E).
    apply map_eq_cons in E. destruct E as (x & l3 & -> & <- & <-).
    destruct (A l1 x l3 eq_refl) as (y & Iy & U). { rewrite type_relaxed in S. destruct (type_of x); auto. }
    exists (relaxed y). split; [now apply in_map|]. now rewrite type_relaxed, unit_relaxed.
  - intros sizes F. apply B. clear -F. revert sizes F. induction ms as [|m ms IH]; cbn [map]; intros sizes F; inversion F; subst; constructor; auto.
    now rewrite type_relaxed, unit_relaxed in *.
Qed.

Lemma mappable_relaxed orc : forall d, SpecMake.mappable orc d -> SpecMake.mappable orc (relaxed d).
Proof.
  fix IH 2. intros d M. destruct M; cbn [relaxed]; try (constructor; assumption).
  - apply SpecMake.MakeElems; auto using ordered_relaxed.
    + rewrite element_relaxed. now apply IH.
    + destruct k; rewrite ?composite_relaxed; auto. intros (A & B). rewrite composite_relaxed in A. destruct (H2 (conj A B)) as [F1 F2].
      split; [now rewrite padding_relaxed|]. intros b. rewrite unit_relaxed, size_relaxed. apply F2.
  - apply SpecMake.MakeStructure; rewrite ?names_relaxed; auto.
    + now destruct ms.
    + clear -H4. induction H4; cbn [map]; constructor; auto using describable_relaxed.
    + intros m I0. apply in_map_iff in I0. destruct I0 as (y & <- & Iy). rewrite type_relaxed.
      destruct (H6 y Iy) as [-> |O]; auto using ordered_relaxed.
    + intros m I0. apply in_map_iff in I0. destruct I0 as (y & <- & Iy). rewrite used_relaxed. now apply IH, H7.
    + intros O. apply go_fits_relaxed, H8. apply one_go_relaxed. exact O.
  - apply (SpecMake.MakeGroup _ _ _ _ _ _ _ vss); auto.
Qed.

Lemma created_relaxed orc d : everywhere sound d -> everywhere SpecMake.shaped d ->
  (exists m, create orc d None = Ok (Some m)) -> exists m, create orc (relaxed d) None = Ok (Some m).
Proof.
  intros S1 S2 (m & C).
  assert (M : SpecMake.mappable orc d) by (apply (MakeProofs.creation_succeeds orc d S1 S2); eauto).
  apply mappable_relaxed in M.
  apply MakeProofs.creation_succeeds in M; [|apply everywhere_relaxed; auto using sound_relaxed|apply everywhere_relaxed; auto using shaped_relaxed].
  destruct M as ([m'|] & C'); eauto. apply MakeProofs.creation_none in C'. rewrite has_map_relaxed in C'.
  apply (proj2 (MakeProofs.creation_none orc d)) in C'. congruence.
Qed.

(** *** Mapping *)

Lemma mapped_within orc d m m' bs off vals depth v n :
  extensional orc -> everywhere regular d -> everywhere listed d ->
  create orc d None = Ok (Some m) -> create orc (relaxed d) None = Ok (Some m') ->
  0 <= off <= len bs -> depth + levels d <= 11 ->
  ((exists fuel, SpecMap.maps orc fuel m bs off vals depth v n) <->
   (exists fuel, SpecMap.maps orc fuel m' bs off vals depth v n) /\ within d v).
Proof.
  intros X E L C C' Ho D.
  rewrite <- (reading_maps orc d m bs off vals depth v n) by auto.
  rewrite <- (reading_maps orc (relaxed d) m' bs off vals depth v n); auto using regular_relaxed; [|now rewrite levels_relaxed].
  split; [apply relaxed_reads|]. intros [R W]. now apply (reads_relaxed orc bs (relaxed d)).
Qed.

Lemma mapped_alike orc d1 d2 m1 m2 bs off vals v1 n1 v2 n2 fuel1 fuel2 :
  extensional orc -> everywhere regular d1 -> everywhere regular d2 -> everywhere SpecMake.shaped d1 -> relaxed d1 = relaxed d2 ->
  create orc d1 None = Ok (Some m1) -> create orc d2 None = Ok (Some m2) ->
  0 <= off <= len bs -> levels d1 <= 11 ->
  SpecMap.maps orc fuel1 m1 bs off vals 0 v1 n1 -> SpecMap.maps orc fuel2 m2 bs off vals 0 v2 n2 ->
  v1 = v2 /\ n1 = n2.
Proof.
  intros X E1 E2 SH Q C1 C2 Ho D M1 M2.
  assert (R1 : reads orc bs d1 off vals v1 n1) by (apply (reading_maps orc d1 m1 bs off vals 0); eauto; lia).
  assert (R2 : reads orc bs d2 off vals v2 n2).
  { apply (reading_maps orc d2 m2 bs off vals 0); eauto. rewrite <- levels_relaxed, <- Q, levels_relaxed. lia. }
  apply relaxed_reads in R1, R2. rewrite <- Q in R2.
  destruct (created_relaxed orc d1) as (m' & C'); eauto. { revert E1. apply everywhere_weaken. now intros x [A _]. }
  apply (reading_unique orc (relaxed d1) m' bs off vals); auto using regular_relaxed; [now rewrite levels_relaxed|apply R1|apply R2].
Qed.

(** *** Folding *)

Lemma stores_relaxed en d d' v b : relaxed d' = relaxed d -> stores en d v b -> stores en d' v b.
Proof. intros E S. destruct S; destruct d'; try discriminate E; cbn in E; injection E as; subst; [eapply StoreInteger|eapply StoreBoolean|eapply StoreCharacter|eapply StoreDouble|eapply StoreSingle]; eauto. Qed.

Lemma stores_all_relaxed en ds vs b : stores_all en ds vs b -> forall ds', map relaxed ds' = map relaxed ds -> stores_all en ds' vs b.
Proof.
  induction 1 as [|d ds v vs b bs S _ IH]; intros [|d' ds'] E; try discriminate E; [constructor|]. injection E as E1 E2.
  constructor; auto. eapply stores_relaxed; eauto.
Qed.

Lemma at_once_relaxed d d' : relaxed d' = relaxed d -> at_once d -> at_once d'.
Proof.
  intros E. destruct d; destruct d'; try discriminate E; cbn in E; try injection E as; subst; auto; cbn; try tauto.
  - destruct k; auto. rewrite <- (composite_relaxed d'), <- (composite_relaxed d). congruence.
  - rewrite <- (one_go_relaxed _ members0), <- (one_go_relaxed _ members). congruence.
Qed.

Lemma relaxed_elems k e el d' : relaxed d' = relaxed (DElems k e el) -> exists el', d' = DElems k e el' /\ relaxed el' = relaxed el.
Proof. destruct d'; try discriminate. cbn. intros E. injection E as; subst. eauto. Qed.

Lemma same_size_relaxed d d' : relaxed d' = relaxed d -> get_byte_size d' = get_byte_size d.
Proof. intros E. now rewrite <- (size_relaxed d'), E, size_relaxed. Qed.
Lemma same_order_relaxed d d' : relaxed d' = relaxed d -> dt_byte_order d' = dt_byte_order d.
Proof. intros E. now rewrite <- (order_relaxed d'), E, order_relaxed. Qed.
Lemma same_name_relaxed d d' : relaxed d' = relaxed d -> dt_name d' = dt_name d.
Proof. intros E. now rewrite <- (name_relaxed d'), E, name_relaxed. Qed.

Lemma writes_relaxed orc d vals v b : writes orc d vals v b -> forall d', relaxed d' = relaxed d -> writes orc d' vals v b.
Proof.
  apply (TurnProofs.writes_ind' orc (fun d vals v b => forall d', relaxed d' = relaxed d -> writes orc d' vals v b)
    (fun cls bo v ms b => forall ms', map relaxed ms' = map relaxed ms -> writes_members orc cls bo v ms' b)); clear d vals v b.
  - intros d bo vals v b N O S d' E. apply (WriteNumber orc _ bo).
    + destruct d, d'; try discriminate E; exact N.
    + now rewrite (same_order_relaxed _ _ E).
    + eapply stores_relaxed; eauto.
  - intros f fv tv x z vals b V S d' E. destruct d'; try discriminate E. cbn in E. injection E as; subst. now apply (WriteBoolean orc _ _ _ x z).
  - intros f z vals b S d' E. destruct d'; try discriminate E. cbn in E. injection E as; subst. now apply WriteCharacter.
  - intros f z vals b S d' E. destruct d'; try discriminate E. cbn in E. injection E as; subst. now apply WriteCharacterByte.
  - intros f u vals b H d' E. destruct d'; try discriminate E. cbn in E. injection E as; subst. now apply WriteUUID.
  - intros mt bo a vals b d' E. destruct d'; try discriminate E. apply WritePadding.
  - intros e el bo l vals v b A N H O S d' E. pose proof (at_once_relaxed _ _ E A) as A'.
    apply relaxed_elems in E. destruct E as (el' & -> & E).
    apply (WriteSequence orc _ _ bo l); auto.
    + unfold holds_elements in *. now rewrite (same_size_relaxed _ _ E).
    + rewrite (same_order_relaxed (element_type e el)); auto. now rewrite <- !element_relaxed, E.
    + eapply stores_all_relaxed; [exact S|]. rewrite !map_map. apply map_ext. auto.
  - intros e el vals b U H d' E. apply relaxed_elems in E. destruct E as (el' & -> & E).
    apply WriteStream; [now rewrite <- unsized_relaxed, E, unsized_relaxed|now rewrite <- stream_relaxed, E, stream_relaxed].
  - intros e el t vals b U H d' E. apply relaxed_elems in E. destruct E as (el' & -> & E).
    apply WriteStreamTerminated; auto. now rewrite <- unsized_relaxed, E, unsized_relaxed.
  - intros e el t vals b U H N d' E. apply relaxed_elems in E. destruct E as (el' & -> & E).
    apply WriteStreamAdded; auto. now rewrite <- unsized_relaxed, E, unsized_relaxed.
  - intros e el s l vals b H W IH d' E. apply relaxed_elems in E. destruct E as (el' & -> & E).
    apply (WriteString orc _ _ s l); auto. apply IH. cbn. now rewrite E.
  - intros mt bo ms vals v b A S d' E. pose proof (at_once_relaxed _ _ E A) as A'. destruct d'; try discriminate E.
    cbn in E. injection E as -> -> E. apply WriteStructureOnce; auto.
    replace (map (fun m0 => py_getattr v (dt_name m0)) members) with (map (py_getattr v) (map dt_name members)) by (rewrite map_map; reflexivity).
    rewrite <- (names_relaxed members), E, names_relaxed, map_map. eapply stores_all_relaxed; [exact S|].
    rewrite !map_map, !(map_ext _ _ (fun x => eq_sym (type_relaxed x))), <- !(map_map relaxed type_of). congruence.
  - intros mt bo ms vals v b A W IH d' E.
    assert (A' : ~ at_once d') by (intros Q; apply A; eapply at_once_relaxed; [|exact Q]; auto). destruct d'; try discriminate E.
    cbn in E. injection E as -> -> E. apply WriteStructure; auto.
  - intros cls bo v [|? ?] E; [|discriminate E]. constructor.
  - intros cls bo v m ms b H W IH [|m' ms'] E; [discriminate E|]. injection E as Em E. apply WriteAbsent; auto.
    assert (Eu : relaxed (used_type cls bo m') = relaxed (used_type cls bo m)) by (rewrite <- !used_relaxed; congruence).
    rewrite (same_name_relaxed _ _ Em). destruct H as [H|H]; [now left|right].
    destruct (used_type cls bo m), (used_type cls bo m'); try discriminate Eu; auto.
  - intros cls bo v m ms b bs N W IH W2 IH2 [|m' ms'] E; [discriminate E|]. injection E as Em E.
    assert (Eu : relaxed (used_type cls bo m') = relaxed (used_type cls bo m)) by (rewrite <- !used_relaxed; congruence).
    apply WritePresent; rewrite ?(same_name_relaxed _ _ Em); auto.
Qed.

Lemma folded_alike orc d1 d2 m1 m2 v c b :
  extensional orc -> everywhere sound d1 -> everywhere sound d2 -> relaxed d1 = relaxed d2 ->
  create orc d1 None = Ok (Some m1) -> create orc d2 None = Ok (Some m2) -> proper v -> clean c ->
  (fst (foldbs orc m1 v c) = Ok (VBytes b) <-> fst (foldbs orc m2 v c) = Ok (VBytes b)).
Proof.
  intros X E1 E2 Q C1 C2 P Cl.
  rewrite (folding_writes orc d1 m1 v c b X E1 C1 P Cl), (folding_writes orc d2 m2 v c b X E2 C2 P Cl).
  split; intros R; eapply writes_relaxed; eauto.
Qed.
