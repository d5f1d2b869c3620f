(** Members that are moved into a structure of their own are read as before. *)
From Coq Require Import String List ZArith Bool Lia.
From Verif Require Import Base PyVal PyStruct DataTypes ClassFactory DataMaps.
From Verif Require Import BytesProofs SpecPrim PrimProofs SpecMap SpecCreate SpecReads SpecFold SpecGrow SpecEdit SpecRegroup
  CreateProofs StreamProofs SteadyProofs FoldProofs ReadsProofs FitProofs TellProofs GrowProofs EditProofs DisturbProofs.
Import ListNotations.
Open Scope Z_scope.
#[local] Arguments Z.mul : simpl never.
#[local] Arguments Z.add : simpl never.
#[local] Arguments Z.div : simpl never.

(** *** The name of a definition that is not a structure does not matter *)

Definition nameless (d : dtype) : Prop :=
  match d with DStructure _ _ _ | DGroup _ _ _ _ _ _ => False | _ => True end.

Definition twin (d d' : dtype) : Prop :=
  d' = d \/ exists n b, nameless d /\ dt_byte_order d = Some b /\ d' = set_name_bo n b d.

Lemma copy_again n1 n2 b d : set_name_bo n2 b (set_name_bo n1 b d) = set_name_bo n2 b d.
Proof. destruct d; reflexivity. Qed.

Lemma copy_order n b d : dt_byte_order d = Some BONative -> dt_byte_order (set_name_bo n b d) = Some b.
Proof. destruct d; cbn; try discriminate; auto. Qed.

Lemma nameless_copy n b d : nameless d -> nameless (set_name_bo n b d).
Proof. destruct d; auto. Qed.

Lemma twin_element e e' el : e_bo e' = e_bo e -> twin (element_type e el) (element_type e' el).
Proof.
  intros B. unfold element_type. rewrite B. destruct (e_bo e) eqn:Q; try (now left); destruct (dt_byte_order el) as [[]|] eqn:O; try (now left);
  destruct (is_composite el) eqn:I; try (now left); right; do 2 eexists; (split; [apply nameless_copy; destruct el; try exact I0; try discriminate I; exact Logic.I|]);
  (split; [apply copy_order; exact O|]); symmetry; apply copy_again.
Qed.

Lemma reads_twin orc bs d off e v n : reads orc bs d off e v n -> forall d', twin d d' -> reads orc bs d' off e v n.
Proof.
  intros Q. induction Q using reads_ind' with
    (P0 := fun d off rs => forall d', twin d d' -> reads_elements orc bs d' off rs)
    (P1 := fun cls bo names vals done ms off rs => True); auto; intros d' T.
  - destruct T as [->|(nm & b0 & N & B & ->)]; [now constructor|]. cbn in B. injection B as <-.
    apply (ReadInteger orc bs (mkFixed (mkMeta nm (m_aliases (f_meta f)) (m_desc (f_meta f))) (f_bo f) (f_size f) (f_units f)) u); auto.
  - destruct T as [->|(nm & b0 & N & B & ->)]; [now constructor|]. cbn in B. injection B as <-.
    apply (ReadDouble orc bs (mkFixed (mkMeta nm (m_aliases (f_meta f)) (m_desc (f_meta f))) (f_bo f) (f_size f) (f_units f))); auto.
  - destruct T as [->|(nm & b0 & N & B & ->)]; [now constructor|]. cbn in B. injection B as <-.
    apply (ReadSingle orc bs (mkFixed (mkMeta nm (m_aliases (f_meta f)) (m_desc (f_meta f))) (f_bo f) (f_size f) (f_units f))); auto.
  - destruct T as [->|(nm & b0 & N & B & ->)]; [now constructor|]. cbn in B. injection B as <-.
    apply (ReadBoolean orc bs (mkFixed (mkMeta nm (m_aliases (f_meta f)) (m_desc (f_meta f))) (f_bo f) (f_size f) (f_units f))); auto.
  - destruct T as [->|(nm & b0 & N & B & ->)]; [now constructor|]. cbn in B. injection B as <-.
    apply (ReadCharacter orc bs (mkFixed (mkMeta nm (m_aliases (f_meta f)) (m_desc (f_meta f))) (f_bo f) (f_size f) (f_units f))); auto.
  - destruct T as [->|(nm & b0 & N & B & ->)]; [now constructor|]. cbn in B. injection B as <-.
    apply (ReadUUID orc bs (mkFixed (mkMeta nm (m_aliases (f_meta f)) (m_desc (f_meta f))) (f_bo f) (f_size f) (f_units f))); auto.
  - destruct T as [->|(nm & b0 & N & B & ->)]; now constructor.
  - destruct T as [->|(nm & b0 & N & B & ->)]; [now constructor|]. cbn in B. injection B as <-. cbn [set_name_bo].
    apply ReadCounted; auto. apply IHQ. now apply twin_element.
  - destruct T as [->|(nm & b0 & N & B & ->)]; [econstructor; eauto|]. cbn in B. injection B as <-. cbn [set_name_bo].
    eapply ReadTerminated; eauto; apply IHQ; now apply twin_element.
  - destruct T as [->|(nm & b0 & N & B & ->)]; [eapply ReadSized; eauto|]. cbn in B. injection B as <-. cbn [set_name_bo].
    eapply ReadSized; eauto; apply IHQ; now apply twin_element.
  - destruct T as [->|(nm & b0 & N & B & ->)]; [eapply ReadSizedVariable; eauto|]. cbn in B. injection B as <-. cbn [set_name_bo].
    eapply ReadSizedVariable; eauto; apply IHQ; now apply twin_element.
  - destruct T as [->|(nm & b0 & N & B & ->)]; [now constructor|]. now apply ReadStream.
  - destruct T as [->|(nm & b0 & N & B & ->)]; [now constructor|]. now apply ReadStreamTerminated.
  - destruct T as [->|(nm & b0 & N & B & ->)]; [econstructor; eauto|]. cbn [set_name_bo] in *. cbn in B.
    eapply ReadString; eauto. apply IHQ. right. exists nm, b0. split; [exact I|]. split; [exact B|reflexivity].
  - destruct T as [->|(nm & b0 & N & B & ->)]; [now constructor|]. now destruct N.
  - destruct T as [->|(nm & b0 & N & B & ->)]; [econstructor; eauto|]. now destruct N.
  - constructor.
  - constructor; auto.
Qed.

Lemma twin_used c c' bo m : movable bo m -> twin (used_type c bo m) (used_type c' bo m).
Proof.
  intros M. unfold used_type. destruct bo eqn:Q; try (now left); destruct (dt_byte_order (type_of m)) as [[]|] eqn:O; try (now left);
  right; do 2 eexists; (split; [apply nameless_copy; destruct M as [M|[M|M]]; [discriminate|congruence|exact M]|]);
  (split; [apply copy_order; exact O|]); symmetry; apply copy_again.
Qed.

(** *** Members without expressions are read alike in any structure *)

Lemma wordless_condition orc m e b : everywhere wordless m -> (condition_is orc m e b <-> b = true).
Proof.
  intros W. unfold condition_is. assert (Q : truthy_str (member_cond m) = None); [|now rewrite Q].
  assert (Q : wordless m) by (destruct m; now destruct W). destruct m; try reflexivity. cbn in Q |- *. now destruct condition.
Qed.

Lemma members_moved orc bs c c' bo names names' vals vals' ms : Forall (everywhere wordless) ms -> Forall (movable bo) ms ->
  forall done done' off rs, reads_members orc bs c bo names vals done ms off rs -> reads_members orc bs c' bo names' vals' done' ms off rs.
Proof.
  induction ms as [|m ms IH]; intros W M done done' off rs R; [inversion R; constructor|].
  inversion W as [|? ? W1 W2]; inversion M as [|? ? M1 M2]; subst. specialize (IH W2 M2).
  apply members_present in R. destruct R as (r & rs0 & -> & R & H). destruct r as [[v n]|].
  - destruct H as (_ & Q & A). apply ReadPresent; auto.
    + now apply wordless_condition.
    + apply (reads_twin orc bs (used_type c bo m)); [|now apply twin_used]. eapply deaf; [|exact Q].
      apply same_used; auto using wordless_copy.
    + eapply IH. exact R.
  - exfalso. apply wordless_condition in H; auto. discriminate.
Qed.

(** *** Members that do not look at what is regrouped *)

Lemma members_alike orc (R : env -> env -> Prop) (sees : string -> Prop) bs cls bo names names' vals vals' ms :
  (forall x e e', R e e' -> sees x -> o_eval orc x (ns e') = o_eval orc x (ns e)) ->
  (forall c p e e', R e e' -> R (scope c p e) (scope c p e')) ->
  Forall (everywhere (fun d => Forall sees (expressions d))) ms ->
  forall done done' off rs,
  (forall d, (List.length d <= List.length ms)%nat ->
     R (scope cls (partly cls names (done ++ d)) vals) (scope cls (partly cls names' (done' ++ d)) vals')) ->
  reads_members orc bs cls bo names vals done ms off rs -> reads_members orc bs cls bo names' vals' done' ms off rs.
Proof.
  intros RE RS. induction ms as [|m ms IH]; intros S done done' off rs H Q; [inversion Q; constructor|].
  inversion S as [|? ? S1 S2]; subst. specialize (IH S2).
  assert (E : R (scope cls (partly cls names done) vals) (scope cls (partly cls names' done') vals')).
  { specialize (H []). rewrite !app_nil_r in H. apply H. cbn. lia. }
  assert (N : forall r d, (List.length d <= List.length ms)%nat ->
     R (scope cls (partly cls names ((done ++ [r]) ++ d)) vals) (scope cls (partly cls names' ((done' ++ [r]) ++ d)) vals')).
  { intros r d L. rewrite <- !app_assoc. apply H. cbn. lia. }
  assert (S0 : Forall sees (expressions m)) by (destruct m; exact (proj1 S1)).
  apply members_present in Q. destruct Q as (r & rs0 & -> & Q & P). destruct r as [[v n]|].
  - destruct P as (C & P & A). apply ReadPresent; auto.
    + eapply (condition_alike orc R sees); eauto.
    + eapply (reads_alike orc R sees); eauto. apply (same_used (seen sees)); [apply seen_copy|exact S1].
    + eapply IH; [|exact Q]. auto.
  - apply ReadAbsent; [eapply (condition_alike orc R sees); eauto|]. cbn [size_of] in Q. rewrite Z.add_0_r in Q. eapply IH; [|exact Q]. auto.
Qed.

Definition eitherway ns x e e' := regrouped_env ns x e e' \/ regrouped_env ns x e' e.

Lemma regrouped_refl ns x e : regrouped_env ns x e e.
Proof. induction e; constructor; auto. split; auto. now left. Qed.

Lemma regrouped_scope ns x cls p p' e e' : regrouped ns x p p' -> regrouped_env ns x e e' -> regrouped_env ns x (scope cls p e) (scope cls p' e').
Proof. intros P E. unfold scope. apply Forall2_app; auto. Qed.

Lemma eitherway_scope ns x c p e e' : eitherway ns x e e' -> eitherway ns x (scope c p e) (scope c p e').
Proof. intros [H|H]; [left|right]; (apply regrouped_scope; [now left|exact H]). Qed.

Lemma eitherway_eval orc ns0 x s e e' : eitherway ns0 x e e' -> unconcerned orc ns0 x s -> o_eval orc s (ns e') = o_eval orc s (ns e).
Proof. intros [H|H] U; [now apply U|symmetry; now apply U]. Qed.

Lemma repeat_split {A} (x : A) i j : repeat x (i + j) = repeat x i ++ repeat x j.
Proof. apply repeat_app. Qed.

Lemma regrouped_before cls na nm x nb d : (List.length d <= List.length na)%nat ->
  regrouped nm x (partly cls (na ++ nm ++ nb) d) (partly cls (na ++ x :: nb) d).
Proof.
  intros L. right. unfold partly. rewrite !app_length. cbn [List.length].
  replace (List.length na + (List.length nm + List.length nb) - List.length d)%nat with ((List.length na - List.length d) + (List.length nm + List.length nb))%nat by lia.
  replace (List.length na + S (List.length nb) - List.length d)%nat with ((List.length na - List.length d) + (1 + List.length nb))%nat by lia.
  rewrite !repeat_split. rewrite !app_assoc. rewrite <- !(app_assoc (map value_of d ++ _)). rewrite <- !app_assoc.
  rewrite !(app_assoc (map value_of d)).
  rewrite !(combine_app2 na) by (rewrite app_length, map_length, repeat_length; lia).
  rewrite (combine_app2 nm) by now rewrite repeat_length. cbn [repeat app combine].
  exists cls. do 4 eexists. split; [reflexivity|]. split; [|reflexivity]. apply map_fst_combine. now rewrite repeat_length.
Qed.

Lemma regrouped_after cls na nm x nb ra rm r d : List.length ra = List.length na -> List.length rm = List.length nm ->
  regrouped nm x (partly cls (na ++ nm ++ nb) ((ra ++ rm) ++ d)) (partly cls (na ++ x :: nb) ((ra ++ [r]) ++ d)).
Proof.
  intros L1 L2. right. unfold partly. rewrite !map_app, !app_length. cbn [List.length map]. rewrite <- !app_assoc. cbn [app].
  rewrite !(combine_app2 na) by (rewrite map_length; lia). rewrite (combine_app2 nm) by (rewrite map_length; lia). cbn [combine].
  replace (List.length na + S (List.length nb) - (List.length ra + 1 + List.length d))%nat with (List.length nb - List.length d)%nat by lia.
  replace (List.length na + (List.length nm + List.length nb) - (List.length ra + List.length rm + List.length d))%nat with (List.length nb - List.length d)%nat by lia.
  exists cls. do 4 eexists. split; [reflexivity|]. split; [|reflexivity]. apply map_fst_combine. rewrite map_length. lia.
Qed.

(** *** Readings of both structures *)

Lemma members_regrouped orc bs cls bo vals a ms b x mt off :
  used_type cls bo x = DStructure mt bo ms -> member_values x = None ->
  everywhere wordless x -> Forall (movable bo) ms ->
  Forall (everywhere (untouched_by orc (map dt_name ms) (dt_name x))) (a ++ b) ->
  (forall rs, reads_members orc bs cls bo (map dt_name (a ++ ms ++ b)) vals [] (a ++ ms ++ b) off rs ->
   exists ra rm rb, rs = ra ++ rm ++ rb /\ List.length ra = List.length a /\ List.length rm = List.length ms /\ List.length rb = List.length b /\
   reads_members orc bs cls bo (map dt_name (a ++ x :: b)) vals [] (a ++ x :: b) off
     (ra ++ Some (VStruct (m_name mt) (combine (map dt_name ms) (map value_of rm)), total rm) :: rb)) /\
  (forall rs, reads_members orc bs cls bo (map dt_name (a ++ x :: b)) vals [] (a ++ x :: b) off rs ->
   exists ra rm rb, rs = ra ++ Some (VStruct (m_name mt) (combine (map dt_name ms) (map value_of rm)), total rm) :: rb /\
     List.length ra = List.length a /\ List.length rm = List.length ms /\ List.length rb = List.length b /\
   reads_members orc bs cls bo (map dt_name (a ++ ms ++ b)) vals [] (a ++ ms ++ b) off (ra ++ rm ++ rb)).
Proof.
  intros U V W M T. set (nm := map dt_name ms). set (nx := dt_name x).
  assert (Ws : Forall (everywhere wordless) ms).
  { assert (Q : everywhere wordless (used_type cls bo x)) by (apply same_used; auto using wordless_copy).
    rewrite U in Q. destruct Q as [_ Q]. now apply go_forall in Q. }
  apply Forall_app in T as [Ta Tb].
  assert (NA : map dt_name (a ++ ms ++ b) = map dt_name a ++ nm ++ map dt_name b) by now rewrite !map_app.
  assert (NB : map dt_name (a ++ x :: b) = map dt_name a ++ nx :: map dt_name b) by now rewrite map_app.
  rewrite NA, NB. set (F := map dt_name a ++ nm ++ map dt_name b). set (N := map dt_name a ++ nx :: map dt_name b).
  pose (R := eitherway nm nx). pose (sees := unconcerned orc nm nx).
  assert (RE : forall s e e', R e e' -> sees s -> o_eval orc s (ns e') = o_eval orc s (ns e)) by (intros; eapply eitherway_eval; eauto).
  assert (RS : forall c p e e', R e e' -> R (scope c p e) (scope c p e')) by (intros; now apply eitherway_scope).
  assert (Ha : forall d, (List.length d <= List.length a)%nat ->
    regrouped_env nm nx (scope cls (partly cls F ([] ++ d)) vals) (scope cls (partly cls N ([] ++ d)) vals)).
  { intros d L. apply regrouped_scope; [|apply regrouped_refl]. apply regrouped_before. now rewrite map_length. }
  assert (Hb : forall ra rm r d, List.length ra = List.length a -> List.length rm = List.length ms ->
    regrouped_env nm nx (scope cls (partly cls F ((ra ++ rm) ++ d)) vals) (scope cls (partly cls N ((ra ++ [r]) ++ d)) vals)).
  { intros ra rm r d L1 L2. apply regrouped_scope; [|apply regrouped_refl]. apply regrouped_after; unfold nm; now rewrite map_length. }
  assert (Ha' : forall r, reads_members orc bs cls bo F vals [] a off r <-> reads_members orc bs cls bo N vals [] a off r).
  { intros r. split; intros Q; refine (members_alike orc R sees bs cls bo _ _ vals vals a RE RS Ta [] [] off r _ Q); intros d L; [left|right]; auto. }
  assert (Hb' : forall ra rm r o rs, List.length ra = List.length a -> List.length rm = List.length ms ->
    (reads_members orc bs cls bo F vals (ra ++ rm) b o rs <-> reads_members orc bs cls bo N vals (ra ++ [r]) b o rs)).
  { intros ra rm r o rs L1 L2. split; intros Q; [refine (members_alike orc R sees bs cls bo _ _ vals vals b RE RS Tb (ra ++ rm) (ra ++ [r]) o rs _ Q)
      |refine (members_alike orc R sees bs cls bo _ _ vals vals b RE RS Tb (ra ++ [r]) (ra ++ rm) o rs _ Q)]; intros d L; [left|right]; auto. }
  split; intros rs Q; apply members_app in Q.
  - destruct Q as (ra & r2 & -> & Q1 & Q2). pose proof (members_length _ _ _ _ _ _ _ _ _ _ Q1) as L1. apply members_app in Q2.
    destruct Q2 as (rm & rb & -> & Q2 & Q3). pose proof (members_length _ _ _ _ _ _ _ _ _ _ Q2) as L2.
    pose proof (members_length _ _ _ _ _ _ _ _ _ _ Q3) as L3.
    exists ra, rm, rb. split; [reflexivity|]. split; [exact L1|]. split; [exact L2|]. split; [exact L3|].
    apply members_app. exists ra. eexists. split; [reflexivity|]. split; [now apply Ha'|]. apply ReadPresent.
    + now apply wordless_condition.
    + rewrite U. apply ReadStructure. eapply members_moved; [exact Ws|exact M|exact Q2].
    + unfold allowed. now rewrite V.
    + apply (Hb' ra rm); auto.
  - destruct Q as (ra & r2 & -> & Q1 & Q2). pose proof (members_length _ _ _ _ _ _ _ _ _ _ Q1) as L1.
    apply members_present in Q2. destruct Q2 as (r & rb & -> & Q3 & Q2). pose proof (members_length _ _ _ _ _ _ _ _ _ _ Q3) as L3.
    destruct r as [[v n]|]; [|exfalso; apply wordless_condition in Q2; auto; discriminate].
    destruct Q2 as (_ & Q2 & _). rewrite U in Q2. apply reads_structure in Q2. destruct Q2 as (rm & Q2 & -> & ->).
    pose proof (members_length _ _ _ _ _ _ _ _ _ _ Q2) as L2.
    exists ra, rm, rb. split; [reflexivity|]. split; [exact L1|]. split; [exact L2|]. split; [exact L3|].
    apply members_app. exists ra, (rm ++ rb). split; [reflexivity|]. split; [now apply Ha'|].
    apply members_app. exists rm, rb. split; [reflexivity|]. split; [eapply members_moved; [exact Ws|exact M|exact Q2]|].
    apply (Hb' ra rm) in Q3; auto.
Qed.

(** C71: the members [ms] of a structure are moved into a structure of their own,
    the new member [x]: both are mapped from the same bytes, to the same values. *)
Lemma regrouped_maps orc mt mt1 mt' bo a ms b x m m' bs off vals depth fa fm fb n :
  extensional orc -> m_name mt1 = m_name mt ->
  used_type (m_name mt) bo x = DStructure mt' bo ms -> member_values x = None ->
  everywhere wordless x -> Forall (movable bo) ms ->
  Forall (everywhere (untouched_by orc (map dt_name ms) (dt_name x))) (a ++ b) ->
  everywhere regular (DStructure mt bo (a ++ ms ++ b)) -> everywhere regular (DStructure mt1 bo (a ++ x :: b)) ->
  create orc (DStructure mt bo (a ++ ms ++ b)) None = Ok (Some m) ->
  create orc (DStructure mt1 bo (a ++ x :: b)) None = Ok (Some m') ->
  0 <= off <= len bs -> depth + levels (DStructure mt1 bo (a ++ x :: b)) <= 11 ->
  map fst fa = map dt_name a -> map fst fm = map dt_name ms -> map fst fb = map dt_name b ->
  ((exists fuel, maps orc fuel m bs off vals depth (VStruct (m_name mt) (fa ++ fm ++ fb)) n) <->
   (exists fuel, maps orc fuel m' bs off vals depth (VStruct (m_name mt) (fa ++ (dt_name x, VStruct (m_name mt') fm) :: fb)) n)).
Proof.
  intros X N U V W M T E E' C C' Ho D Na Nm Nb.
  assert (G : forall l p q, p <= q -> fold_right (fun m a => Z.max (levels m) a) p l <= fold_right (fun m a => Z.max (levels m) a) q l /\ p <= fold_right (fun m a => Z.max (levels m) a) p l).
  { induction l as [|y l IH]; cbn [fold_right]; intros p q H; [lia|]. specialize (IH p q H). lia. }
  assert (D1 : depth + levels (DStructure mt bo (a ++ ms ++ b)) <= 11).
  { assert (Lx : 1 + fold_right (fun m a => Z.max (levels m) a) 0 ms <= levels x).
    { pose proof (levels_used (m_name mt) bo x) as L. rewrite U in L. cbn [levels] in L. lia. }
    cbn [levels] in *. rewrite fold_right_app in *. cbn [fold_right] in D. rewrite fold_right_app.
    set (B := fold_right (fun m a => Z.max (levels m) a) 0 b) in *.
    assert (P : forall l q, fold_right (fun m a => Z.max (levels m) a) q l <= Z.max (fold_right (fun m a => Z.max (levels m) a) 0 l) q).
    { induction l as [|y l IH]; intros q; cbn [fold_right]; [lia|]. specialize (IH q). lia. }
    pose proof (P ms B). pose proof (G a (fold_right (fun m a => Z.max (levels m) a) B ms) (Z.max (levels x) B) ltac:(lia)). lia. }
  rewrite <- (reading_maps _ _ _ _ _ _ depth _ _ X E C Ho D1). rewrite <- (reading_maps _ _ _ _ _ _ depth _ _ X E' C' Ho D).
  destruct (members_regrouped orc bs (m_name mt) bo vals a ms b x mt' off U V W M T) as [P Q].
  assert (Ln : forall (l : list (string * pyval)) (k : list dtype), map fst l = map dt_name k -> List.length l = List.length k).
  { intros l k H. rewrite <- (map_length fst l), H. apply map_length. }
  apply Ln in Na as La. apply Ln in Nm as Lm. apply Ln in Nb as Lb.
  split; intros R; apply reads_structure in R; destruct R as (rs & R & Ev & ->).
  - destruct (P rs R) as (ra & rm & rb & -> & L1 & L2 & L3 & R'). injection Ev as Ev.
    rewrite !map_app in Ev. rewrite combine_app2 in Ev by now rewrite !map_length. rewrite combine_app2 in Ev by now rewrite !map_length.
    apply app_split in Ev; [|rewrite combine_length, !map_length; lia]. destruct Ev as [-> Ev].
    apply app_split in Ev; [|rewrite combine_length, !map_length; lia]. destruct Ev as [-> ->].
    rewrite <- N in R'. apply ReadStructure in R'. rewrite N, !total_app in *. cbn [total] in R'.
    rewrite !map_app in R'. rewrite combine_app2 in R' by now rewrite !map_length. exact R'.
  - destruct (Q rs) as (ra & rm & rb & -> & L1 & L2 & L3 & R'); [now rewrite <- N|]. injection Ev as Ec Ev.
    rewrite !map_app in Ev. rewrite combine_app2 in Ev by now rewrite !map_length. cbn [map combine] in Ev.
    apply app_split in Ev; [|rewrite combine_length, !map_length; lia]. destruct Ev as [-> Ev].
    injection Ev as -> ->. apply ReadStructure in R'. rewrite !total_app in *.
    rewrite !map_app in R'. rewrite combine_app2 in R' by now rewrite !map_length. rewrite combine_app2 in R' by now rewrite !map_length. exact R'.
Qed.

Lemma structure_fields orc mt bo ms m fuel bs off vals depth v n : extensional orc -> everywhere regular (DStructure mt bo ms) ->
  create orc (DStructure mt bo ms) None = Ok (Some m) -> 0 <= off <= len bs -> maps orc fuel m bs off vals depth v n ->
  exists l, v = VStruct (m_name mt) l /\ map fst l = map dt_name ms.
Proof.
  intros X E C Ho M. apply (mapping_reads _ _ _ _ _ _ _ _ _ _ X E C Ho) in M. apply reads_structure in M.
  destruct M as (rs & R & -> & _). apply members_length in R. eexists. split; [reflexivity|]. apply map_fst_combine. now rewrite !map_length.
Qed.

Lemma names_app (l : list (string * pyval)) x y : map fst l = x ++ y -> exists l1 l2, l = l1 ++ l2 /\ map fst l1 = x /\ map fst l2 = y.
Proof.
  revert x. induction l as [|p l IH]; intros x H.
  - symmetry in H. apply app_eq_nil in H as [-> ->]. exists [], []. auto.
  - destruct x as [|h x].
    + exists [], (p :: l). auto.
    + injection H as H1 H2. destruct (IH x H2) as (l1 & l2 & -> & A & B). exists (p :: l1), l2. cbn. rewrite H1, A. auto.
Qed.

(** Every value of the definition without the structure of its own is found in it. *)
Lemma moved_in orc mt mt1 mt' bo a ms b x m m' fuel bs off vals depth v n :
  extensional orc -> m_name mt1 = m_name mt ->
  used_type (m_name mt) bo x = DStructure mt' bo ms -> member_values x = None ->
  everywhere wordless x -> Forall (movable bo) ms ->
  Forall (everywhere (untouched_by orc (map dt_name ms) (dt_name x))) (a ++ b) ->
  everywhere regular (DStructure mt bo (a ++ ms ++ b)) -> everywhere regular (DStructure mt1 bo (a ++ x :: b)) ->
  create orc (DStructure mt bo (a ++ ms ++ b)) None = Ok (Some m) ->
  create orc (DStructure mt1 bo (a ++ x :: b)) None = Ok (Some m') ->
  0 <= off <= len bs -> depth + levels (DStructure mt1 bo (a ++ x :: b)) <= 11 ->
  maps orc fuel m bs off vals depth v n ->
  exists fuel' fa fm fb,
    v = VStruct (m_name mt) (fa ++ fm ++ fb) /\
    map fst fa = map dt_name a /\ map fst fm = map dt_name ms /\ map fst fb = map dt_name b /\
    maps orc fuel' m' bs off vals depth (VStruct (m_name mt) (fa ++ (dt_name x, VStruct (m_name mt') fm) :: fb)) n.
Proof.
  intros X N U V W M T E E' C C' Ho D Q.
  destruct (structure_fields _ _ _ _ _ _ _ _ _ _ _ _ X E C Ho Q) as (l & -> & L). rewrite !map_app in L.
  apply names_app in L as (fa & l2 & -> & La & L). apply names_app in L as (fm & fb & -> & Lm & Lb).
  destruct (proj1 (regrouped_maps orc mt mt1 mt' bo a ms b x m m' bs off vals depth fa fm fb n X N U V W M T E E' C C' Ho D La Lm Lb)) as (f & F); eauto.
  exists f, fa, fm, fb. auto.
Qed.

(** And the reverse. *)
Lemma moved_out orc mt mt1 mt' bo a ms b x m m' fuel bs off vals depth v n :
  extensional orc -> m_name mt1 = m_name mt ->
  used_type (m_name mt) bo x = DStructure mt' bo ms -> member_values x = None ->
  everywhere wordless x -> Forall (movable bo) ms ->
  Forall (everywhere (untouched_by orc (map dt_name ms) (dt_name x))) (a ++ b) ->
  everywhere regular (DStructure mt bo (a ++ ms ++ b)) -> everywhere regular (DStructure mt1 bo (a ++ x :: b)) ->
  create orc (DStructure mt bo (a ++ ms ++ b)) None = Ok (Some m) ->
  create orc (DStructure mt1 bo (a ++ x :: b)) None = Ok (Some m') ->
  0 <= off <= len bs -> depth + levels (DStructure mt1 bo (a ++ x :: b)) <= 11 ->
  maps orc fuel m' bs off vals depth v n ->
  exists fuel' fa fm fb,
    v = VStruct (m_name mt) (fa ++ (dt_name x, VStruct (m_name mt') fm) :: fb) /\
    map fst fa = map dt_name a /\ map fst fm = map dt_name ms /\ map fst fb = map dt_name b /\
    maps orc fuel' m bs off vals depth (VStruct (m_name mt) (fa ++ fm ++ fb)) n.
Proof.
  intros X N U V W M T E E' C C' Ho D Q. pose proof Q as Q0.
  apply (mapping_reads _ _ _ _ _ _ _ _ _ _ X E' C' Ho) in Q. apply reads_structure in Q. destruct Q as (rs & Q & -> & ->). rewrite N in *.
  destruct (members_regrouped orc bs (m_name mt) bo vals a ms b x mt' off U V W M T) as [_ P].
  destruct (P rs Q) as (ra & rm & rb & -> & L1 & L2 & L3 & _). clear P Q.
  rewrite !map_app in *. cbn [map] in *. rewrite combine_app2 in * by now rewrite !map_length. cbn [combine value_of] in *.
  assert (A1 : map fst (combine (map dt_name a) (map value_of ra)) = map dt_name a) by (apply map_fst_combine; now rewrite !map_length).
  assert (A2 : map fst (combine (map dt_name ms) (map value_of rm)) = map dt_name ms) by (apply map_fst_combine; now rewrite !map_length).
  assert (A3 : map fst (combine (map dt_name b) (map value_of rb)) = map dt_name b) by (apply map_fst_combine; now rewrite !map_length).
  destruct (proj2 (regrouped_maps orc mt mt1 mt' bo a ms b x m m' bs off vals depth _ _ _ _ X N U V W M T E E' C C' Ho D A1 A2 A3) (ex_intro _ fuel Q0)) as (f & F).
  exists f. do 3 eexists. split; [reflexivity|]. auto.
Qed.
