(** Structures of which only some members are there. *)
From Coq Require Import String List ZArith Bool Lia.
From Verif Require Import Base PyVal PyStruct DataTypes ClassFactory DataMaps.
From Verif Require Import BytesProofs SpecPrim PrimProofs SpecMap SpecCreate SpecReads SpecGrow SpecFilter SpecVariant
  CreateProofs ReadsProofs TellProofs GrowProofs DisturbProofs FilterProofs.
Import ListNotations.
Open Scope Z_scope.
#[local] Arguments Z.add : simpl never.

(** *** Namespaces with attributes removed from structures *)

Lemma reduced_refl gone e : reduced_env gone e e.
Proof. induction e; constructor; auto. split; auto. now left. Qed.

Lemma reduced_scope gone cls p p' e e' : reduced gone p p' -> reduced_env gone e e' -> reduced_env gone (scope cls p e) (scope cls p' e').
Proof. intros P E. unfold scope. apply Forall2_app; auto. Qed.

Definition one_way gone e e' := reduced_env gone e e' \/ reduced_env gone e' e.

Lemma without_alike orc gone bs d off e v n : everywhere (does_without orc gone) d ->
  reads orc bs d off e v n -> forall e', one_way gone e e' -> reads orc bs d off e' v n.
Proof.
  intros K Q e' E. eapply (reads_alike orc (one_way gone) (unaware orc gone)); eauto.
  - intros x a b [H|H] B; [now apply B|symmetry; now apply B].
  - intros cls p a b [H|H]; [left|right]; (apply reduced_scope; [now left|exact H]).
Qed.

Lemma without_copy orc gone n b d : does_without orc gone d -> does_without orc gone (set_name_bo n b d).
Proof. unfold does_without. now rewrite expressions_copy. Qed.

(** *** The members that are there *)

Definition given (r : reading) : bool := match r with Some _ => true | None => false end.

Fixpoint thin (ms : list dtype) (rs : list reading) : list dtype :=
  match ms, rs with
  | m :: ms', Some _ :: rs' => unconditional m :: thin ms' rs'
  | m :: ms', None :: rs' => thin ms' rs'
  | _, _ => []
  end.

Fixpoint missing (ms : list dtype) (rs : list reading) : list string :=
  match ms, rs with
  | m :: ms', Some _ :: rs' => missing ms' rs'
  | m :: ms', None :: rs' => dt_name m :: missing ms' rs'
  | _, _ => []
  end.

Lemma name_unconditional m : dt_name (unconditional m) = dt_name m.
Proof. destruct m; reflexivity. Qed.
Lemma used_unconditional cls bo m : used_type cls bo (unconditional m) = used_type cls bo m.
Proof. unfold used_type. destruct m; reflexivity. Qed.
Lemma allowed_unconditional m v : allowed (unconditional m) v <-> allowed m v.
Proof. destruct m; reflexivity. Qed.
Lemma condition_unconditional orc m vals q : condition_is orc (unconditional m) vals q <-> q = true.
Proof. unfold condition_is. destruct m; cbn; destruct q; intuition congruence. Qed.

Lemma thin_length ms : forall rs, List.length rs = List.length ms -> List.length (filter given rs) = List.length (thin ms rs).
Proof. induction ms as [|m ms IH]; intros [|[r|] rs] L; try discriminate; cbn; auto. Qed.

Lemma trimmed_app gone a a' b b' : trimmed gone a a' -> trimmed gone b b' -> trimmed gone (a ++ b) (a' ++ b').
Proof. induction 1; cbn; auto; intros; constructor; auto. Qed.

Lemma trimmed_done gone ms : forall rs, List.length rs = List.length ms -> incl (missing ms rs) gone ->
  trimmed gone (combine (map dt_name ms) (map value_of rs)) (combine (map dt_name (thin ms rs)) (map value_of (filter given rs))).
Proof.
  induction ms as [|m ms IH]; intros [|[r|] rs] L I0; try discriminate; cbn; [constructor| |].
  - rewrite name_unconditional. constructor. apply IH; auto.
  - constructor; [apply I0; now left|]. apply IH; auto. intros x Ix. apply I0. now right.
Qed.

Lemma trimmed_rest gone ms : forall rs k k', List.length rs = List.length ms -> incl (missing ms rs) gone ->
  k = List.length ms -> k' = List.length (thin ms rs) ->
  trimmed gone (combine (map dt_name ms) (repeat VNone k)) (combine (map dt_name (thin ms rs)) (repeat VNone k')).
Proof.
  induction ms as [|m ms IH]; intros [|[r|] rs] k k' L I0 -> ->; try discriminate; cbn; [constructor| |].
  - rewrite name_unconditional. constructor. apply IH; auto.
  - constructor; [apply I0; now left|]. apply IH; auto. intros x Ix. apply I0. now right.
Qed.

Lemma partly_split cls n1 n2 (rs : list reading) : List.length rs = List.length n1 ->
  partly cls (n1 ++ n2) rs = VStruct cls (combine n1 (map value_of rs) ++ combine n2 (repeat VNone (List.length n2))).
Proof.
  intros L. unfold partly. rewrite app_length. replace (List.length n1 + List.length n2 - List.length rs)%nat with (List.length n2) by lia.
  rewrite combine_app2; auto. now rewrite map_length.
Qed.

(** The conditions of the members are as their readings say. *)
Fixpoint conditions (orc : oracle) (cls : string) (names : list string) (vals : env) (done : list reading) (ms : list dtype) (rs : list reading) : Prop :=
  match ms, rs with
  | m :: ms', r :: rs' => condition_is orc m (scope cls (partly cls names done) vals) (given r) /\ conditions orc cls names vals (done ++ [r]) ms' rs'
  | _, _ => True
  end.

Lemma members_thin orc bs cls bo vals gone ms : forall dms done off rs,
  List.length done = List.length dms -> List.length rs = List.length ms ->
  incl (missing dms done) gone -> incl (missing ms rs) gone ->
  Forall (everywhere (does_without orc gone)) (thin ms rs) ->
  (reads_members orc bs cls bo (map dt_name (dms ++ ms)) vals done ms off rs <->
   conditions orc cls (map dt_name (dms ++ ms)) vals done ms rs /\
   reads_members orc bs cls bo (map dt_name (thin dms done ++ thin ms rs)) vals (filter given done) (thin ms rs) off (filter given rs)).
Proof.
  induction ms as [|m ms IH]; intros dms done off rs LD LR I1 I2 W.
  - destruct rs; [|discriminate]. cbn. split; [intros _; split; [exact I|constructor]|intros _; constructor].
  - destruct rs as [|r rs]; [discriminate|]. injection LR as LR.
    assert (P : reduced gone (partly cls (map dt_name (dms ++ m :: ms)) done) (partly cls (map dt_name (thin dms done ++ thin (m :: ms) (r :: rs))) (filter given done))).
    { rewrite !map_app, !partly_split by (rewrite map_length; auto using thin_length). right. do 3 eexists. split; [reflexivity|]. split; [reflexivity|].
      apply trimmed_app; [now apply trimmed_done|]. apply trimmed_rest; auto; rewrite ?map_length; auto. cbn. now rewrite LR. }
    assert (E : reduced_env gone (scope cls (partly cls (map dt_name (dms ++ m :: ms)) done) vals)
      (scope cls (partly cls (map dt_name (thin dms done ++ thin (m :: ms) (r :: rs))) (filter given done)) vals)) by (apply reduced_scope; auto using reduced_refl).
    assert (TA : forall r0, thin (dms ++ [m]) (done ++ [r0]) = thin dms done ++ thin [m] [r0]).
    { intros r0. clear -LD. revert done LD. induction dms as [|x dms IH]; intros [|[y|] done] L; try discriminate; cbn; [destruct r0; reflexivity|f_equal; apply IH; now injection L|apply IH; now injection L]. }
    assert (MA : forall r0, missing (dms ++ [m]) (done ++ [r0]) = missing dms done ++ missing [m] [r0]).
    { intros r0. clear -LD. revert done LD. induction dms as [|x dms IH]; intros [|[y|] done] L; try discriminate; cbn; [destruct r0; reflexivity|apply IH; now injection L|f_equal; apply IH; now injection L]. }
    assert (FA : forall r0, filter given (done ++ [r0]) = filter given done ++ filter given [r0]) by (intros; apply filter_app).
    destruct r as [[v n]|].
    + cbn [thin] in W. inversion W as [|? ? W1 W2]; subst.
      assert (U : everywhere (does_without orc gone) (used_type cls bo m)).
      { rewrite <- (used_unconditional cls bo m). apply same_used; auto. apply without_copy. }
      specialize (IH (dms ++ [m]) (done ++ [Some (v, n)]) (off + n) rs).
      rewrite TA, FA, MA, <- !app_assoc in IH. cbn [thin missing filter given app] in IH.
      assert (IH' := IH ltac:(rewrite !app_length, LD; reflexivity) LR ltac:(now rewrite app_nil_r) I2 W2). clear IH.
      cbn [conditions given thin filter]. split.
      * intros Q. inversion Q; subst. match goal with H : reads_members _ _ _ _ _ _ _ ms _ _ |- _ => destruct (proj1 IH' H) as [H1 H2] end.
        split; [split; auto|]. apply ReadPresent; auto.
        -- now apply condition_unconditional.
        -- rewrite used_unconditional. eapply without_alike; eauto. left. exact E.
        -- now apply allowed_unconditional.
      * intros [[C1 C2] Q]. inversion Q; subst. apply ReadPresent; auto.
        -- match goal with H : reads _ _ _ _ _ _ _ |- _ => rewrite used_unconditional in H; apply (without_alike orc gone bs _ _ _ _ _ U H) end. right. exact E.
        -- now apply allowed_unconditional.
        -- apply IH'. split; auto.
    + cbn [thin] in W.
      specialize (IH (dms ++ [m]) (done ++ [None]) off rs).
      rewrite TA, FA, MA, <- !app_assoc in IH. cbn [thin missing filter given app] in IH. rewrite !app_nil_r in IH.
      assert (J : incl (missing dms done ++ [dt_name m]) gone).
      { intros x Ix. apply in_app_or in Ix. destruct Ix as [Ix|[<-|[]]]; auto. apply I2. now left. }
      assert (IH' := IH ltac:(rewrite !app_length, LD; reflexivity) LR J (fun x Ix => I2 x (or_intror Ix)) W). clear IH.
      cbn [conditions given thin filter]. split.
      * intros Q. inversion Q; subst. match goal with H : reads_members _ _ _ _ _ _ _ ms _ _ |- _ => destruct (proj1 IH' H) as [H1 H2] end.
        split; [split; auto|]. exact H2.
      * intros [[C1 C2] Q]. apply ReadAbsent; auto. apply IH'. split; auto.
Qed.

(** *** Values and readings *)

Definition some_value (r : reading) : Prop := match r with Some (v, _) => v <> VNone | None => True end.

Lemma never_none_reads orc bs cls bo m off vals v n : never_none m -> reads orc bs (used_type cls bo m) off vals v n -> v <> VNone.
Proof.
  unfold never_none. intros N R. apply reads_not_none in R.
  destruct (used_cases cls bo m) as [Q|(k & b & Q)]; rewrite Q in R; destruct (type_of m); cbn in R; auto; contradiction.
Qed.

Lemma some_values orc bs cls bo names vals ms : forall done off rs, Forall never_none ms ->
  reads_members orc bs cls bo names vals done ms off rs -> Forall some_value rs.
Proof.
  induction ms as [|m ms IH]; intros done off rs F Q; inversion Q; subst; constructor; inversion F; subst; eauto.
  - eapply never_none_reads; eauto.
  - exact I.
Qed.

Lemma value_none r : some_value r -> is_none (value_of r) = negb (given r).
Proof. destruct r as [[v n]|]; cbn; auto. destruct v; auto; congruence. Qed.

Lemma fields_thin ms : forall rs, List.length rs = List.length ms -> Forall some_value rs ->
  let fields := combine (map dt_name ms) (map value_of rs) in
  those_there ms fields = thin ms rs /\ lacking fields = missing ms rs /\
  having fields = combine (map dt_name (thin ms rs)) (map value_of (filter given rs)).
Proof.
  unfold lacking, having.
  induction ms as [|m ms IH]; intros [|r rs] L F; try discriminate; cbn; auto. inversion F as [|? ? F1 F2]; subst.
  destruct (IH rs) as (A & B & C); auto. rewrite (value_none r F1). destruct r as [[v n]|]; cbn; rewrite A.
  - split; auto. split; auto. rewrite name_unconditional. cbn in C. now rewrite C.
  - split; auto. split; auto. cbn in B. now rewrite B.
Qed.

Lemma total_given rs : total (filter given rs) = total rs.
Proof. induction rs as [|[[v n]|] rs IH]; cbn; auto. f_equal. exact IH. Qed.

Lemma merge_readings ms : forall fields rs', map fst fields = map dt_name ms ->
  List.length rs' = List.length (those_there ms fields) -> Forall (fun r => given r = true) rs' ->
  combine (map dt_name (those_there ms fields)) (map value_of rs') = having fields ->
  exists rs, List.length rs = List.length ms /\ thin ms rs = those_there ms fields /\ filter given rs = rs' /\
    combine (map dt_name ms) (map value_of rs) = fields /\ map given rs = map (fun f => negb (is_none (snd f))) fields /\
    missing ms rs = lacking fields.
Proof.
  unfold having, lacking.
  induction ms as [|m ms IH]; intros [|[k w] fields] rs' N L G C; try discriminate.
  - destruct rs'; [|discriminate]. exists []. cbn. repeat split; auto.
  - cbn in N. injection N as -> N. cbn in *. destruct (is_none w) eqn:W; cbn in *.
    + destruct (IH fields rs' N L G C) as (rs & A1 & A2 & A3 & A4 & A5 & A6). exists (None :: rs). cbn.
      destruct w; try discriminate W. rewrite A1, A2, A3, A4, A5, A6. repeat split; auto.
    + destruct rs' as [|r rs']; [discriminate|]. cbn in *. injection L as L. inversion G as [|? ? G1 G2]; subst.
      injection C as _ E C. destruct (IH fields rs' N L G2 C) as (rs & A1 & A2 & A3 & A4 & A5 & A6).
      destruct r as [[v n]|]; [|discriminate G1]. exists (Some (v, n) :: rs). cbn in *. subst w. rewrite A1, A2, A3, A4, A5, A6.
      repeat split; auto.
Qed.

Lemma all_given orc bs cls bo names vals ms fields : forall done off rs,
  reads_members orc bs cls bo names vals done (those_there ms fields) off rs -> Forall (fun r => given r = true) rs.
Proof.
  revert fields. induction ms as [|m ms IH]; intros [|[k w] fields] done off rs Q; cbn in Q; [inversion Q; constructor|inversion Q; constructor|inversion Q; constructor|].
  destruct (is_none w); [eapply IH; eauto|]. inversion Q; subst.
  - constructor; auto. eapply IH; eauto.
  - match goal with H : condition_is _ (unconditional _) _ false |- _ => apply condition_unconditional in H; discriminate end.
Qed.

Lemma so_far_partly cls n1 n2 done (rs : list reading) : List.length done = List.length n1 -> List.length rs = List.length n2 ->
  partly cls (n1 ++ n2) done = VStruct cls (so_far (List.length done) (combine (n1 ++ n2) (map value_of (done ++ rs)))).
Proof.
  intros L1 L2. rewrite partly_split by auto. f_equal. unfold so_far.
  rewrite map_app, combine_app2 by now rewrite map_length.
  assert (L : List.length (combine n1 (map value_of done)) = List.length done) by (rewrite combine_length, map_length; lia).
  rewrite firstn_app, skipn_app, L, Nat.sub_diag. cbn [firstn skipn]. rewrite app_nil_r.
  rewrite firstn_all2, skipn_all2 by lia. cbn [app]. f_equal.
  clear -L2. revert n2 L2. induction rs as [|r rs IH]; intros [|x n2] L; try discriminate; cbn; auto. f_equal. apply IH. now injection L.
Qed.

Lemma conditions_hold orc cls vals ms : forall dms done rs,
  List.length done = List.length dms -> List.length rs = List.length ms ->
  (forall i m r, nth_error ms i = Some m -> nth_error rs i = Some r ->
     condition_is orc m (scope cls (VStruct cls (so_far (List.length done + i) (combine (map dt_name (dms ++ ms)) (map value_of (done ++ rs))))) vals) (given r)) ->
  conditions orc cls (map dt_name (dms ++ ms)) vals done ms rs.
Proof.
  induction ms as [|m ms IH]; intros dms done [|r rs] LD LR H; try discriminate; cbn [conditions]; auto.
  split.
  - specialize (H 0%nat m r eq_refl eq_refl). rewrite Nat.add_0_r in H. rewrite map_app in *.
    rewrite (so_far_partly cls _ _ done (r :: rs)); [exact H| |]; rewrite map_length; auto.
  - specialize (IH (dms ++ [m]) (done ++ [r]) rs). rewrite <- !app_assoc in IH. cbn [app] in IH. apply IH.
    + rewrite !app_length. cbn. lia.
    + now injection LR.
    + intros i m0 r0 A B. specialize (H (S i) m0 r0 A B). rewrite app_length. cbn [List.length].
      replace (List.length done + 1 + i)%nat with (List.length done + S i)%nat by lia. exact H.
Qed.

(** *** Mapping *)

Lemma variant_mapped orc mt mt' bo ms m m' fuel bs off vals depth fields n :
  extensional orc -> m_name mt' = m_name mt ->
  everywhere regular (DStructure mt bo ms) -> everywhere regular (DStructure mt' bo (those_there ms fields)) ->
  Forall never_none ms ->
  Forall (everywhere (does_without orc (lacking fields))) (those_there ms fields) ->
  create orc (DStructure mt bo ms) None = Ok (Some m) ->
  create orc (DStructure mt' bo (those_there ms fields)) None = Ok (Some m') ->
  0 <= off <= len bs -> depth + levels (DStructure mt' bo (those_there ms fields)) <= 11 ->
  SpecMap.maps orc fuel m bs off vals depth (VStruct (m_name mt) fields) n ->
  exists fuel', SpecMap.maps orc fuel' m' bs off vals depth (VStruct (m_name mt) (having fields)) n.
Proof.
  intros X N E E' V W C C' Ho D M. apply (mapping_reads _ _ _ _ _ _ _ _ _ _ X E C Ho) in M.
  apply (reading_maps _ _ _ _ _ _ depth _ _ X E' C' Ho D).
  apply reads_structure in M. destruct M as (rs & R & Q & ->). injection Q as ->.
  pose proof (members_length _ _ _ _ _ _ _ _ _ _ R) as L. pose proof (some_values _ _ _ _ _ _ _ _ _ _ V R) as S.
  destruct (fields_thin ms rs L S) as (A1 & A2 & A3). rewrite A1, A2, A3 in *.
  apply (members_thin orc bs (m_name mt) bo vals (missing ms rs) ms [] []) in R; auto using incl_refl; [|intros x []].
  destruct R as [_ R]. cbn [app thin filter] in R. rewrite <- total_given, <- N. apply ReadStructure. rewrite N. exact R.
Qed.

Lemma variant_back orc mt mt' bo ms m m' fuel bs off vals depth fields n :
  extensional orc -> m_name mt' = m_name mt ->
  everywhere regular (DStructure mt bo ms) -> everywhere regular (DStructure mt' bo (those_there ms fields)) ->
  Forall (everywhere (does_without orc (lacking fields))) (those_there ms fields) ->
  create orc (DStructure mt bo ms) None = Ok (Some m) ->
  create orc (DStructure mt' bo (those_there ms fields)) None = Ok (Some m') ->
  0 <= off <= len bs -> depth + levels (DStructure mt bo ms) <= 11 ->
  map fst fields = map dt_name ms ->
  (forall i x f, nth_error ms i = Some x -> nth_error fields i = Some f ->
     condition_is orc x (scope (m_name mt) (VStruct (m_name mt) (so_far i fields)) vals) (negb (is_none (snd f)))) ->
  SpecMap.maps orc fuel m' bs off vals depth (VStruct (m_name mt) (having fields)) n ->
  exists fuel', SpecMap.maps orc fuel' m bs off vals depth (VStruct (m_name mt) fields) n.
Proof.
  intros X N E E' W C C' Ho D F H M. apply (mapping_reads _ _ _ _ _ _ _ _ _ _ X E' C' Ho) in M.
  apply (reading_maps _ _ _ _ _ _ depth _ _ X E C Ho D).
  apply reads_structure in M. destruct M as (rs' & R & Q & ->). injection Q as _ Q. symmetry in Q.
  pose proof (members_length _ _ _ _ _ _ _ _ _ _ R) as L. pose proof (all_given _ _ _ _ _ _ _ _ _ _ _ R) as G.
  destruct (merge_readings ms fields rs' F L G Q) as (rs & A1 & A2 & A3 & A4 & A5 & A6).
  rewrite <- A3, total_given. rewrite <- A4. apply ReadStructure.
  apply (members_thin orc bs (m_name mt) bo vals (lacking fields) ms [] []); auto.
  - intros x [].
  - rewrite A6. apply incl_refl.
  - now rewrite A2.
  - split.
    + apply (conditions_hold orc (m_name mt) vals ms [] []); auto. intros i x r Ix Ir. cbn [List.length Nat.add app]. rewrite A4.
      assert (K : nth_error (map given rs) i = Some (given r)) by (now apply map_nth_error).
      rewrite A5 in K. destruct (nth_error fields i) as [f|] eqn:Ef.
      * rewrite (map_nth_error _ _ _ Ef) in K. injection K as <-. now apply H.
      * rewrite (proj2 (nth_error_None _ _)) in K; [discriminate|]. rewrite map_length. now apply nth_error_None.
    + cbn [app thin filter]. rewrite A2, A3. rewrite N in R. exact R.
Qed.
