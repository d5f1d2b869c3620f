(** Members appended to a structure leave those before them as they are. *)
From Coq Require Import String List ZArith Bool Lia.
From Verif Require Import Base PyVal PyStruct DataTypes ClassFactory DataMaps.
From Verif Require Import BytesProofs SpecPrim PrimProofs SpecMap SpecCreate SpecReads SpecFold SpecGrow
  CreateProofs StreamProofs SteadyProofs FoldProofs ReadsProofs FitProofs TellProofs.
Import ListNotations.
Open Scope Z_scope.
#[local] Arguments Z.mul : simpl never.
#[local] Arguments Z.add : simpl never.
#[local] Arguments Z.div : simpl never.

(** *** Copies of definitions have the same expressions *)

Lemma same_used (P : dtype -> Prop) cls bo m : (forall n b d, P d -> P (set_name_bo n b d)) -> everywhere P m -> everywhere P (used_type cls bo m).
Proof.
  intros S K. apply everywhere_type in K. destruct (used_as_explicit cls bo m) as (ov & EX & U). destruct (U (mkOracle Little (fun _ _ => EvExc) (fun _ => false) (fun _ _ => None) (fun _ _ => None))) as [_ ->].
  destruct ov as [[n b]|]; auto. destruct (type_of m); destruct K as [K K']; (split; [exact (S n b _ K)|exact K']).
Qed.

Lemma expressions_copy n b d : expressions (set_name_bo n b d) = expressions d.
Proof. destruct d; reflexivity. Qed.

Lemma overlooks_copy orc more n b d : overlooks orc more d -> overlooks orc more (set_name_bo n b d).
Proof. unfold overlooks. now rewrite expressions_copy. Qed.

Lemma wordless_copy n b d : wordless d -> wordless (set_name_bo n b d).
Proof. unfold wordless. now rewrite expressions_copy. Qed.

(** *** Readings in namespaces that differ in what nobody looks at *)

(** [alike x e e'] for the namespaces of two readings: expressions [x] give the same. *)
Section Alike.
Variable orc : oracle.
Variable R : env -> env -> Prop.
Variable sees : string -> Prop.
Hypothesis R_eval : forall x e e', R e e' -> sees x -> o_eval orc x (ns e') = o_eval orc x (ns e).
Hypothesis R_scope : forall cls p e e', R e e' -> R (scope cls p e) (scope cls p e').

Definition seen (d : dtype) : Prop := Forall sees (expressions d).

Lemma seen_copy n b d : seen d -> seen (set_name_bo n b d).
Proof. unfold seen. now rewrite expressions_copy. Qed.

Lemma measure_alike fixed x e e' n : R e e' -> (forall s, x = Some s -> sees s) -> measure orc fixed x e n -> measure orc fixed x e' n.
Proof.
  intros E S [H|(F & s & -> & N & H)]; [now left|]. right. split; auto. exists s. split; auto. split; auto.
  rewrite (R_eval s e e' E (S s eq_refl)). exact H.
Qed.

Lemma sees_size k e el : seen (DElems k e el) -> forall s, e_data_size_expr e = Some s -> sees s.
Proof. intros K s Q. unfold seen in K. cbn [expressions] in K. rewrite Q in K. apply Forall_app in K as [K _]. now inversion K. Qed.

Lemma sees_number k e el : seen (DElems k e el) -> forall s, e_number_expr e = Some s -> sees s.
Proof. intros K s Q. unfold seen in K. cbn [expressions] in K. rewrite Q in K. apply Forall_app in K as [_ K]. now inversion K. Qed.

Lemma condition_alike m e e' b : R e e' -> seen m -> condition_is orc m e b -> condition_is orc m e' b.
Proof.
  intros E S. unfold condition_is. destruct (truthy_str (member_cond m)) as [x|] eqn:T; auto.
  rewrite (R_eval x e e' E); auto. destruct m; try discriminate T. cbn in T. unfold seen in S. cbn [expressions] in S. 
  destruct condition as [y|]; [|discriminate]. destruct y; [discriminate|]. inversion T; subst. now inversion S.
Qed.

Lemma reads_alike bs d off e v n : reads orc bs d off e v n -> everywhere seen d -> forall e', R e e' -> reads orc bs d off e' v n.
Proof.
  intros Q. induction Q using reads_ind' with
    (P0 := fun d off rs => True)
    (P1 := fun cls bo names vals done ms off rs => Forall (everywhere seen) ms -> forall e', R vals e' ->
       reads_members orc bs cls bo names e' done ms off rs); auto; intros K e1 E; try (destruct K as [K K']).
  - now apply ReadInteger.
  - now apply ReadDouble.
  - now apply ReadSingle.
  - now apply ReadBoolean.
  - now apply ReadCharacter.
  - now apply ReadUUID.
  - now apply ReadPadding.
  - apply ReadCounted; auto. eapply measure_alike; eauto using sees_number.
  - eapply ReadTerminated; eauto.
  - eapply ReadSized; eauto. eapply measure_alike; eauto using sees_size.
  - eapply ReadSizedVariable; eauto. eapply measure_alike; eauto using sees_size.
  - apply ReadStream; auto. destruct H0 as [[A B]|(A & k & c & G & B & C)].
    + left. split; auto. eapply measure_alike; eauto using sees_size.
    + right. split; auto. exists k, c. split; auto. split; auto. eapply measure_alike; eauto using sees_number.
  - now apply ReadStreamTerminated.
  - eapply ReadString; eauto. apply IHQ; auto. split; auto.
  - apply ReadStructure. apply IHQ; auto. now apply go_forall in K'.
  - eapply ReadGroup; eauto.
  - constructor.
  - inversion K; subst. apply ReadPresent; auto.
    + eapply condition_alike; [apply R_scope; exact E| |exact H]. destruct m; try (now destruct H4). 
    + apply IHQ; auto. apply same_used; auto. apply seen_copy.
  - inversion K; subst. apply ReadAbsent; auto. eapply condition_alike; [apply R_scope; exact E| |exact H]. destruct m; try (now destruct H3).
Qed.

End Alike.

(** *** Namespaces with attributes added to structures *)

Lemma widened_refl more e : widened_env more e e.
Proof. induction e; constructor; auto. split; auto. now left. Qed.

Lemma widened_scope more cls p p' e e' : extended more p p' -> widened_env more e e' -> widened_env more (scope cls p e) (scope cls p' e').
Proof. intros P E. unfold scope. apply Forall2_app; auto. Qed.

Definition either more e e' := widened_env more e e' \/ widened_env more e' e.

Lemma overlooked orc more bs d off e v n : everywhere (overlooks orc more) d ->
  reads orc bs d off e v n -> forall e', either more e e' -> reads orc bs d off e' v n.
Proof.
  intros K Q e' E. eapply (reads_alike orc (either more) (blind orc more)); eauto.
  - intros x a b [H|H] B; [now apply B|symmetry; now apply B].
  - intros cls p a b [H|H]; [left|right]; (apply widened_scope; [now left|exact H]).
Qed.

Lemma deaf orc bs d off e v n : everywhere wordless d -> reads orc bs d off e v n -> forall e', reads orc bs d off e' v n.
Proof.
  intros K Q e'. eapply (reads_alike orc (fun _ _ => True) (fun _ => False)); eauto; try tauto.
  eapply everywhere_weaken; [|exact K]. intros x W. unfold seen. rewrite W. constructor.
Qed.

Lemma partly_grown cls names more (rs : list reading) : (List.length rs <= List.length names)%nat ->
  extended more (partly cls names rs) (partly cls (names ++ more) rs).
Proof.
  intros L. right. unfold partly. exists cls. eexists. exists (combine more (repeat VNone (List.length more))). split; [reflexivity|]. split.
  - f_equal. rewrite app_length. replace (List.length names + List.length more - List.length rs)%nat with ((List.length names - List.length rs) + List.length more)%nat by lia.
    rewrite repeat_app, app_assoc. 
    assert (G : forall (a : list string) (x : list pyval) b y, List.length a = List.length x -> combine (a ++ b) (x ++ y) = combine a x ++ combine b y).
    { induction a as [|h a IH]; intros [|h' x] b y E; try discriminate; [reflexivity|]. cbn. f_equal. apply IH. now injection E. }
    apply G. rewrite app_length, map_length, repeat_length. lia.
  - generalize (@VNone). intros N. clear. induction more as [|a l IH]; cbn; congruence.
Qed.

(** The readings of members do not depend on what the structure is to have after them. *)
Lemma members_grown orc bs cls bo more vals ms : forall names done off rs, Forall (everywhere (overlooks orc more)) ms ->
  (List.length done + List.length ms = List.length names)%nat ->
  (reads_members orc bs cls bo names vals done ms off rs <-> reads_members orc bs cls bo (names ++ more) vals done ms off rs).
Proof.
  induction ms as [|m ms IH]; intros names done off rs K L; [split; intros Q; inversion Q; subst; constructor|].
  inversion K as [|? ? Km Kms]; subst. cbn [List.length] in L.
  assert (P : extended more (partly cls names done) (partly cls (names ++ more) done)) by (apply partly_grown; lia).
  assert (E : widened_env more (scope cls (partly cls names done) vals) (scope cls (partly cls (names ++ more) done) vals)) by (apply widened_scope; auto using widened_refl).
  assert (Km' : everywhere (overlooks orc more) (used_type cls bo m)) by (apply same_used; auto using overlooks_copy).
  assert (CA : forall a b c, either more a b -> condition_is orc m a c -> condition_is orc m b c).
  { intros a b c Q. eapply (condition_alike orc (either more) (blind orc more)); [|exact Q|].
    - intros x a1 b1 [H|H] B; [now apply B|symmetry; now apply B].
    - destruct m; now destruct Km. }
  assert (E1 := or_introl E : either more _ _). assert (E2 := or_intror E : either more (scope cls (partly cls (names ++ more) done) vals) _).
  split; intros Q; inversion Q; subst.
  - apply ReadPresent; [eapply CA; eauto|eapply overlooked; eauto|assumption|]. apply (IH names); auto. rewrite app_length. cbn. lia.
  - apply ReadAbsent; [eapply CA; eauto|]. apply (IH names); auto. rewrite app_length. cbn. lia.
  - apply ReadPresent; [eapply CA; eauto|eapply overlooked; eauto|assumption|]. apply (IH names); auto. rewrite app_length. cbn. lia.
  - apply ReadAbsent; [eapply CA; eauto|]. apply (IH names); auto. rewrite app_length. cbn. lia.
Qed.

Lemma members_app orc bs cls bo names vals ms more : forall done off rs,
  reads_members orc bs cls bo names vals done (ms ++ more) off rs <->
  exists rs1 rs2, rs = rs1 ++ rs2 /\ reads_members orc bs cls bo names vals done ms off rs1 /\
    reads_members orc bs cls bo names vals (done ++ rs1) more (off + total rs1) rs2.
Proof.
  induction ms as [|m ms IH]; intros done off rs.
  - split.
    + intros Q. exists [], rs. rewrite app_nil_r. cbn. rewrite Z.add_0_r. repeat split; auto. constructor.
    + intros (r1 & r2 & -> & Q & Q2). inversion Q; subst. rewrite app_nil_r in Q2. cbn in *. now rewrite Z.add_0_r in Q2.
  - cbn [app]. split.
    + intros Q. inversion Q; subst.
      * match goal with H : reads_members _ _ _ _ _ _ _ (ms ++ more) _ _ |- _ => apply IH in H; destruct H as (r1 & r2 & -> & A & B) end.
        exists (Some (v, n) :: r1), r2. split; [reflexivity|]. split; [now apply ReadPresent|].
        rewrite <- app_assoc in B. cbn [total fold_right size_of]. fold (total r1). now rewrite Z.add_assoc.
      * match goal with H : reads_members _ _ _ _ _ _ _ (ms ++ more) _ _ |- _ => apply IH in H; destruct H as (r1 & r2 & -> & A & B) end.
        exists (None :: r1), r2. split; [reflexivity|]. split; [now apply ReadAbsent|].
        rewrite <- app_assoc in B. cbn [total fold_right size_of]. fold (total r1). now rewrite Z.add_0_l.
    + intros (r1 & r2 & -> & Q & Q2). inversion Q; subst; cbn [app total fold_right size_of] in *; fold (total rs) in Q2.
      * apply ReadPresent; auto. apply IH. exists rs, r2. rewrite <- app_assoc. rewrite Z.add_assoc in Q2. auto.
      * apply ReadAbsent; auto. apply IH. exists rs, r2. rewrite <- app_assoc. rewrite Z.add_0_l in Q2. auto.
Qed.

Lemma total_app r1 r2 : total (r1 ++ r2) = total r1 + total r2.
Proof. unfold total. induction r1 as [|a l IH]; cbn; [lia|]. rewrite IH. lia. Qed.

Lemma map_fst_combine {A B} (a : list A) : forall (b : list B), List.length a = List.length b -> map fst (combine a b) = a.
Proof. induction a as [|x a IH]; intros [|y b] L; try discriminate; [reflexivity|]. cbn. f_equal. apply IH. now injection L. Qed.

Lemma combine_app2 {A B} (a : list A) : forall (x : list B) b y, List.length a = List.length x -> combine (a ++ b) (x ++ y) = combine a x ++ combine b y.
Proof. induction a as [|h a IH]; intros [|h' x] b y E; try discriminate; [reflexivity|]. cbn. f_equal. apply IH. now injection E. Qed.

(** A reading of the longer definition is one of the shorter and then the members that were added. *)
Lemma reads_grown orc mt mt' bo ms more bs off vals v' n' : m_name mt' = m_name mt ->
  everywhere (overlooks orc (map dt_name more)) (DStructure mt bo ms) ->
  (reads orc bs (DStructure mt' bo (ms ++ more)) off vals v' n' <->
   exists rs1 rs2, reads_members orc bs (m_name mt) bo (map dt_name ms) vals [] ms off rs1 /\
     reads_members orc bs (m_name mt) bo (map dt_name (ms ++ more)) vals rs1 more (off + total rs1) rs2 /\
     List.length rs1 = List.length ms /\ List.length rs2 = List.length more /\
     v' = VStruct (m_name mt) (combine (map dt_name ms) (map value_of rs1) ++ combine (map dt_name more) (map value_of rs2)) /\
     n' = total rs1 + total rs2).
Proof.
  intros N K. assert (Kms : Forall (everywhere (overlooks orc (map dt_name more))) ms) by (destruct K as [_ K]; now apply go_forall in K).
  assert (G : forall rs, reads_members orc bs (m_name mt) bo (map dt_name ms) vals [] ms off rs <-> reads_members orc bs (m_name mt) bo (map dt_name (ms ++ more)) vals [] ms off rs).
  { intros rs. rewrite map_app. apply members_grown; auto. cbn. now rewrite map_length. }
  split.
  - intros Q. inversion Q; subst. rewrite N in *. match goal with H : reads_members _ _ _ _ _ _ _ _ _ _ |- _ => apply members_app in H; destruct H as (r1 & r2 & -> & A & B) end.
    pose proof (members_length _ _ _ _ _ _ _ _ _ _ A) as L1. pose proof (members_length _ _ _ _ _ _ _ _ _ _ B) as L2.
    exists r1, r2. split; [apply G, A|]. split; [exact B|]. split; [exact L1|]. split; [exact L2|]. split; [|apply total_app].
    f_equal. rewrite !map_app. apply combine_app2. now rewrite !map_length.
  - intros (r1 & r2 & A & B & L1 & L2 & -> & ->). rewrite <- total_app. rewrite <- N, <- combine_app2, <- !map_app by now rewrite !map_length.
    apply ReadStructure. rewrite N. apply members_app. exists r1, r2. split; [reflexivity|]. split; [|exact B]. apply G. exact A.
Qed.

(** *** Mapping with the longer definition *)

Lemma maps_grown orc mt mt' bo ms more m m' fuel bs off vals depth depth' v' n' :
  extensional orc -> m_name mt' = m_name mt ->
  everywhere regular (DStructure mt bo ms) -> everywhere regular (DStructure mt' bo (ms ++ more)) ->
  everywhere (overlooks orc (map dt_name more)) (DStructure mt bo ms) ->
  create orc (DStructure mt bo ms) None = Ok (Some m) ->
  create orc (DStructure mt' bo (ms ++ more)) None = Ok (Some m') ->
  0 <= off <= len bs -> depth' + levels (DStructure mt bo ms) <= 11 ->
  maps orc fuel m' bs off vals depth v' n' ->
  exists fuel' fields extra n,
    maps orc fuel' m bs off vals depth' (VStruct (m_name mt) fields) n /\
    v' = VStruct (m_name mt) (fields ++ extra) /\
    map fst fields = map dt_name ms /\ map fst extra = map dt_name more /\ 0 <= n <= n'.
Proof.
  intros X N E E' K C C' Ho D M. apply (mapping_reads _ _ _ _ _ _ _ _ _ _ X E' C' Ho) in M.
  apply (reads_grown orc mt mt' bo ms more _ _ _ _ _ N K) in M. destruct M as (r1 & r2 & A & B & L1 & L2 & -> & ->).
  assert (Q : reads orc bs (DStructure mt bo ms) off vals (VStruct (m_name mt) (combine (map dt_name ms) (map value_of r1))) (total r1)) by now apply ReadStructure.
  apply (reading_maps _ _ _ _ _ _ depth' _ _ X E C Ho D) in Q. destruct Q as (fuel' & Q).
  exists fuel'. do 3 eexists. split; [exact Q|]. split; [reflexivity|].
  split; [apply map_fst_combine; now rewrite !map_length|]. split; [apply map_fst_combine; now rewrite !map_length|].
  destruct (contained_inside _ _ _ _ _ _ _ _ _ (created_contained _ _ _ X E C) Ho Q) as [Z0 _].
  assert (Km : Forall (everywhere known) more).
  { pose proof (sound_known _ (regular_sound _ E')) as S. destruct S as [_ S]. apply go_forall in S. now apply Forall_app in S. }
  pose proof (reads_members_nonneg _ _ _ _ _ _ _ _ _ _ B Km). lia.
Qed.

Lemma grown_agrees orc mt mt' bo ms more m m' fuel fuel' bs off vals depth depth' v v' n n' :
  extensional orc -> m_name mt' = m_name mt ->
  everywhere regular (DStructure mt bo ms) -> everywhere regular (DStructure mt' bo (ms ++ more)) ->
  everywhere (overlooks orc (map dt_name more)) (DStructure mt bo ms) ->
  create orc (DStructure mt bo ms) None = Ok (Some m) ->
  create orc (DStructure mt' bo (ms ++ more)) None = Ok (Some m') ->
  0 <= off <= len bs -> levels (DStructure mt bo ms) <= 11 ->
  maps orc fuel m bs off vals depth v n -> maps orc fuel' m' bs off vals depth' v' n' ->
  exists fields extra,
    v = VStruct (m_name mt) fields /\ v' = VStruct (m_name mt) (fields ++ extra) /\
    map fst fields = map dt_name ms /\ map fst extra = map dt_name more /\ 0 <= n <= n'.
Proof.
  intros X N E E' K C C' Ho D M M'.
  destruct (maps_grown _ _ _ _ _ _ _ _ _ _ _ _ _ 0 _ _ X N E E' K C C' Ho D M') as (f & l & l' & k & Q & -> & F1 & F2 & R).
  apply (mapping_reads _ _ _ _ _ _ _ _ _ _ X E C Ho) in M. apply (mapping_reads _ _ _ _ _ _ _ _ _ _ X E C Ho) in Q.
  destruct (reading_unique _ _ _ _ _ _ _ _ _ _ X E C Ho D M Q) as [-> ->]. exists l, l'. auto.
Qed.

(** *** A member more is what comes after the structure *)

Lemma next_member orc mt mt' bo ms x m m' t bs off vals depth v' n' :
  extensional orc -> m_name mt' = m_name mt ->
  everywhere regular (DStructure mt bo ms) -> everywhere regular (DStructure mt' bo (ms ++ [x])) ->
  everywhere regular (used_type (m_name mt) bo x) ->
  everywhere (overlooks orc [dt_name x]) (DStructure mt bo ms) ->
  everywhere wordless x ->
  create orc (DStructure mt bo ms) None = Ok (Some m) ->
  create orc (DStructure mt' bo (ms ++ [x])) None = Ok (Some m') ->
  create orc (used_type (m_name mt) bo x) None = Ok (Some t) ->
  0 <= off <= len bs -> depth + levels (DStructure mt' bo (ms ++ [x])) <= 11 ->
  ((exists fuel, maps orc fuel m' bs off vals depth v' n') <->
   exists fuel fields n w k,
     maps orc fuel m bs off vals depth (VStruct (m_name mt) fields) n /\
     maps orc fuel t bs (off + n) [] depth w k /\ allowed x w /\
     v' = VStruct (m_name mt) (fields ++ [(dt_name x, w)]) /\ n' = n + k).
Proof.
  intros X N E E' Et K W C C' Ct Ho D.
  assert (D1 : depth + levels (DStructure mt bo ms) <= 11 /\ depth + levels (used_type (m_name mt) bo x) <= 11).
  { rewrite levels_used. cbn [levels] in *. rewrite fold_right_app in D. cbn [fold_right] in D.
    assert (G : forall l a b, a <= b -> fold_right (fun m a => Z.max (levels m) a) a l <= fold_right (fun m a => Z.max (levels m) a) b l /\ a <= fold_right (fun m a => Z.max (levels m) a) a l).
    { induction l as [|y l IH]; cbn; intros a b H; [lia|]. specialize (IH a b H). lia. }
    pose proof (G ms 0 (Z.max (levels x) 0) ltac:(lia)). pose proof (G ms (Z.max (levels x) 0) (Z.max (levels x) 0) ltac:(lia)). lia. }
  destruct D1 as [D1 Dt]. pose proof (created_contained _ _ _ X E C) as CN.
  assert (Wt : everywhere wordless (used_type (m_name mt) bo x)) by (apply same_used; auto using wordless_copy).
  assert (Wc : forall e, condition_is orc x e true /\ ~ condition_is orc x e false).
  { intros e. unfold condition_is. assert (Q : truthy_str (member_cond x) = None); [|now rewrite Q].
    assert (Q : wordless x) by (destruct x; now destruct W). destruct x; try reflexivity. cbn in Q |- *. now destruct condition. }
  rewrite <- (reading_maps _ _ _ _ _ _ depth _ _ X E' C' Ho D). rewrite (reads_grown orc mt mt' bo ms [x] _ _ _ _ _ N K). split.
  - intros (r1 & r2 & A & B & L1 & L2 & -> & ->).
    assert (Q : reads orc bs (DStructure mt bo ms) off vals (VStruct (m_name mt) (combine (map dt_name ms) (map value_of r1))) (total r1)) by now apply ReadStructure.
    destruct (reading_enough_fuel _ _ _ _ _ _ depth _ _ X E C Ho D1 Q) as (f1 & F1).
    destruct (contained_inside _ _ _ _ _ _ _ _ _ CN Ho (F1 f1 (le_n _))) as [Z0 Z1].
    inversion B; subst; [|now apply Wc in H6].
    match goal with H : reads_members _ _ _ _ _ _ _ [] _ _ |- _ => inversion H; subst end.
    match goal with H : reads _ _ (used_type _ _ _) _ _ _ _ |- _ => apply (deaf orc) with (e' := []) in H; [|exact Wt]; rename H into R end.
    assert (Ho2 : 0 <= off + total r1 <= len bs) by lia.
    destruct (reading_enough_fuel _ _ _ _ _ _ depth _ _ X Et Ct Ho2 Dt R) as (f2 & F2).
    exists (Nat.max f1 f2). do 4 eexists. split; [apply F1; lia|]. split; [apply F2; lia|]. split; [assumption|]. split; [reflexivity|].
    cbn. lia.
  - intros (fuel & fields & n & w & k & A & B & AL & -> & ->).
    destruct (contained_inside _ _ _ _ _ _ _ _ _ CN Ho A) as [Z0 Z1].
    apply (mapping_reads _ _ _ _ _ _ _ _ _ _ X E C Ho) in A. apply (mapping_reads _ _ _ _ _ _ _ _ _ _ X Et Ct) in B; [|lia].
    inversion A; subst. exists rs, [Some (w, k)]. split; [assumption|]. split.
    + apply ReadPresent; [apply Wc|eapply deaf; eauto|assumption|]. constructor.
    + match goal with H : reads_members _ _ _ _ _ _ _ _ _ _ |- _ => apply members_length in H; rename H into L end.
      split; [exact L|]. split; [reflexivity|]. split; [reflexivity|]. cbn. lia.
Qed.
