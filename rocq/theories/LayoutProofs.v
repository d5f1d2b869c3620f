(** The explicit layout of a structure, and the properties of structures. *)
From Coq Require Import String List ZArith Bool Lia.
From Verif Require Import Base PyVal PyStruct DataTypes ClassFactory DataMaps.
From Verif Require Import BytesProofs ContainerProofs SpecPrim SpecMap MapProofs ContextProofs StructProofs.
Import ListNotations.
Open Scope Z_scope.

Lemma total_app a b : total (a ++ b) = total a + total b.
Proof. unfold total. induction a as [|r a IH]; cbn; [lia|]. rewrite IH. lia. Qed.

Lemma set_combine names : forall (l : list pyval) k name v w r,
  NoDup names -> List.length l = k -> nth_error names k = Some name ->
  dict_set name v (combine names (l ++ w :: r)) = combine names (l ++ v :: r).
Proof.
  induction names as [|a names IH]; intros l k name v w r N L H.
  - destruct k; discriminate.
  - inversion N; subst. destruct l as [|x l]; cbn in H.
    + inversion H; subst. cbn. now rewrite String.eqb_refl.
    + cbn. destruct (String.eqb_spec name a).
      * subst. exfalso. apply nth_error_In in H. contradiction.
      * f_equal. eapply IH; eauto.
Qed.

Lemma setattr_partly cls names rs name v n :
  NoDup names -> nth_error names (List.length rs) = Some name ->
  py_setattr (partly cls names rs) name v = partly cls names (rs ++ [Some (v, n)]).
Proof.
  intros N H. unfold partly. cbn [py_setattr]. f_equal.
  assert (L : (List.length rs < List.length names)%nat) by (apply nth_error_Some; congruence).
  rewrite map_app, app_length. cbn [List.length map value_of].
  replace (List.length names - List.length rs)%nat with (S (List.length names - (List.length rs + 1)))%nat by lia.
  cbn [repeat]. rewrite <- app_assoc. cbn [app].
  eapply set_combine; [exact N|apply map_length|exact H].
Qed.

Lemma absent_partly cls names (rs : list reading) : (List.length rs < List.length names)%nat ->
  partly cls names (rs ++ [None]) = partly cls names rs.
Proof.
  intros L. unfold partly. change (@None (pyval * Z)) with (None : reading). rewrite map_app, app_length. cbn [List.length map value_of].
  replace (List.length names - List.length rs)%nat with (S (List.length names - (List.length rs + 1)))%nat by lia.
  cbn [repeat]. rewrite <- app_assoc. reflexivity.
Qed.

Section Explicit.
Variables (orc : oracle) (fuel : nat) (cls : string) (vals : env) (bs : bytes) (depth : Z).
Variable names : list string.
Hypothesis ND : NoDup names.

Definition right (pre : list reading) (o : Z) (ms : list dtype) (xs : list (option dmap)) (rs : list reading) : Prop :=
  List.length rs = List.length ms /\
  forall i d x r,
    nth_error ms i = Some d -> nth_error xs i = Some x -> nth_error rs i = Some r ->
    let s := partly cls names (pre ++ firstn i rs) in
    let o := o + total (firstn i rs) in
    match r with
    | None => condition_is orc d (scope cls s vals) false
    | Some (v, n) =>
        condition_is orc d (scope cls s vals) true /\ allowed d v /\
        exists y, x = Some y /\ maps orc fuel y bs o (scope cls s vals) (depth + 1) v n
    end.

Lemma fields_right ms : forall pre_names pre attrs o v e,
  names = pre_names ++ map dt_name ms -> List.length pre = List.length pre_names ->
  map fst attrs = map dt_name ms ->
  fields orc fuel cls vals bs depth (combine ms attrs) (partly cls names pre) o v e ->
  exists rs, right pre o ms (map snd attrs) rs /\ v = partly cls names (pre ++ rs) /\ e = o + total rs.
Proof.
  induction ms as [|m ms IH]; intros pn pre attrs o v e Hn Hl Ha F.
  - inversion F; subst. exists []. repeat split.
    + intros i d x r H. destruct i; discriminate.
    + now rewrite app_nil_r.
    + cbn. lia.
  - destruct attrs as [|[an ax] attrs]; [discriminate|]. cbn in Ha. inversion Ha as [[Hn1 Hn2]]. subst an.
    cbn [combine] in F.
    assert (Hnth : nth_error names (List.length pre) = Some (dt_name m)).
    { rewrite Hn, Hl, nth_error_app2, Nat.sub_diag by lia. reflexivity. }
    assert (Hlt : (List.length pre < List.length names)%nat) by (apply nth_error_Some; congruence).
    assert (Hn' : names = (pn ++ [dt_name m]) ++ map dt_name ms) by (rewrite <- app_assoc; exact Hn).
    inversion F; subst.
    + match goal with M : maps _ _ _ _ _ _ _ ?v0 ?n0 |- _ => rename M into HM; set (w := v0) in *; set (k := n0) in * end.
      match goal with G : fields _ _ _ _ _ _ _ (py_setattr _ _ _) _ _ _ |- _ =>
        rewrite (setattr_partly _ _ _ _ w k ND Hnth) in G;
        apply (IH (pn ++ [dt_name m]) (pre ++ [Some (w, k)])) in G; auto;
        [destruct G as (rs & R & -> & ->)|rewrite !app_length; cbn; lia] end.
      exists (Some (w, k) :: rs). destruct R as [RL R]. split; [split; [cbn; lia|]|split].
      * intros i d0 x0 r Q1 Q2 Q3. destruct i as [|i]; cbn in Q1, Q2, Q3.
        -- inversion Q1; inversion Q2; inversion Q3; subst. cbn [firstn]. cbn zeta. rewrite app_nil_r.
           cbn [total fold_right]. rewrite Z.add_0_r. split; auto. split; auto. eauto.
        -- specialize (R i d0 x0 r Q1 Q2 Q3). cbn zeta in *. cbn [firstn].
           rewrite <- app_assoc in R. cbn [app] in R.
           assert (TT : o + k + total (firstn i rs) = o + total (Some (w, k) :: firstn i rs))
             by (cbn; unfold total; lia).
           rewrite TT in R. exact R.
      * rewrite <- app_assoc. reflexivity.
      * cbn. unfold total. lia.
    + match goal with G : fields _ _ _ _ _ _ (combine ms attrs) (partly _ _ _) _ _ _ |- _ =>
        rewrite <- (absent_partly _ _ _ Hlt) in G;
        apply (IH (pn ++ [dt_name m]) (pre ++ [None])) in G; auto;
        [destruct G as (rs & R & -> & ->)|rewrite !app_length; cbn; lia] end.
      exists (None :: rs). destruct R as [RL R]. split; [split; [cbn; lia|]|split].
      * intros i d0 x0 r Q1 Q2 Q3. destruct i as [|i]; cbn in Q1, Q2, Q3.
        -- inversion Q1; inversion Q2; inversion Q3; subst. cbn [firstn]. cbn zeta. rewrite app_nil_r. auto.
        -- specialize (R i d0 x0 r Q1 Q2 Q3). cbn zeta in *. cbn [firstn].
           rewrite <- app_assoc in R. exact R.
      * rewrite <- app_assoc. reflexivity.
      * reflexivity.
Qed.

Lemma right_fields ms : forall pre_names pre attrs o rs,
  names = pre_names ++ map dt_name ms -> List.length pre = List.length pre_names ->
  map fst attrs = map dt_name ms ->
  right pre o ms (map snd attrs) rs ->
  fields orc fuel cls vals bs depth (combine ms attrs) (partly cls names pre) o
    (partly cls names (pre ++ rs)) (o + total rs).
Proof.
  induction ms as [|m ms IH]; intros pn pre attrs o rs Hn Hl Ha [RL R].
  - destruct rs; [|discriminate]. cbn. rewrite app_nil_r, Z.add_0_r. constructor.
  - destruct attrs as [|[an ax] attrs]; [discriminate|]. cbn in Ha. inversion Ha as [[Hn1 Hn2]]. subst an.
    destruct rs as [|r rs]; [discriminate|]. cbn [combine].
    assert (Hnth : nth_error names (List.length pre) = Some (dt_name m)).
    { rewrite Hn, Hl, nth_error_app2, Nat.sub_diag by lia. reflexivity. }
    assert (Hlt : (List.length pre < List.length names)%nat) by (apply nth_error_Some; congruence).
    assert (Hn' : names = (pn ++ [dt_name m]) ++ map dt_name ms) by (rewrite <- app_assoc; exact Hn).
    assert (R' : right (pre ++ [r]) (o + size_of r) ms (map snd attrs) rs).
    { split; [cbn in RL; lia|]. intros i d x r' H1 H2 H3. specialize (R (S i) d x r' H1 H2 H3).
      cbn zeta in *. cbn [firstn] in R. rewrite <- app_assoc. cbn [app].
      replace (o + size_of r + total (firstn i rs)) with (o + total (r :: firstn i rs))
        by (cbn; unfold total; lia). exact R. }
    apply (IH (pn ++ [dt_name m])) in R'; auto; [|rewrite !app_length; cbn; lia].
    rewrite <- app_assoc in R'. cbn [app] in R'.
    replace (o + total (r :: rs)) with (o + size_of r + total rs) by (cbn; unfold total; lia).
    specialize (R 0%nat m ax r eq_refl eq_refl eq_refl). cbn zeta in R. cbn [firstn total fold_right] in R.
    rewrite app_nil_r, Z.add_0_r in R.
    destruct r as [[w k]|].
    + destruct R as (C & A & y & -> & M). eapply fields_present; eauto.
      rewrite (setattr_partly _ _ _ _ w k ND Hnth). exact R'.
    + apply fields_absent; auto. rewrite (absent_partly _ _ _ Hlt) in R'.
      cbn [size_of] in *. rewrite Z.add_0_r in *. exact R'.
Qed.

End Explicit.

(** What creation says about a composite structure map. *)
Lemma created_composite orc mt bo ms ov d cls ms' attrs op :
  create orc (DStructure mt bo ms) ov = Ok (Some (MStructure false d cls ms' attrs op)) ->
  cls = ov_name ov (m_name mt) /\ ms' = ms /\ map fst attrs = map dt_name ms /\
  ms <> [] /\ NoDup (map dt_name ms) /\ List.length ms = List.length attrs.
Proof.
  intros H. apply created_structure in H. apply create_structure_inv in H.
  destruct H as (attrs' & _ & N & D & A & [(_ & op' & _ & E)|(_ & E)]); inversion E; subst.
  rewrite map_fst_pair' in *. repeat split; auto.
  apply (f_equal (@List.length string)) in A. rewrite !map_length in A. auto.
Qed.

Lemma structure_members orc fuel mt bo ms ov d cls ms' attrs op bs off vals depth :
  extensional orc ->
  create orc (DStructure mt bo ms) ov = Ok (Some (MStructure false d cls ms' attrs op)) ->
  clear_names cls (map dt_name ms) -> depth <= 10 ->
  cls = ov_name ov (m_name mt) /\ map fst attrs = map dt_name ms /\
  forall v n,
    maps orc fuel (MStructure false d cls ms' attrs op) bs off vals depth v n <->
    exists rs, laid orc fuel cls vals bs depth ms (map snd attrs) off rs /\
      v = partly cls (map dt_name ms) rs /\ n = total rs.
Proof.
  intros E C CN D. destruct (created_composite _ _ _ _ _ _ _ _ _ _ C) as (Hc & -> & Ha & N & ND & L).
  split; auto. split; auto. intros v n. rewrite <- Ha in CN.
  destruct (structure_layout orc fuel d cls ms attrs op bs off vals depth E L N CN D) as [H _].
  rewrite H. clear H.
  assert (B : blank cls attrs = partly cls (map dt_name ms) []).
  { unfold blank, partly. cbn. rewrite Nat.sub_0_r, <- Ha. f_equal. clear.
    induction attrs as [|[a x] l IH]; cbn; auto. now rewrite IH. }
  rewrite B. split.
  - intros F. eapply (fields_right _ _ _ _ _ _ _ ND ms [] []) in F; auto.
    destruct F as (rs & R & -> & Z). exists rs. split; auto. split; auto. lia.
  - intros (rs & R & -> & ->).
    apply (right_fields _ _ _ _ _ _ _ ND ms [] []); auto.
Qed.

Lemma fields_app orc fuel cls vals bs depth l1 l2 s off s1 e1 s2 e2 :
  fields orc fuel cls vals bs depth l1 s off s1 e1 ->
  fields orc fuel cls vals bs depth l2 s1 e1 s2 e2 ->
  fields orc fuel cls vals bs depth (l1 ++ l2) s off s2 e2.
Proof.
  intros F. induction F; intros G; cbn [app].
  - exact G.
  - eapply fields_present; eauto.
  - eapply fields_absent; eauto.
Qed.

(** A member in the middle: its condition decides. *)
Lemma structure_condition orc fuel mt bo ms ov d cls ms' attrs op bs off vals depth :
  extensional orc ->
  create orc (DStructure mt bo ms) ov = Ok (Some (MStructure false d cls ms' attrs op)) ->
  clear_names cls (map dt_name ms) -> depth <= 10 ->
  let m := MStructure false d cls ms' attrs op in
  forall before mem name x after s off',
  combine ms attrs = before ++ (mem, (name, x)) :: after ->
  fields orc fuel cls vals bs depth before (blank cls attrs) off s off' ->
  (condition_bad orc mem (scope cls s vals) -> fails orc fuel m bs off vals depth MappingError) /\
  (condition_is orc mem (scope cls s vals) false -> forall v n,
     maps orc fuel m bs off vals depth v n <->
     fields orc fuel cls vals bs depth after s off' v (off + n)) /\
  (condition_is orc mem (scope cls s vals) true -> forall v n,
     maps orc fuel m bs off vals depth v n <->
     exists y w k, x = Some y /\
       maps orc fuel y bs off' (scope cls s vals) (depth + 1) w k /\ allowed mem w /\
       fields orc fuel cls vals bs depth after (py_setattr s name w) (off' + k) v (off + n)).
Proof.
  intros E C CN D m before mem name x after s off' Hs F.
  destruct (created_composite _ _ _ _ _ _ _ _ _ _ C) as (Hc & -> & Ha & N & ND & L).
  rewrite <- Ha in CN.
  destruct (structure_layout orc fuel d cls ms attrs op bs off vals depth E L N CN D) as (H1 & _ & H3 & _).
  fold m in H1, H3.
  assert (J : forall v n, maps orc fuel m bs off vals depth v n <->
     fields orc fuel cls vals bs depth ((mem, (name, x)) :: after) s off' v (off + n)).
  { intros v n. rewrite H1, Hs. split; intros G.
    - eapply fields_prefix_det; eauto.
    - eapply fields_app; eauto. }
  split; [|split].
  - intros B. apply H3. rewrite Hs. exists before, mem, name, x, after, s, off'. repeat split; auto. now left.
  - intros B v n. rewrite J. split; intros G.
    + inversion G; subst; auto.
      match goal with H : condition_is _ _ _ true |- _ => pose proof (condition_det _ _ _ _ _ B H); discriminate end.
    + now apply fields_absent.
  - intros B v n. rewrite J. split; intros G.
    + inversion G; subst; [eauto 10|].
      match goal with H : condition_is _ _ _ false |- _ => pose proof (condition_det _ _ _ _ _ B H); discriminate end.
    + destruct G as (y & w & k & -> & M & A & G). eapply fields_present; eauto.
Qed.

(** ** Depth *)

Lemma depth_bound orc fuel : forall m bs off c depth,
  10 < depth ->
  (match m with
   | MSequence false _ _ _ _ | MStructure false _ _ _ _ _ => True
   | _ => False
   end) ->
  mapbs orc fuel m bs off c depth = (Raise MappingError, c).
Proof.
  intros m bs off c depth D H.
  assert (T : max_depth <? depth = true) by (apply Z.ltb_lt; exact D).
  destruct m; try contradiction; destruct linear; try contradiction; cbn [mapbs].
  - unfold map_seq. now rewrite T.
  - unfold map_struct. now rewrite T.
Qed.
