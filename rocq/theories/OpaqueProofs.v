(** Members kept as bytes and given their type later. *)
From Coq Require Import String List ZArith Bool Lia.
From Verif Require Import Base PyVal PyStruct DataTypes ClassFactory DataMaps.
From Verif Require Import BytesProofs SpecPrim PrimProofs SpecMap SpecCreate SpecReads SpecFold SpecGrow SpecEdit SpecHeed SpecShift SpecOpaque
  MapProofs CreateProofs StreamProofs SteadyProofs FoldProofs ReadsProofs FitProofs TellProofs GrowProofs EditProofs DisturbProofs HeedProofs SizeProofs.
From Verif Require ShiftProofs WindowProofs.
Import ListNotations.
Open Scope Z_scope.
#[local] Arguments Z.mul : simpl never.
#[local] Arguments Z.add : simpl never.
#[local] Arguments Z.div : simpl never.

(** Members after [x] that do not look at it. *)
Lemma members_beside orc bs cls bo n1 x n2 vals a r r' ms : List.length a = List.length n1 ->
  Forall (everywhere (unheeded orc x)) ms ->
  forall b off rs,
  reads_members orc bs cls bo (n1 ++ x :: n2) vals (a ++ r :: b) ms off rs ->
  reads_members orc bs cls bo (n1 ++ x :: n2) vals (a ++ r' :: b) ms off rs.
Proof.
  intros La U. induction ms as [|m ms IH]; intros b off rs R; [inversion R; constructor|].
  inversion U as [|? ? U1 U2]; subst. specialize (IH U2).
  set (e := scope cls (partly cls (n1 ++ x :: n2) (a ++ r :: b)) vals). set (e' := scope cls (partly cls (n1 ++ x :: n2) (a ++ r' :: b)) vals).
  assert (E : reassigned_env x e e') by (apply reassigned_scope; [now apply reassigned_partly|apply reassigned_refl]).
  assert (CE : forall q, condition_is orc m e q -> condition_is orc m e' q).
  { intros q. apply (condition_alike orc (reassigned_env x) (ignores orc x)).
    - intros y e1 e2 R1 I. now apply I.
    - exact E.
    - destruct m; exact (proj1 U1). }
  inversion R; subst.
  - match goal with Q : reads _ _ _ _ _ v n |- _ => rename Q into Q1 end.
    match goal with Q : reads_members _ _ _ _ _ _ _ ms _ _ |- _ => rename Q into Q2 end.
    apply ReadPresent; auto.
    + refine (reads_alike orc (reassigned_env x) (ignores orc x) _ _ _ _ _ _ _ _ Q1 _ e' E).
      * intros y e1 e2 R1 I. now apply I.
      * intros cls' p e1 e2 R1. apply reassigned_scope; auto. now left.
      * apply same_used; auto. intros n0 b0 d. apply unheeded_copy.
    + rewrite <- app_assoc. cbn [app]. apply IH. rewrite <- app_assoc in Q2. exact Q2.
  - match goal with Q : reads_members _ _ _ _ _ _ _ ms _ _ |- _ => rename Q into Q2 end.
    apply ReadAbsent; auto. rewrite <- app_assoc. cbn [app]. apply IH. rewrite <- app_assoc in Q2. exact Q2.
Qed.

Lemma scope_agrees names cls p vals : ~ In cls names -> agree_on names (scope cls p vals) vals.
Proof.
  intros N k I. unfold scope. induction vals as [|[a b] l IH]; cbn.
  - destruct (String.eqb_spec k cls); [subst; contradiction|reflexivity].
  - now rewrite IH.
Qed.

Lemma unpadded_kept k d : everywhere unpadded d -> everywhere (keeps_alignment k) d.
Proof. apply everywhere_weaken. intros []; cbn; tauto. Qed.

(** What is split off a structure value. *)
Lemma split_fields (names1 : list string) (r1 : list reading) x (w w0 : pyval) (k : Z) (names2 : list string) (r3 : list reading) f1 f2 :
  List.length r1 = List.length names1 -> List.length f1 = List.length names1 ->
  f1 ++ (x, w) :: f2 = combine (names1 ++ x :: names2) (map value_of (r1 ++ Some (w0, k) :: r3)) ->
  combine names1 (map value_of r1) = f1 /\ w0 = w /\ combine names2 (map value_of r3) = f2.
Proof.
  intros L1 Lf H. rewrite map_app in H. cbn [map value_of] in H. rewrite combine_app2 in H by (rewrite map_length; auto).
  cbn [combine] in H. apply app_split in H; [|rewrite combine_length, map_length; lia]. destruct H as [-> Q]. inversion Q. auto.
Qed.

(** The bytes of a stream. *)
Lemma stream_bytes orc bs e el off vals b n : reads orc bs (DElems KStream e el) off vals (VBytes b) n -> 0 <= n -> 0 <= off -> off + n <= len bs ->
  b = window bs off n.
Proof. intros R. inversion R; subst; auto. Qed.

Lemma used_stream cls bo x e el : type_of x = DElems KStream e el ->
  exists e', used_type cls bo x = DElems KStream e' el /\ e_data_size e' = e_data_size e /\ e_data_size_expr e' = e_data_size_expr e.
Proof.
  intros T. unfold used_type. rewrite T. destruct bo; [eauto| |]; destruct (dt_byte_order _) as [[]|]; cbn; eexists; (split; [reflexivity|]); auto.
Qed.

(** C79 *)
Lemma decoded_later orc mt mt' bo before x y after e el names m m' t fuel fuel' bs off vals depth f1 b f2 n w :
  extensional orc -> m_name mt' = m_name mt -> in_place_of x y -> type_of x = DElems KStream e el ->
  everywhere regular (DStructure mt bo (before ++ x :: after)) ->
  everywhere regular (DStructure mt' bo (before ++ y :: after)) ->
  Forall (everywhere (unheeded orc (dt_name x))) after ->
  everywhere (heeds orc names) (used_type (m_name mt) bo y) -> ~ In (m_name mt) names ->
  everywhere unpadded (used_type (m_name mt) bo y) ->
  create orc (DStructure mt bo (before ++ x :: after)) None = Ok (Some m) ->
  create orc (DStructure mt' bo (before ++ y :: after)) None = Ok (Some m') ->
  create orc (used_type (m_name mt) bo y) None = Ok (Some t) -> all_maps no_group t ->
  0 <= off <= len bs -> depth + levels (DStructure mt' bo (before ++ y :: after)) <= 11 ->
  maps orc fuel m bs off vals depth (VStruct (m_name mt) (f1 ++ (dt_name x, VBytes b) :: f2)) n ->
  List.length f1 = List.length before ->
  maps orc fuel' t b 0 vals depth w (len b) -> allowed y w ->
  exists fuel, maps orc fuel m' bs off vals depth (VStruct (m_name mt) (f1 ++ (dt_name x, w) :: f2)) n.
Proof.
  intros X Nm [Nx Cx] Tx E E' U Hd Hn Pd C C' Ct NG Ho D M Lf Mt Al.
  pose proof (regular_members _ _ _ E) as RM. pose proof (created_members _ _ _ _ _ (regular_sound _ E) C) as CM.
  pose proof (regular_members _ _ _ E') as RM'. rewrite Nm in RM'.
  pose proof (created_contained _ _ _ X E C) as CN.
  assert (Ey : everywhere regular (used_type (m_name mt) bo y)).
  { rewrite Forall_forall in RM'. apply RM'. apply in_or_app. right. now left. }
  destruct (contained_inside _ _ _ _ _ _ _ _ _ CN Ho M) as [Zn0 Zn].
  apply (mapping_reads _ _ _ _ _ _ _ _ _ _ X E C Ho) in M.
  apply reads_structure in M. destruct M as (rs & R & H2 & ->). injection H2 as H2.
  apply members_app in R. destruct R as (r1 & r2 & -> & R1 & R2). cbn [app] in R2.
  apply members_present in R2. destruct R2 as (r & r3 & -> & R3 & Rx).
  pose proof (members_length _ _ _ _ _ _ _ _ _ _ R1) as L1.
  rewrite map_app in H2. cbn [map] in H2.
  destruct r as [[w0 k0]|].
  2:{ exfalso. clear -H2 L1 Lf. rewrite map_app in H2. cbn [map value_of] in H2. rewrite combine_app2 in H2 by (rewrite !map_length; auto). cbn [combine] in H2.
      apply app_split in H2; [|rewrite combine_length, !map_length; lia]. destruct H2 as [_ Q]. discriminate Q. }
  destruct Rx as (Cd & Rx & _). cbn [size_of] in R3.
  apply split_fields in H2; rewrite ?map_length; auto. destruct H2 as (E1 & -> & E2).
  pose proof (sound_known _ (regular_sound _ E)) as [_ Kn]. apply go_forall in Kn. apply Forall_app in Kn. destruct Kn as [Kb Kn].
  pose proof (Forall_inv_tail Kn) as Ka. pose proof (Forall_inv Kn) as Kx.
  assert (Z1 : 0 <= total r1) by (eapply reads_members_nonneg; [exact R1|exact Kb]).
  assert (Z2 : 0 <= k0) by (eapply reads_nonneg; [exact Rx|now apply known_used]).
  assert (Z3 : 0 <= total r3) by (eapply reads_members_nonneg; [exact R3|exact Ka]).
  assert (TT : total (r1 ++ Some (VBytes b, k0) :: r3) = total r1 + k0 + total r3) by (rewrite total_app; cbn [total fold_right size_of]; fold (total r3); lia).
  assert (Zn1 : off + (total r1 + k0 + total r3) <= len bs) by (rewrite <- TT; exact Zn).
  destruct (used_stream (m_name mt) bo x e el Tx) as (e' & Ue & _). rewrite Ue in Rx.
  pose proof (stream_bytes _ _ _ _ _ _ _ _ Rx Z2 ltac:(lia) ltac:(lia)) as B.
  assert (Lb : len b = k0) by (rewrite B; apply len_window; lia).
  set (o := off + total r1) in *.
  assert (Dt : depth + levels (used_type (m_name mt) bo y) <= 11).
  { rewrite levels_used. cbn [levels] in D. pose proof (levels_member y (before ++ y :: after) ltac:(apply in_or_app; right; now left)). lia. }
  assert (Ry : reads orc bs (used_type (m_name mt) bo y) o vals w k0).
  { assert (Ho2 : 0 <= o <= len bs) by lia.
    apply (mapping_reads orc fuel' _ t bs o vals depth w k0 X Ey Ct Ho2).
    set (pre := firstn (Z.to_nat o) bs).
    assert (Lp : len pre = o) by (unfold pre, len in *; rewrite firstn_length; lia).
    assert (M1 : maps orc fuel' t (pre ++ b) o vals depth w k0).
    { destruct Mt as (c & Q1 & Q2). exists c. rewrite <- Lb. split; auto. rewrite <- Q1.
      pose proof (ShiftProofs.mapping_moves orc fuel' _ t pre b 0 (Some (ctx_new vals)) depth X (regular_sound _ Ey) (unpadded_kept _ _ Pd) Ct) as MV.
      rewrite Lp, Z.add_0_r in MV. apply MV; [lia|reflexivity]. }
    assert (Lpb : len (pre ++ b) = o + k0) by (rewrite DisturbProofs.len_app; lia).
    destruct (WindowProofs.mapping_window orc fuel' _ t (pre ++ b) o vals depth w k0 X (regular_sound _ Ey) Ct NG ltac:(lia) M1) as (_ & _ & WW).
    apply WW; [lia|]. rewrite <- B. symmetry.
    rewrite <- (app_nil_r b) at 1. rewrite <- Lp, <- Lb at 1. apply window_mid. }
  rewrite <- Nm. set (fields := f1 ++ (dt_name x, w) :: f2).
  apply (reading_maps orc _ m' bs off vals depth _ _ X E' C' Ho D).
  assert (TW : total (r1 ++ Some (VBytes b, k0) :: r3) = total (r1 ++ Some (w, k0) :: r3)) by (rewrite !total_app; reflexivity).
  match goal with |- reads _ _ _ _ _ _ ?T => change T with (total (r1 ++ Some (VBytes b, k0) :: r3)) end. rewrite TW.
  replace fields with (combine (map dt_name (before ++ y :: after)) (map value_of (r1 ++ Some (w, k0) :: r3))).
  2:{ unfold fields. rewrite !map_app. cbn [map value_of]. rewrite combine_app2 by (rewrite !map_length; auto). cbn [combine]. now rewrite E1, E2, Nx. }
  assert (NN : map dt_name (before ++ y :: after) = map dt_name (before ++ x :: after)) by (rewrite !map_app; cbn [map]; now rewrite Nx).
  apply ReadStructure. rewrite NN, Nm. apply members_app. exists r1, (Some (w, k0) :: r3). split; auto. split; auto. cbn [app].
  apply ReadPresent; auto.
  - unfold condition_is in *. now rewrite Cx.
  - assert (Ho2 : 0 <= o <= len bs) by lia.
    destruct (reading_enough_fuel _ _ _ _ _ _ depth _ _ X Ey Ct Ho2 Dt Ry) as (f & F). specialize (F f (le_n _)).
    apply (mapping_reads orc f _ t _ _ _ depth _ _ X Ey Ct Ho2).
    apply (overlooked_mapping orc names _ t f bs o _ vals depth Hd Ct (scope_agrees _ _ _ _ Hn)). exact F.
  - rewrite map_app in R3 |- *. cbn [map] in R3 |- *. eapply members_beside; [now rewrite map_length|exact U|exact R3].
Qed.

Lemma levels_stream x e el : type_of x = DElems KStream e el -> levels x = 0.
Proof. destruct x; cbn [type_of]; intros H; try discriminate H; try (injection H as -> -> ->; reflexivity). subst. reflexivity. Qed.

Lemma levels_opaque x e el y before after : type_of x = DElems KStream e el ->
  fold_right (fun m a => Z.max (levels m) a) 0 (before ++ x :: after) <= fold_right (fun m a => Z.max (levels m) a) 0 (before ++ y :: after).
Proof.
  intros T. induction before as [|z l IH]; cbn [app fold_right]; [|lia]. rewrite (levels_stream _ _ _ T).
  assert (0 <= fold_right (fun m a => Z.max (levels m) a) 0 after) by (clear; induction after; cbn [fold_right]; lia). lia.
Qed.

(** C79: the other way. *)
Lemma kept_opaque orc mt mt' bo before x y after e el k names m m' t fuel bs off vals depth f1 w f2 n :
  extensional orc -> m_name mt' = m_name mt -> in_place_of x y -> type_of x = DElems KStream e el ->
  e_data_size e = Some k -> k <> 0 -> get_byte_size (used_type (m_name mt) bo y) = Some k -> member_values x = None ->
  everywhere regular (DStructure mt bo (before ++ x :: after)) ->
  everywhere regular (DStructure mt' bo (before ++ y :: after)) ->
  Forall (everywhere (unheeded orc (dt_name x))) after ->
  everywhere (heeds orc names) (used_type (m_name mt) bo y) -> ~ In (m_name mt) names ->
  everywhere exact (used_type (m_name mt) bo y) ->
  create orc (DStructure mt bo (before ++ x :: after)) None = Ok (Some m) ->
  create orc (DStructure mt' bo (before ++ y :: after)) None = Ok (Some m') ->
  create orc (used_type (m_name mt) bo y) None = Ok (Some t) -> all_maps no_group t -> all_maps (takes_space orc) t ->
  0 <= off <= len bs -> depth + levels (DStructure mt' bo (before ++ y :: after)) <= 11 ->
  maps orc fuel m' bs off vals depth (VStruct (m_name mt) (f1 ++ (dt_name x, w) :: f2)) n -> w <> VNone ->
  List.length f1 = List.length before ->
  exists b, len b = k /\ allowed y w /\
    (exists fuel, maps orc fuel t b 0 vals depth w k) /\
    (exists fuel, maps orc fuel m bs off vals depth (VStruct (m_name mt) (f1 ++ (dt_name x, VBytes b) :: f2)) n).
Proof.
  intros X Nm [Nx Cx] Tx Dk K0 Bk Mv E E' U Hd Hn Ex C C' Ct NG TS Ho D M Nw Lf.
  pose proof (regular_members _ _ _ E') as RM'. rewrite Nm in RM'.
  pose proof (created_contained _ _ _ X E' C') as CN.
  assert (Ey : everywhere regular (used_type (m_name mt) bo y)).
  { rewrite Forall_forall in RM'. apply RM'. apply in_or_app. right. now left. }
  destruct (contained_inside _ _ _ _ _ _ _ _ _ CN Ho M) as [Zn0 Zn].
  apply (mapping_reads _ _ _ _ _ _ _ _ _ _ X E' C' Ho) in M.
  apply reads_structure in M. destruct M as (rs & R & H2 & ->). rewrite Nm in R, H2. injection H2 as H2.
  apply members_app in R. destruct R as (r1 & r2 & -> & R1 & R2). cbn [app] in R2.
  apply members_present in R2. destruct R2 as (r & r3 & -> & R3 & Rx).
  pose proof (members_length _ _ _ _ _ _ _ _ _ _ R1) as L1.
  rewrite map_app in H2. cbn [map] in H2. rewrite Nx in H2.
  destruct r as [[w0 k0]|].
  2:{ exfalso. clear -H2 L1 Lf Nw. rewrite map_app in H2. cbn [map value_of] in H2. rewrite combine_app2 in H2 by (rewrite !map_length; auto). cbn [combine] in H2.
      apply app_split in H2; [|rewrite combine_length, !map_length; lia]. destruct H2 as [_ Q]. injection Q as Q _. auto. }
  destruct Rx as (Cd & Rx & Al). cbn [size_of] in R3.
  apply split_fields in H2; rewrite ?map_length; auto. destruct H2 as (E1 & -> & E2).
  pose proof (sound_known _ (regular_sound _ E')) as [_ Kn]. apply go_forall in Kn. apply Forall_app in Kn. destruct Kn as [Kb Kn].
  pose proof (Forall_inv_tail Kn) as Ka. pose proof (Forall_inv Kn) as Kx.
  assert (Z1 : 0 <= total r1) by (eapply reads_members_nonneg; [exact R1|exact Kb]).
  assert (Z2 : 0 <= k0) by (eapply reads_nonneg; [exact Rx|now apply known_used]).
  assert (Z3 : 0 <= total r3) by (eapply reads_members_nonneg; [exact R3|exact Ka]).
  assert (TT : total (r1 ++ Some (w, k0) :: r3) = total r1 + k0 + total r3) by (rewrite total_app; cbn [total fold_right size_of]; fold (total r3); lia).
  assert (Zn1 : off + (total r1 + k0 + total r3) <= len bs) by (rewrite <- TT; exact Zn).
  set (o := off + total r1) in *.
  assert (Ho2 : 0 <= o <= len bs) by lia.
  assert (Dt : depth + levels (used_type (m_name mt) bo y) <= 11).
  { rewrite levels_used. cbn [levels] in D. pose proof (levels_member y (before ++ y :: after) ltac:(apply in_or_app; right; now left)). lia. }
  destruct (reading_enough_fuel _ _ _ _ _ _ depth _ _ X Ey Ct Ho2 Dt Rx) as (f & F). specialize (F f (le_n _)).
  apply (overlooked_mapping orc names _ t f bs o _ vals depth Hd Ct (scope_agrees _ _ _ _ Hn)) in F.
  assert (k0 = k) as -> by (eapply (exact_size orc f _ t k bs o); eauto using regular_sound; lia).
  exists (window bs o k).
  assert (Lb : len (window bs o k) = k) by (apply len_window; lia).
  refine (conj Lb (conj Al (conj _ _))).
  - exists f.
    assert (KA : everywhere (keeps_alignment o) (used_type (m_name mt) bo y)) by (eapply everywhere_weaken; [|exact Ex]; intros []; cbn; tauto).
    assert (Ls : len (skipn (Z.to_nat o) bs) = len bs - o) by (rewrite len_skipn; lia).
    assert (M0 : maps orc f t (skipn (Z.to_nat o) bs) 0 vals depth w k).
    { destruct F as (c & Q1 & Q2). exists c. split; auto. rewrite <- Q1. symmetry.
      apply (ShiftProofs.mapping_from orc f _ t bs o (Some (ctx_new vals)) depth X (regular_sound _ Ey) KA Ct Ho2). reflexivity. }
    apply (WindowProofs.mapping_window_exact orc f _ t (skipn (Z.to_nat o) bs) 0 vals depth w k X (regular_sound _ Ey) Ct NG TS ltac:(lia) M0); [lia|].
    unfold window. cbn [Z.to_nat skipn]. rewrite firstn_firstn. now rewrite Nat.min_id.
  - apply (reading_maps orc _ m bs off vals depth _ _ X E C Ho).
    { cbn [levels] in D |- *. pose proof (levels_opaque x e el y before after Tx). lia. }
    assert (TW : total (r1 ++ Some (w, k) :: r3) = total (r1 ++ Some (VBytes (window bs o k), k) :: r3)) by (rewrite !total_app; reflexivity).
    match goal with |- reads _ _ _ _ _ _ ?T => change T with (total (r1 ++ Some (w, k) :: r3)) end. rewrite TW.
    set (fields := f1 ++ (dt_name x, VBytes (window bs o k)) :: f2).
    replace fields with (combine (map dt_name (before ++ x :: after)) (map value_of (r1 ++ Some (VBytes (window bs o k), k) :: r3))).
    2:{ unfold fields. rewrite !map_app. cbn [map value_of]. rewrite combine_app2 by (rewrite !map_length; auto). cbn [combine]. now rewrite E1, E2. }
    assert (NN : map dt_name (before ++ y :: after) = map dt_name (before ++ x :: after)) by (rewrite !map_app; cbn [map]; now rewrite Nx).
    rewrite NN in *.
    apply ReadStructure. apply members_app. exists r1, (Some (VBytes (window bs o k), k) :: r3). split; auto. split; auto. cbn [app].
    apply ReadPresent; auto.
    + unfold condition_is in *. now rewrite <- Cx.
    + destruct (used_stream (m_name mt) bo x e el Tx) as (e' & -> & Se & _). rewrite Dk in Se.
      apply ReadStream.
      * unfold unsized_stream, has_data_size. rewrite Se. cbn. intros [Q _]. discriminate Q.
      * left. unfold has_data_size. rewrite Se. cbn. split; auto. left. repeat split; auto; lia.
      * lia.
    + unfold allowed. rewrite Mv. exact I.
    + rewrite map_app in R3 |- *. cbn [map] in R3 |- *. eapply members_beside; [now rewrite map_length|exact U|exact R3].
Qed.
