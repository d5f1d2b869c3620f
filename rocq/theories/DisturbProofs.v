(** Bytes of a single member of a structure that change. *)
From Coq Require Import String Ascii List ZArith Bool Lia.
From Verif Require Import Base PyVal PyStruct DataTypes ClassFactory DataMaps SpecPrim SpecMap SpecCreate SpecReads SpecRound SpecFold SpecShort SpecGrow SpecWrites SpecEdit
  BytesProofs PrimProofs MapProofs ContextProofs StructProofs LayoutProofs CreateProofs LinearProofs StreamProofs SteadyProofs WindowProofs SizeProofs
  ReadsProofs FoldProofs FitProofs TellProofs GrowProofs WritesProofs EditProofs.
Import ListNotations.
Open Scope string_scope.
Open Scope list_scope.
Open Scope Z_scope.

#[local] Arguments Z.add : simpl never.
#[local] Arguments Z.mul : simpl never.
#[local] Arguments Z.pow : simpl never.

Lemma lone_copy n b d : lone d -> lone (set_name_bo n b d).
Proof. destruct d; auto. Qed.

Lemma lone_used cls bo m : everywhere lone m -> everywhere lone (used_type cls bo m).
Proof. apply same_used. apply lone_copy. Qed.

Lemma lone_element e el : everywhere lone el -> everywhere lone (element_type e el).
Proof.
  intros K. unfold element_type. destruct (e_bo e); auto; destruct (dt_byte_order el) as [[]|]; auto;
    destruct (is_composite el); auto; destruct el; cbn in K |- *; auto.
Qed.

(** A reading depends on the bytes it takes. *)
Lemma reads_elsewhere orc bs bs' d off vals v n : reads orc bs d off vals v n -> len bs <= len bs' ->
  0 <= off -> everywhere known d -> everywhere lone d -> window bs' off n = window bs off n -> reads orc bs' d off vals v n.
Proof.
  intros R L. induction R using reads_ind' with
    (P0 := fun d off rs => 0 <= off -> everywhere known d -> everywhere lone d -> window bs' off (span rs) = window bs off (span rs) ->
       reads_elements orc bs' d off rs)
    (P1 := fun cls bo names vals done ms off rs => 0 <= off -> Forall (everywhere known) ms -> Forall (everywhere lone) ms ->
       window bs' off (total rs) = window bs off (total rs) -> reads_members orc bs' cls bo names vals done ms off rs);
    intros Ho K G W.
  - rewrite <- W. apply ReadInteger; auto; lia.
  - rewrite <- W. apply ReadDouble; auto; lia.
  - apply ReadSingle; auto; [lia|]. now rewrite W.
  - apply ReadBoolean; auto; [lia|]. now rewrite W.
  - eapply ReadCharacter; eauto; [lia|]. now rewrite W.
  - apply ReadUUID; auto; [lia|]. now rewrite W.
  - rewrite <- W. apply ReadPadding; auto; lia.
  - destruct K as [_ K], G as [_ G]. apply ReadCounted; auto. apply IHR; auto; [now apply known_element|now apply lone_element].
  - destruct K as [_ K], G as [_ G]. eapply ReadTerminated; eauto. apply IHR; auto; [now apply known_element|now apply lone_element|].
    rewrite span_app. cbn [span fold_right snd]. now rewrite Z.add_0_r.
  - destruct K as [_ K], G as [_ G]. eapply ReadSized; eauto. apply IHR; auto; [now apply known_element|now apply lone_element].
  - destruct K as [_ K], G as [_ G]. eapply ReadSizedVariable; eauto. apply IHR; auto; [now apply known_element|now apply lone_element].
  - rewrite <- W. apply ReadStream; auto; lia.
  - rewrite <- W. apply ReadStreamTerminated; auto. destruct H1 as (K0 & F & N). pose proof (len_nonneg t) as LT.
    assert (S : forall j, 0 <= j <= k -> window bs' (off + j * len t) (len t) = window bs (off + j * len t) (len t)).
    { intros j J. apply (window_sub bs bs' off ((k + 1) * len t)); auto; nia. }
    split; auto. split; [rewrite S; auto; lia|]. intros j J. rewrite S by lia. now apply N.
  - destruct K as [K K'], G as [G G']. eapply ReadString; eauto. apply IHR; auto; split; auto.
  - destruct K as [_ K], G as [_ G]. apply go_forall in K, G. apply ReadStructure. apply IHR; auto.
  - destruct G as [[] _].
  - constructor.
  - assert (N : 0 <= n) by (eapply reads_nonneg; eauto).
    assert (N' : 0 <= span rs) by (eapply reads_elements_nonneg; eauto).
    cbn [span fold_right snd] in W. fold (span rs) in W.
    constructor; [lia| |].
    + apply IHR; auto. apply (window_sub bs bs' off (n + span rs)); auto; lia.
    + apply IHR0; auto; [lia|]. apply (window_sub bs bs' off (n + span rs)); auto; lia.
  - constructor.
  - inversion K; inversion G; subst. assert (N : 0 <= n) by (eapply reads_nonneg; eauto; now apply known_used).
    assert (N' : 0 <= total rs) by (eapply reads_members_nonneg; eauto).
    cbn [total fold_right size_of] in W. fold (total rs) in W.
    apply ReadPresent; auto.
    + apply IHR; auto; [now apply known_used|now apply lone_used|]. apply (window_sub bs bs' off (n + total rs)); auto; lia.
    + apply IHR0; auto; [lia|]. apply (window_sub bs bs' off (n + total rs)); auto; lia.
  - inversion K; inversion G; subst. apply ReadAbsent; auto.
Qed.

Lemma regular_members mt bo ms : everywhere regular (DStructure mt bo ms) ->
  Forall (fun m => everywhere regular (used_type (m_name mt) bo m)) ms.
Proof.
  intros [[[_ WN] (CN & _ & NN & RG)] Em]. apply everywhere_list in Em.
  rewrite Forall_forall in *. intros x Hx. specialize (Em x Hx). apply everywhere_type in Em.
  unfold used_type. destruct bo; auto; destruct (dt_byte_order (type_of x)) as [[]|] eqn:B; auto;
    (apply regular_copy; [exact B| |exact Em]); intros mt1 ms1 T;
    (destruct (NN x mt1 ms1) as [(c & r & -> & Hc) N2]; [discriminate|exact Hx|exact T|]); (split; [do 2 eexists; split; [reflexivity|exact Hc]|exact N2]).
Qed.

Lemma read_created orc bs d off vals v n t : reads orc bs d off vals v n -> create orc d None = Ok t -> exists m, t = Some m.
Proof.
  intros R C. destruct t as [m|]; [eauto|]. apply create_nothing in C. inversion R; subst; contradiction.
Qed.

(** What members are read as is unique. *)
Lemma members_present orc bs cls bo names vals done m ms off rs : reads_members orc bs cls bo names vals done (m :: ms) off rs ->
  exists r rs0, rs = r :: rs0 /\ reads_members orc bs cls bo names vals (done ++ [r]) ms (off + size_of r) rs0 /\
    match r with
    | Some (v, n) => condition_is orc m (scope cls (partly cls names done) vals) true /\
        reads orc bs (used_type cls bo m) off (scope cls (partly cls names done) vals) v n /\ allowed m v
    | None => condition_is orc m (scope cls (partly cls names done) vals) false
    end.
Proof.
  intros R. remember (m :: ms) as l. destruct R; inversion Heql; subst.
  - exists (Some (v, n)), rs. auto.
  - exists None, rs. cbn [size_of]. rewrite Z.add_0_r. auto.
Qed.

Lemma members_read_once orc cls bo names vals bs ms : extensional orc ->
  Forall (fun m => everywhere regular (used_type cls bo m) /\ (exists t, create orc (used_type cls bo m) None = Ok t) /\ levels m <= 11) ms ->
  forall done off rs rs', 0 <= off <= len bs ->
  reads_members orc bs cls bo names vals done ms off rs -> reads_members orc bs cls bo names vals done ms off rs' ->
  rs' = rs /\ 0 <= total rs /\ off + total rs <= len bs.
Proof.
  intros X A. induction A as [|m ms (E & (t & C) & D) A IH]; intros done off rs rs' Ho R R'.
  - inversion R; inversion R'; subst. repeat split; cbn; lia.
  - apply members_present in R, R'. destruct R as (r & rs0 & -> & M & R), R' as (r' & rs1 & -> & M' & R').
    destruct r as [[v n]|], r' as [[v' n']|]; try destruct R as (R1 & R2 & R3); try destruct R' as (R1' & R2' & R3');
      try (match goal with A : condition_is _ _ _ true, B : condition_is _ _ _ false |- _ => pose proof (condition_fun _ _ _ _ _ A B); discriminate end).
    + destruct (read_created _ _ _ _ _ _ _ _ R2 C) as (x & ->).
      assert (Dx : levels (used_type cls bo m) <= 11) by now rewrite levels_used.
      destruct (reading_unique _ _ _ _ _ _ _ _ _ _ X E C Ho Dx R2 R2') as [<- <-].
      pose proof (created_contained _ _ _ X E C) as CN.
      destruct (reading_enough_fuel _ _ _ _ _ _ 0 _ _ X E C Ho Dx R2) as (f1 & F1).
      destruct (contained_inside _ _ _ _ _ _ _ _ _ CN Ho (F1 f1 (le_n _))) as [Z0 Z1]. cbn [size_of] in *.
      assert (Ho2 : 0 <= off + n <= len bs) by lia. destruct (IH _ _ _ _ Ho2 M M') as (-> & Z2 & Z3).
      cbn [total fold_right size_of]. fold (total rs0). repeat split; auto; lia.
    + cbn [size_of] in *. rewrite Z.add_0_r in *. destruct (IH _ _ _ _ Ho M M') as (-> & Z2 & Z3).
      cbn [total fold_right size_of]. fold (total rs0). repeat split; auto; lia.
Qed.

Lemma reassigned_refl x e : reassigned_env x e e.
Proof. induction e; constructor; auto. split; auto. now left. Qed.

Lemma reassigned_scope x cls p p' e e' : reassigned x p p' -> reassigned_env x e e' -> reassigned_env x (scope cls p e) (scope cls p' e').
Proof. intros P E. unfold scope. apply Forall2_app; auto. Qed.

Lemma reassigned_partly cls n1 x n2 a r r' b : List.length a = List.length n1 ->
  reassigned x (partly cls (n1 ++ x :: n2) (a ++ r :: b)) (partly cls (n1 ++ x :: n2) (a ++ r' :: b)).
Proof.
  intros L. right. unfold partly. rewrite !map_app, !app_length. cbn [map List.length]. rewrite <- !app_assoc. cbn [app].
  rewrite !combine_app2 by (rewrite map_length; auto). cbn [combine]. do 5 eexists. split; reflexivity.
Qed.

Lemma unheeded_copy orc x n b d : unheeded orc x d -> unheeded orc x (set_name_bo n b d).
Proof. unfold unheeded. now rewrite expressions_copy. Qed.

(** Members after [x] that do not look at it. *)
Lemma members_after orc bs bs' cls bo n1 x n2 vals a r r' ms : len bs <= len bs' -> List.length a = List.length n1 ->
  Forall (everywhere known) ms -> Forall (everywhere lone) ms -> Forall (everywhere (unheeded orc x)) ms ->
  forall b off rs, 0 <= off ->
  reads_members orc bs cls bo (n1 ++ x :: n2) vals (a ++ r :: b) ms off rs ->
  window bs' off (total rs) = window bs off (total rs) ->
  reads_members orc bs' cls bo (n1 ++ x :: n2) vals (a ++ r' :: b) ms off rs.
Proof.
  intros L La K G U. induction ms as [|m ms IH]; intros b off rs Ho R W; [inversion R; constructor|].
  inversion K as [|? ? K1 K2]; inversion G as [|? ? G1 G2]; inversion U as [|? ? U1 U2]; subst.
  specialize (IH K2 G2 U2).
  set (e := scope cls (partly cls (n1 ++ x :: n2) (a ++ r :: b)) vals). set (e' := scope cls (partly cls (n1 ++ x :: n2) (a ++ r' :: b)) vals).
  assert (E : reassigned_env x e e') by (apply reassigned_scope; [now apply reassigned_partly|apply reassigned_refl]).
  assert (CE : forall q, condition_is orc m e q -> condition_is orc m e' q).
  { intros q. apply (condition_alike orc (reassigned_env x) (ignores orc x)).
    - intros y e1 e2 R1 I. now apply I.
    - exact E.
    - destruct m; exact (proj1 U1). }
  inversion R; subst.
  - match goal with Q : reads _ _ _ _ _ v n |- _ => rename Q into Q1 end.
    match goal with Q : reads_members _ _ _ _ _ _ _ ms _ _ |- _ => rename Q into Q2 end.
    assert (N : 0 <= n) by (eapply reads_nonneg; eauto; now apply known_used).
    assert (N' : 0 <= total rs0) by (eapply reads_members_nonneg; eauto).
    cbn [total fold_right size_of] in W. fold (total rs0) in W.
    apply ReadPresent; auto.
    + apply (reads_elsewhere orc bs bs'); auto; [|now apply known_used|now apply lone_used|apply (window_sub bs bs' off (n + total rs0)); auto; lia].
      refine (reads_alike orc (reassigned_env x) (ignores orc x) _ _ _ _ _ _ _ _ Q1 _ e' E).
      * intros y e1 e2 R1 I. now apply I.
      * intros cls' p e1 e2 R1. apply reassigned_scope; auto. now left.
      * apply same_used; auto. intros n0 b0 d. apply unheeded_copy.
    + rewrite <- app_assoc. cbn [app]. apply IH; [lia| |apply (window_sub bs bs' off (n + total rs0)); auto; lia].
      rewrite <- app_assoc in Q2. exact Q2.
  - match goal with Q : reads_members _ _ _ _ _ _ _ ms _ _ |- _ => rename Q into Q2 end.
    apply ReadAbsent; auto. rewrite <- app_assoc. cbn [app]. apply IH; auto. rewrite <- app_assoc in Q2. exact Q2.
Qed.

(** The same when nothing is reassigned. *)
Lemma members_elsewhere orc bs bs' cls bo names vals ms : len bs <= len bs' ->
  Forall (everywhere known) ms -> Forall (everywhere lone) ms -> forall done off rs, 0 <= off ->
  reads_members orc bs cls bo names vals done ms off rs ->
  window bs' off (total rs) = window bs off (total rs) ->
  reads_members orc bs' cls bo names vals done ms off rs.
Proof.
  intros L K G. induction ms as [|m ms IH]; intros done off rs Ho R W; [inversion R; constructor|].
  inversion K as [|? ? K1 K2]; inversion G as [|? ? G1 G2]; subst. specialize (IH K2 G2). inversion R; subst.
  - match goal with Q : reads _ _ _ _ _ v n |- _ => rename Q into Q1 end.
    match goal with Q : reads_members _ _ _ _ _ _ _ ms _ _ |- _ => rename Q into Q2 end.
    assert (N : 0 <= n) by (eapply reads_nonneg; eauto; now apply known_used).
    assert (N' : 0 <= total rs0) by (eapply reads_members_nonneg; eauto).
    cbn [total fold_right size_of] in W. fold (total rs0) in W.
    apply ReadPresent; auto.
    + apply (reads_elsewhere orc bs bs'); auto; [now apply known_used|now apply lone_used|apply (window_sub bs bs' off (n + total rs0)); auto; lia].
    + apply IH; auto; [lia|apply (window_sub bs bs' off (n + total rs0)); auto; lia].
  - apply ReadAbsent; auto.
Qed.

Lemma len_app {A} (a b : list A) : len (a ++ b) = len a + len b.
Proof. unfold len. rewrite app_length. lia. Qed.

(** Streams that differ in one place have the windows before and after it in common. *)
Lemma window_before (p o o' s : bytes) off i : 0 <= off -> 0 <= i -> len p = off + i ->
  window (p ++ o' ++ s) off i = window (p ++ o ++ s) off i.
Proof. intros H1 H2 H3. rewrite !WindowProofs.window_app; auto; lia. Qed.

Lemma window_after (p o o' s : bytes) off n : len o' = len o -> len p + len o <= off -> 0 <= n ->
  window (p ++ o' ++ s) off n = window (p ++ o ++ s) off n.
Proof.
  intros L H N. unfold window. f_equal. rewrite !app_assoc. rewrite (skipn_app _ (p ++ o') s), (skipn_app _ (p ++ o) s).
  rewrite (skipn_all2 (p ++ o')), (skipn_all2 (p ++ o)) by (rewrite app_length; unfold len in *; lia). cbn [app]. rewrite !app_length. unfold len in *. replace (List.length o') with (List.length o) by lia. reflexivity.
Qed.

Lemma reads_structure orc bs mt bo ms off vals v n : reads orc bs (DStructure mt bo ms) off vals v n ->
  exists rs, reads_members orc bs (m_name mt) bo (map dt_name ms) vals [] ms off rs /\
    v = VStruct (m_name mt) (combine (map dt_name ms) (map value_of rs)) /\ n = total rs.
Proof. intros R. remember (DStructure mt bo ms) as d. destruct R; inversion Heqd; subst. eauto. Qed.

(** C70: other bytes for a member of fixed size change this member and nothing else. *)
Lemma disturbed orc mt bo before x after m t k fuel bs off vals depth f1 w f2 n :
  extensional orc -> everywhere regular (DStructure mt bo (before ++ x :: after)) ->
  everywhere lone (DStructure mt bo (before ++ x :: after)) ->
  Forall (everywhere (unheeded orc (dt_name x))) after -> everywhere wordless x ->
  everywhere exact (used_type (m_name mt) bo x) -> get_byte_size (used_type (m_name mt) bo x) = Some k ->
  create orc (DStructure mt bo (before ++ x :: after)) None = Ok (Some m) ->
  create orc (used_type (m_name mt) bo x) None = Ok (Some t) ->
  0 <= off <= len bs -> depth + levels (DStructure mt bo (before ++ x :: after)) <= 11 -> 0 <= depth ->
  maps orc fuel m bs off vals depth (VStruct (m_name mt) (f1 ++ (dt_name x, w) :: f2)) n ->
  List.length f1 = List.length before ->
  exists i, 0 <= i /\ i + k <= n /\ off + n <= len bs /\
    (exists fuel', maps orc fuel' t bs (off + i) [] depth w k) /\
    forall p o o' s, bs = p ++ o ++ s -> len p = off + i -> len o = k -> len o' = k ->
    forall v' n',
      (exists fuel', maps orc fuel' m (p ++ o' ++ s) off vals depth v' n') <->
      (exists fuel' w', maps orc fuel' t (p ++ o' ++ s) (off + i) [] depth w' k /\ allowed x w' /\
         v' = VStruct (m_name mt) (f1 ++ (dt_name x, w') :: f2) /\ n' = n).
Proof.
  intros X E G U Wx Ex Sx C Ct Ho D D0 M Lf.
  assert (Wt : everywhere wordless (used_type (m_name mt) bo x)) by (apply same_used; auto using wordless_copy).
  assert (Wc : forall e, condition_is orc x e true /\ ~ condition_is orc x e false).
  { intros e. unfold condition_is. assert (Q : truthy_str (member_cond x) = None); [|now rewrite Q].
    assert (Q : wordless x) by (destruct x; now destruct Wx). destruct x; try reflexivity. cbn in Q |- *. now destruct condition. }
  pose proof (regular_members _ _ _ E) as RM. pose proof (created_members _ _ _ _ _ (regular_sound _ E) C) as CM.
  pose proof (sound_known _ (regular_sound _ E)) as [_ Kn]. pose proof G as [_ Gn]. apply go_forall in Kn, Gn.
  assert (LV : Forall (fun y => depth + levels y <= 10) (before ++ x :: after)).
  { apply Forall_forall. intros y Hy. cbn [levels] in D. pose proof (levels_member y _ Hy). lia. }
  assert (FI : Forall (fun m => everywhere regular (used_type (m_name mt) bo m) /\ (exists t, create orc (used_type (m_name mt) bo m) None = Ok t) /\ levels m <= 11) (before ++ x :: after)).
  { rewrite Forall_forall in *. intros y Hy. split; [auto|]. split; [apply CM; auto|]. specialize (LV y Hy). cbn in LV. lia. }
  apply Forall_app in Kn, Gn, LV, FI. destruct Kn as [Kb Kn], Gn as [Gb Gn], LV as [Lb Ln], FI as [Fb Fn].
  inversion Kn as [|? ? Kx Ka]; inversion Gn as [|? ? Gx Ga]; inversion Ln as [|? ? Lx La]; inversion Fn as [|? ? (Et & _) Fa]; subst.
  assert (Dt : depth + levels (used_type (m_name mt) bo x) <= 11) by (rewrite levels_used; lia).
  pose proof (created_contained _ _ _ X E C) as CN.
  destruct (contained_inside _ _ _ _ _ _ _ _ _ CN Ho M) as [Zn0 Zn].
  apply (mapping_reads _ _ _ _ _ _ _ _ _ _ X E C Ho) in M.
  apply reads_structure in M. destruct M as (rs & R & H2 & ->). injection H2 as H2.
  apply members_app in R. destruct R as (r1 & r2 & -> & R1 & R2). cbn [app] in R2.
  apply members_present in R2. destruct R2 as (r & r3 & -> & R3 & Rx). destruct r as [[w0 k0]|]; [|exfalso; eapply Wc; exact Rx].
  destruct Rx as (_ & Rx & Al). cbn [size_of] in R3.
  pose proof (members_length _ _ _ _ _ _ _ _ _ _ R1) as L1.
  assert (EQ : combine (map dt_name before) (map value_of r1) = f1 /\ w0 = w /\ combine (map dt_name after) (map value_of r3) = f2).
  { rewrite !map_app in H2. cbn [map value_of] in H2. rewrite combine_app2 in H2 by (rewrite !map_length; auto). cbn [combine] in H2.
    symmetry in H2. apply app_split in H2; [|rewrite combine_length, !map_length; lia]. destruct H2 as [-> Q]. inversion Q. auto. }
  destruct EQ as (E1 & -> & E2). clear H2.
  destruct (members_read_once _ _ _ _ _ _ _ X Fb _ _ _ _ Ho R1 R1) as (_ & Z0 & Z1).
  apply (deaf orc) with (e' := []) in Rx; [|exact Wt].
  assert (WID : forall b v1 n1, 0 <= off + total r1 <= len b -> reads orc b (used_type (m_name mt) bo x) (off + total r1) [] v1 n1 -> n1 = k).
  { intros b v1 n1 Hb Q. destruct (reading_enough_fuel _ _ _ _ _ _ depth _ _ X Et Ct Hb Dt Q) as (f & F).
    eapply (exact_size orc f (used_type (m_name mt) bo x) t k b (off + total r1) [] depth v1 n1); eauto; [now apply regular_sound|lia]. }
  assert (Ho2 : 0 <= off + total r1 <= len bs) by lia.
  assert (k0 = k) by (eapply WID; eauto). subst k0.
  assert (N3 : 0 <= total r3) by (eapply reads_members_nonneg; eauto).
  match type of Zn with _ + ?T <= _ => assert (TT : T = total r1 + k + total r3);
    [rewrite total_app; cbn [total fold_right size_of]; fold (total r3); lia|rewrite TT in Zn |- *] end.
  exists (total r1). split; [auto|]. split; [lia|]. split; [lia|]. split.
  { destruct (reading_enough_fuel _ _ _ _ _ _ depth _ _ X Et Ct Ho2 Dt Rx) as (f & F). exists f. apply F. lia. }
  intros p o o' s -> Lp Lo Lo' v' n'. assert (K0 : 0 <= k) by (pose proof (len_nonneg o); lia).
  assert (LL : len (p ++ o' ++ s) = len (p ++ o ++ s)) by (rewrite !len_app; lia).
  assert (Ho' : 0 <= off <= len (p ++ o' ++ s)) by lia.
  rewrite <- (reading_maps _ _ _ _ _ _ depth _ _ X E C Ho' D).
  assert (B' : reads_members orc (p ++ o' ++ s) (m_name mt) bo (map dt_name (before ++ x :: after)) vals [] before off r1).
  { eapply members_elsewhere; [| | | |exact R1|]; auto; try lia. apply window_before; lia. }
  assert (WB : window (p ++ o' ++ s) (off + total r1 + k) (total r3) = window (p ++ o ++ s) (off + total r1 + k) (total r3)).
  { apply window_after; lia. }
  assert (A' : forall w', reads_members orc (p ++ o' ++ s) (m_name mt) bo (map dt_name (before ++ x :: after)) vals ((r1 ++ [Some (w', k)])) after (off + total r1 + k) r3).
  { intros w'. rewrite map_app in R3 |- *. cbn [map] in R3 |- *. eapply members_after; [| | | | | |exact R3|exact WB]; auto; try lia; try (now rewrite map_length). }
  split.
  - intros Q. apply reads_structure in Q. destruct Q as (rs & R & -> & ->).
    apply members_app in R. destruct R as (q1 & q2 & -> & Q1 & Q2). cbn [app] in Q2.
    destruct (members_read_once _ _ _ _ _ _ _ X Fb _ _ _ _ Ho' B' Q1) as (-> & _ & _).
    apply members_present in Q2. destruct Q2 as (r & q3 & -> & Q3 & Qx). destruct r as [[w' k']|]; [|exfalso; eapply Wc; exact Qx].
    destruct Qx as (_ & Qx & Al'). cbn [size_of] in Q3. apply (deaf orc) with (e' := []) in Qx; [|exact Wt].
    assert (Ho3 : 0 <= off + total r1 <= len (p ++ o' ++ s)) by lia.
    assert (k' = k) by (eapply WID; eauto). subst k'.
    assert (Ho4 : 0 <= off + total r1 + k <= len (p ++ o' ++ s)) by (rewrite !len_app; pose proof (len_nonneg s); lia).
    destruct (members_read_once _ _ _ _ _ _ _ X Fa _ _ _ _ Ho4 (A' w') Q3) as (-> & _ & _).
    destruct (reading_enough_fuel _ _ _ _ _ _ depth _ _ X Et Ct Ho3 Dt Qx) as (f & F).
    exists f, w'. split; [apply F; lia|]. split; auto. split.
    + f_equal. rewrite !map_app. cbn [map value_of]. rewrite combine_app2 by (rewrite !map_length; auto). cbn [combine]. now rewrite E1, E2.
    + rewrite total_app. cbn [total fold_right size_of]. fold (total r3). lia.
  - intros (f & w' & Q & Al' & -> & ->).
    assert (Ho3 : 0 <= off + total r1 <= len (p ++ o' ++ s)) by lia.
    apply (mapping_reads _ _ _ _ _ _ _ _ _ _ X Et Ct Ho3) in Q.
    replace (total r1 + k + total r3) with (total (r1 ++ Some (w', k) :: r3)) by (rewrite total_app; cbn [total fold_right size_of]; fold (total r3); lia).
    replace (f1 ++ (dt_name x, w') :: f2) with (combine (map dt_name (before ++ x :: after)) (map value_of (r1 ++ Some (w', k) :: r3))).
    2:{ rewrite !map_app. cbn [map value_of]. rewrite combine_app2 by (rewrite !map_length; auto). cbn [combine]. now rewrite E1, E2. }
    apply ReadStructure. apply members_app. exists r1, (Some (w', k) :: r3). split; auto. split; auto. cbn [app].
    apply ReadPresent; [apply Wc|eapply deaf; eauto|assumption|apply A'].
Qed.
