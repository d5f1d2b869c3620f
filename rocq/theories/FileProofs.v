(** From definition files to values: which definitions of a file have a map, and
    what the map computes. *)
From Coq Require Import String Ascii List ZArith Bool Lia.
From Verif Require Import Base PyVal PyStruct DataTypes ClassFactory DataMaps SpecPrim SpecMap SpecCreate SpecReads SpecMake
  Yaml Reader SpecReader SpecDescribe Fabric SpecFabric CreateProofs SteadyProofs ReadsProofs ReaderProofs ReadFileProofs DescribeProofs
  FabricProofs SameProofs MakeProofs.
Import ListNotations.
Open Scope Z_scope.

Lemma typed_meta_name r d : typed r = Some d -> t_name (rd_name r) = Some (dt_name d).
Proof.
  unfold rd_name, dt_name.
  assert (M : forall m m', t_meta m = Some m' -> t_name (rm_name m) = Some (m_name m')).
  { intros m m' H. unfold t_meta in H. opened H. injection H as <-. reflexivity. }
  assert (F : forall f f', t_fixed f = Some f' -> t_name (rm_name (rf_meta f)) = Some (m_name (f_meta f'))).
  { intros f f' H. unfold t_fixed in H. opened H. injection H as <-. cbn. auto. }
  assert (L : forall e e', t_elems e = Some e' -> t_name (rm_name (re_meta e)) = Some (m_name (e_meta e'))).
  { intros e e' H. unfold t_elems in H. opened H. injection H as <-. cbn. auto. }
  destruct r; cbn [typed]; intros T; opened T; injection T as <-; cbn; auto.
Qed.

Lemma ascii_text_inj a : forall b s, ascii_text a = Some s -> ascii_text b = Some s -> a = b.
Proof.
  induction a as [|x a IH]; intros [|y b] s A B; cbn in A, B.
  - reflexivity.
  - opened B. injection A as <-. discriminate.
  - opened A. injection B as <-. discriminate.
  - destruct (ascii_char x) as [p|] eqn:E1; [|discriminate]. destruct (ascii_text a) as [s1|] eqn:E2; [|discriminate].
    destruct (ascii_char y) as [q|] eqn:E3; [|discriminate]. destruct (ascii_text b) as [s2|] eqn:E4; [|discriminate].
    injection A as <-. injection B as -> ->. f_equal; [|eapply IH; eauto].
    unfold ascii_char in E1, E3. destruct ((0 <=? x) && (x <? 128)) eqn:X; [|discriminate]. destruct ((0 <=? y) && (y <? 128)) eqn:Y; [|discriminate].
    injection E1 as E1. injection E3 as E3. rewrite <- E3 in E1. apply (f_equal nat_of_ascii) in E1.
    rewrite !nat_ascii_embedding in E1 by lia. lia.
Qed.

Lemma t_name_inj a b s : t_name a = Some s -> t_name b = Some s -> y_eqb a b = true.
Proof.
  assert (R : forall l, list_eqb Z.eqb l l = true) by (induction l; cbn; auto; rewrite Z.eqb_refl; auto).
  destruct a as [| | | |[|x a]| | | | | |], b as [| | | |[|y b]| | | | | |]; cbn [t_name]; intros A B; try discriminate; try reflexivity.
  - injection A as <-. cbn in B. opened B; discriminate.
  - injection B as <-. cbn in A. opened A; discriminate.
  - cbn [t_text] in A, B. rewrite (ascii_text_inj _ _ _ A B). cbn [y_eqb]. apply R.
Qed.

Lemma distinct_nodup rs ds : distinct (map rd_name rs) -> Forall2 (fun a b => typed a = Some b) rs ds -> NoDup (map dt_name ds).
Proof.
  intros D F. revert D. induction F as [|r d rs ds T F IH]; intros D; cbn; constructor.
  - intros I. apply in_map_iff in I. destruct I as (d' & E & I).
    assert (G : exists j r', nth_error (map rd_name rs) j = Some (rd_name r') /\ typed r' = Some d').
    { clear - F I. induction F as [|x y rs ds T F IH]; [destruct I|]. destruct I as [->|I].
      - exists O, x. auto.
      - destruct (IH I) as (j & r' & J & T'). exists (S j), r'. auto. }
    destruct G as (j & r' & J & T'). pose proof (D O (S j) (rd_name r) (rd_name r') ltac:(lia) eq_refl J) as Q.
    pose proof (typed_meta_name _ _ T) as N1. pose proof (typed_meta_name _ _ T') as N2. rewrite E in N2.
    rewrite (t_name_inj _ _ _ N2 N1) in Q. discriminate.
  - apply IH. intros i j a b L A B. apply (D (S i) (S j) a b); auto. lia.
Qed.

Lemma member_ordered r d : is_member_def r -> typed r = Some d -> ordered d.
Proof.
  intros M T. destruct r; cbn in M; try contradiction; cbn [typed] in T; opened T; injection T as <-; red; cbn; eauto.
Qed.

Lemma shaped_all rs ds :
  Forall (fun r => well_formed r -> forall d, typed r = Some d -> everywhere shaped d) rs ->
  Forall well_formed rs -> Forall2 (fun a b => typed a = Some b) rs ds -> Forall (everywhere shaped) ds.
Proof. intros H W F. induction F; constructor; inversion H; inversion W; subst; eauto. Qed.

Lemma typed_shaped r : well_formed r -> forall d, typed r = Some d -> everywhere shaped d.
Proof.
  induction r using rdef_rect'; intros W d T; inversion W; subst; clear W; cbn [typed] in T; opened T; injection T as <-;
    cbn [everywhere shaped]; try (split; exact I).
  all: repeat match goal with H : every typed _ = Some _ |- _ => apply every_forall2 in H end.
  - split; auto.
  - assert (W : Forall well_formed ms) by (eapply Forall_impl; [|eassumption]; intros ? (? & ?); assumption).
    split; [|refine (proj2 (everywhere_list _ _) _); eapply shaped_all; eauto].
    split; [eapply distinct_nodup; eauto|].
    match goal with F2 : Forall2 _ ms l, F1 : Forall (fun _ => _ /\ _) ms |- _ => clear - F1 F2; induction F2; constructor; inversion F1; subst; auto end.
    eapply member_ordered; [|eassumption]. tauto.
  - assert (W : Forall well_formed ms) by (eapply Forall_impl; [|eassumption]; intros ? (? & ?); assumption).
    split; [|refine (proj2 (everywhere_list _ _) _); eapply shaped_all; eauto].
    eapply distinct_nodup; eauto.
  - split; auto.
  - split; auto. split; auto. refine (proj2 (everywhere_list _ _) _); eapply shaped_all; eauto.
  - assert (W : Forall well_formed ms) by (eapply Forall_impl; [|eassumption]; intros ? (? & ?); assumption).
    split; auto. split; auto. split; [|refine (proj2 (everywhere_list _ _) _); eapply shaped_all; eauto].
    destruct df as [x|]; cbn in *; opened E3; injection E3 as <-; auto.
Qed.

Lemma file_sound env docs ds rd d : says_file env [] docs ds -> In rd ds -> typed rd = Some d ->
  everywhere careful d -> everywhere sound d /\ everywhere shaped d.
Proof.
  intros S I T C. pose proof (file_definitions_well_formed _ _ _ S) as W. rewrite Forall_forall in W.
  split; [exact (careful_sound rd (W rd I) d T C)|exact (typed_shaped rd (W rd I) d T)].
Qed.

(** C49 *)
Lemma map_of_name orc env docs ds : says_file env [] docs ds ->
  exists r, fabric env (Some (docs, YEnd)) = Ok r /\
    (forall name rd d, stands_for env ds name rd -> same rd d ->
       create_map orc env r name = match create orc d None with
                                   | Ok m => Made m
                                   | Raise e => MakeError (Err e)
                                   | OutOfFuel => MakeFuel
                                   end) /\
    (forall s, (forall rd, ~ stands_for env ds (YStr s) rd) -> create_map orc env r (YStr s) = Made None).
Proof.
  intros S. destruct (map_by_name orc _ _ _ S) as (r & F & N & M). exists r. split; [exact F|]. split; [|exact M].
  intros name rd d St T. apply typed_same in T. eauto.
Qed.

(** C51 *)
Lemma file_maps orc env docs ds name rd d :
  says_file env [] docs ds -> stands_for env ds name rd -> same rd d -> everywhere careful d ->
  exists r, fabric env (Some (docs, YEnd)) = Ok r /\
    ((exists m, create_map orc env r name = Made (Some m)) <-> mappable orc d /\ has_map d) /\
    (create_map orc env r name = Made None <-> ~ has_map d) /\
    (~ mappable orc d -> exists e, create_map orc env r name = MakeError (Err e) /\ In e creation_errors).
Proof.
  intros S St T C. apply typed_same in T. destruct (file_sound _ _ _ _ _ S (stands_for_in _ _ _ _ St) T C) as [SO SH].
  destruct (map_by_name orc _ _ _ S) as (r & F & N & _). exists r. split; [exact F|]. rewrite (N name rd d St T).
  pose proof (creation_succeeds orc d SO SH) as Q. pose proof (creation_none orc d) as P.
  pose proof (creation_fails orc d SO SH) as R.
  assert (H : has_map d \/ ~ has_map d) by (destruct d; cbn; tauto).
  destruct (create orc d None) as [[m|]|e|].
  - assert (M : mappable orc d) by (apply Q; eauto). assert (HM : has_map d).
    { destruct H as [H|H]; auto. apply P in H. discriminate. }
    split; [split; [auto|eauto]|]. split; [split; [discriminate|tauto]|tauto].
  - assert (M : mappable orc d) by (apply Q; eauto). assert (NH : ~ has_map d) by (apply P; reflexivity).
    split; [split; [intros [m X]; discriminate|tauto]|]. split; tauto.
  - assert (NM : ~ mappable orc d) by (intros X; apply Q in X; destruct X; discriminate).
    split; [split; [intros [m X]; discriminate|tauto]|]. split; [split; [discriminate|intros X; apply P in X; discriminate]|].
    intros _. destruct (R NM) as (e' & E & I). injection E as <-. eauto.
  - exfalso. assert (NM : ~ mappable orc d) by (intros X; apply Q in X; destruct X; discriminate).
    destruct (R NM) as (e' & E & _). discriminate.
Qed.

(** C50 *)
Lemma file_to_value orc env docs ds name rd d :
  extensional orc -> says_file env [] docs ds -> stands_for env ds name rd -> same rd d ->
  everywhere careful d -> everywhere orderly d -> levels d <= 11 -> mappable orc d -> has_map d ->
  exists r m, fabric env (Some (docs, YEnd)) = Ok r /\ create_map orc env r name = Made (Some m) /\
    forall bs off vals v n, 0 <= off <= len bs ->
      ((exists fuel, maps orc fuel m bs off vals 0 v n) <-> SpecReads.reads orc bs d off vals v n).
Proof.
  intros X S St T C O L MA HM. apply typed_same in T. destruct (file_sound _ _ _ _ _ S (stands_for_in _ _ _ _ St) T C) as [SO SH].
  destruct (map_by_name orc _ _ _ S) as (r & F & N & _). exists r.
  destruct (proj2 (creation_succeeds orc d SO SH) MA) as [[m|] M].
  2:{ apply creation_none in M. contradiction. }
  exists m. split; [exact F|]. split; [rewrite (N name rd d St T), M; reflexivity|]. intros bs off vals v n Ho. symmetry.
  apply reading_maps; auto. eapply file_regular; eauto. eapply stands_for_in; eauto.
Qed.
