(** From definition files to data type maps and values. *)
From Coq Require Import String List ZArith Bool Lia.
From Verif Require Import Base PyVal PyStruct DataTypes ClassFactory DataMaps SpecPrim SpecMap SpecCreate SpecReads
  Yaml Reader SpecReader SpecDescribe Fabric SpecFabric CreateProofs SteadyProofs ReadsProofs ReaderProofs ReadFileProofs ReaderTotal DescribeProofs.
Import ListNotations.
Open Scope Z_scope.

Lemma fabric_of_file env docs ds : says_file env [] docs ds ->
  exists r, fabric env (Some (docs, YEnd)) = Ok r /\ holds env r /\ registered r = ds.
Proof.
  intros S. destruct (says_docs _ _ _ None _ (holds_empty env) S) as (r & H & E).
  exists r. cbn [fabric]. rewrite H. split; [reflexivity|]. split; [|exact E].
  clear - H. revert H. generalize (holds_empty env). generalize rreg_empty as r0. generalize (@None rdef) as last.
  induction docs as [|v docs IH]; cbn [read_docs]; intros last r0 Ho H.
  - now inversion H; subst.
  - destruct (read_definition env r0 v) as [d|[]|]; try discriminate.
    destruct (rregister env r0 d) as [r1| |] eqn:R; try discriminate.
    eapply IH; [|exact H]. eapply holds_register; eauto.
Qed.

Definition on_rdef (P : rdef -> Prop) (o : option rdef) : Prop :=
  match o with Some m => P m | None => True end.

Lemma rdef_rect' (P : rdef -> Prop) :
  (forall f, P (RBoolean f)) -> (forall f, P (RCharacter f)) -> (forall f, P (RFloat f)) ->
  (forall f fmt, P (RInteger f fmt)) -> (forall f, P (RUUID f)) -> (forall m bo a, P (RPadding m bo a)) ->
  (forall k e el, P el -> P (RElems k e el)) ->
  (forall m bo ss ms, Forall P ms -> P (RStructure m bo ss ms)) ->
  (forall m bo ss ms, Forall P ms -> P (RUnion m bo ss ms)) ->
  (forall m bo c dt vs d, P d -> P (RMember m bo c dt vs d)) ->
  (forall m v, P (RConstant m v)) -> (forall m vs, P (REnumeration m vs)) ->
  (forall m bo l md, P (RFormat m bo l md)) ->
  (forall m b ms, P b -> Forall P ms -> P (RFamily m b ms)) ->
  (forall m bo b i df ms, P b -> on_rdef P df -> Forall P ms -> P (RGroup m bo b i df ms)) ->
  forall d, P d.
Proof.
  intros H1 H2 H3 H4 H5 H6 H7 H8 H9 H10 H11 H12 H13 H14 H15.
  fix IH 1. intros d. destruct d.
  - apply H1.
  - apply H2.
  - apply H3.
  - apply H4.
  - apply H5.
  - apply H6.
  - apply H7. apply IH.
  - apply H8. induction members; constructor; [apply IH|assumption].
  - apply H9. induction members; constructor; [apply IH|assumption].
  - apply H10. apply IH.
  - apply H11.
  - apply H12.
  - apply H13.
  - apply H14; [apply IH|]. induction members; constructor; [apply IH|assumption].
  - apply H15; [apply IH| |].
    + destruct default as [x|]; [exact (IH x)|exact I].
    + induction members; constructor; [apply IH|assumption].
Qed.

Lemma every_forall2 {A B} (f : A -> option B) l l' : every f l = Some l' -> Forall2 (fun a b => f a = Some b) l l'.
Proof.
  revert l'. induction l as [|x l IH]; cbn; intros l' H.
  - injection H as <-. constructor.
  - destruct (f x) as [y|] eqn:E; [|discriminate]. destruct (every f l) as [ys|]; [|discriminate].
    injection H as <-. constructor; auto.
Qed.

Lemma typed_size sizes f f' n : fixed_ok sizes f -> t_fixed f = Some f' -> fixed_byte_size f' = Some n -> In n sizes.
Proof.
  intros [_ S] T F. unfold t_fixed in T.
  destruct (t_meta (rf_meta f)); [|discriminate]. destruct (t_order (rf_bo f)); [|discriminate].
  destruct (t_size (rf_size f)) as [s|] eqn:E; [|discriminate]. destruct (t_text (rf_units f)); [|discriminate].
  injection T as <-. unfold fixed_byte_size in F. cbn in F. destruct (_ =? _)%string; [|discriminate]. subst s.
  destruct S as [S | (z & I & S)].
  - rewrite S in E. vm_compute in E. discriminate.
  - destruct S; cbn in E; try discriminate. injection E as <-. exact I.
Qed.

Lemma t_opt_given {A B} (f : A -> option B) o o' : t_opt f o = Some o' -> (given o <-> given o').
Proof.
  unfold given. destruct o as [a|]; cbn; [|intros [= <-]; split; intros (x & E); discriminate].
  destruct (f a) as [b|]; [|discriminate]. intros [= <-]. split; intros _; eauto.
Qed.

Ltac opened H := repeat match type of H with
  | match ?x with _ => _ end = Some _ => let E := fresh "E" in destruct x eqn:E; try discriminate H
  | option_map _ ?x = Some _ => let E := fresh "E" in destruct x eqn:E; try discriminate H; cbn [option_map] in H
  end.

Lemma typed_elems e e' : governed e -> t_elems e = Some e' -> has_data_size e' = false \/ has_number e' = false.
Proof.
  intros G T. unfold t_elems in T. opened T. injection T as <-.
  unfold governed in G. destruct G as (_ & G & _). unfold has_data_size, has_number. cbn.
  apply t_opt_given in E1, E4.
  destruct (re_data_size e) as [z|], (re_number e) as [z'|]; cbn; auto.
  - exfalso. apply G. split; left; red; eauto.
  - destruct o1; auto. exfalso. apply G. split; [left; red; eauto|]. right. apply E4. red; eauto.
  - destruct o; auto. exfalso. apply G. split; [|left; red; eauto]. right. apply E1. red; eauto.
  - destruct o; auto. destruct o1; auto. exfalso. apply G. split; right; [apply E1|apply E4]; red; eauto.
Qed.

Lemma typed_all (P Q : dtype -> Prop) rs ds :
  Forall (fun r => well_formed r -> forall d, typed r = Some d -> everywhere P d -> everywhere Q d) rs ->
  Forall well_formed rs -> Forall2 (fun a b => typed a = Some b) rs ds ->
  Forall (everywhere P) ds -> Forall (everywhere Q) ds.
Proof.
  intros H W F. induction F; intros E; constructor; inversion H; inversion W; inversion E; subst; eauto.
Qed.

(** A well-formed definition that is used with care is sensible. *)
Lemma careful_sound r : well_formed r -> forall d, typed r = Some d -> everywhere careful d -> everywhere sound d.
Proof.
  induction r using rdef_rect'; intros W d T C; inversion W; subst; clear W; cbn [typed] in T; opened T; injection T as <-;
    cbn [everywhere] in *; unfold sound; cbn [well_named].
  1-5: (split; [split; [|exact I]|exact I]); intros n F;
    eapply typed_size in F; [|eassumption|eassumption]; cbn in F; lia.
  all: repeat match goal with H : Forall (fun d => well_formed d /\ _) ?l |- _ =>
         assert (Forall well_formed l) by (eapply Forall_impl; [|exact H]; intros ? (? & ?); assumption); clear H end.
  all: repeat match goal with H : every typed _ = Some _ |- _ => apply every_forall2 in H end.
  - (* padding *) split; [split; [|exact I]|exact I]. destruct H3 as (n & I & Q). inversion Q; subst.
    eexists. split; [reflexivity|]. cbn in I. lia.
  - (* elements *) destruct C as [[C1 [C2 C3]] Ce]. split; [|eapply IHr; eauto]. split; [|exact I].
    split; [eapply typed_elems; eauto|]. auto.
  - destruct C as [C Ce]. split; [split; auto; exact C|]. refine (proj2 (everywhere_list _ _) _); eapply typed_all; eauto; apply everywhere_list; exact Ce.
  - destruct C as [C Ce]. split; [split; exact I|]. refine (proj2 (everywhere_list _ _) _); eapply typed_all; eauto; apply everywhere_list; exact Ce.
  - destruct C as [C Ce]. split; [split; exact I|]. eapply IHr; eauto.
  - split; [split; exact I|exact I].
  - split; [split; exact I|exact I].
  - split; [split; exact I|exact I].
  - destruct C as (C & Cb & Ce). split; [split; exact I|]. split; [eapply IHr; eauto|]. refine (proj2 (everywhere_list _ _) _); eapply typed_all; eauto; apply everywhere_list; exact Ce.
  - destruct C as (C & Cb & Cd & Ce). split; [split; exact I|]. split; [eapply IHr; eauto|]. split; [|refine (proj2 (everywhere_list _ _) _); eapply typed_all; eauto; apply everywhere_list; exact Ce].
    destruct df as [x|]; cbn in *; opened E3; injection E3 as <-; auto.
Qed.

(** ** Files *)

Lemma file_definitions_well_formed env docs ds : says_file env [] docs ds -> Forall well_formed ds.
Proof.
  intros S. apply file_says in S. destruct S as (r & H & <-). eapply file_well_formed; eauto.
Qed.

Lemma stands_for_in env ds name rd : stands_for env ds name rd -> In rd ds.
Proof. intros [H _]. exact H. Qed.

(** C49 *)
Lemma map_by_name orc env docs ds : says_file env [] docs ds ->
  exists r, fabric env (Some (docs, YEnd)) = Ok r /\
    (forall name rd d, stands_for env ds name rd -> typed rd = Some d ->
       create_map orc env r name = match create orc d None with
                                   | Ok m => Made m
                                   | Raise e => MakeError (Err e)
                                   | OutOfFuel => MakeFuel
                                   end) /\
    (forall s, (forall rd, ~ stands_for env ds (YStr s) rd) -> create_map orc env r (YStr s) = Made None).
Proof.
  intros S. destruct (fabric_of_file _ _ _ S) as (r & F & Ho & E). exists r. split; [exact F|]. split.
  - intros name rd d St T. unfold create_map. rewrite <- E in St.
    rewrite (proj2 (lookup_iff env r name rd Ho) St), T. reflexivity.
  - intros s N. unfold create_map. destruct (rlookup env r (YStr s)) as [[rd|]| |] eqn:L.
    + exfalso. apply (N rd). rewrite <- E. exact (proj1 (lookup_iff env r _ rd Ho) L).
    + reflexivity.
    + unfold rlookup in L. cbn in L. discriminate.
    + unfold rlookup in L. cbn in L. discriminate.
Qed.

Lemma file_regular env docs ds rd d : says_file env [] docs ds -> In rd ds -> typed rd = Some d ->
  everywhere careful d -> everywhere orderly d -> everywhere regular d.
Proof.
  intros S I T C O. pose proof (file_definitions_well_formed _ _ _ S) as W. rewrite Forall_forall in W.
  pose proof (careful_sound rd (W rd I) d T C) as So.
  clear - So O. unfold regular. apply everywhere_and; assumption.
Qed.

Lemma read_docs_end env docs e : forall last r r', read_docs env r last docs e = (Ok tt, r') -> e = YEnd.
Proof.
  induction docs as [|v docs IH]; cbn [read_docs]; intros last r r' H.
  - destruct e; [reflexivity|discriminate|discriminate].
  - destruct (read_definition env r v) as [d|[]|]; try discriminate. destruct (rregister env r d); try discriminate. eauto.
Qed.

Lemma fabric_created env docs e :
  ((exists r, fabric env (Some (docs, e)) = Ok r) <-> e = YEnd /\ exists ds, says_file env [] docs ds) /\
  (~ (e = YEnd /\ exists ds, says_file env [] docs ds) -> exists x, fabric env (Some (docs, e)) = Raise x).
Proof.
  assert (A : (exists r, fabric env (Some (docs, e)) = Ok r) <-> e = YEnd /\ exists ds, says_file env [] docs ds).
  { split.
    - intros [r H]. cbn [fabric] in H. destruct (read_docs env rreg_empty None docs e) as [[[]|x|] r'] eqn:E; try discriminate.
      injection H as ->. pose proof (read_docs_end _ _ _ _ _ _ E) as ->. split; [reflexivity|]. exists (registered r).
      apply file_says. exists r. split; auto.
    - intros [-> [ds S]]. destruct (fabric_of_file _ _ _ S) as (r & F & _). eauto. }
  split; [exact A|]. intros N. destruct (fabric env (Some (docs, e))) as [r|x|] eqn:E; [|eauto|].
  - exfalso. apply N, A. eauto.
  - exfalso. cbn [fabric] in E. pose proof (read_docs_total env docs rreg_empty None e) as T.
    destruct (read_docs env rreg_empty None docs e) as [[[]|x|] r']; try discriminate. now apply T.
Qed.

Lemma fabric_empty orc env s : exists r, fabric env None = Ok r /\ create_map orc env r (YStr s) = Made None.
Proof. exists rreg_empty. split; reflexivity. Qed.
