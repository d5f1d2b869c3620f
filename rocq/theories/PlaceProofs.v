(** The order of documents in definition files. *)
From Coq Require Import String List ZArith Bool Lia Permutation.
From Verif Require Import Base Ieee PyVal Yaml DataTypes DataMaps Reader SpecReader SpecDescribe Fabric SpecFabric SpecPlace
  ReaderProofs ReaderRefs DescribeProofs FabricProofs PlainProofs.
From Verif Require EqualProofs BytesProofs.
Import ListNotations.
Open Scope Z_scope.
Local Open Scope string_scope.
Local Open Scope list_scope.

(** ** What is described depends on the names referred to only *)

Section Moving.
  Context (env : yenv) (prior prior' : list rdef).

  Definition moves (d : rdef) : Prop :=
    forall n x, built_on d x -> stands_for env prior n x -> stands_for env prior' n x.

  Lemma elements_move member k v e el : (forall n, stands_for env prior n el -> stands_for env prior' n el) ->
    says_elements env prior member k v e el -> says_elements env prior' member k v e el.
  Proof. intros H (A & B & C & D & E & F). split; [exact A|]. split; [exact B|]. split; [exact C|]. split; [exact D|]. split; [auto|exact F]. Qed.

  Lemma inline_move member v d : moves d -> says_inline env prior member v d -> says_inline env prior' member v d.
  Proof.
    intros H X. inversion X; subst; try (constructor; assumption); [constructor; auto|].
    constructor; [assumption|]. apply elements_move; [|assumption]. intros n. apply H. constructor.
  Qed.

  Lemma members_move :
    (forall cs v d, says_member env prior cs v d -> moves d -> says_member env prior' cs v d) /\
    (forall cs l ms names ss, says_members env prior cs l ms names ss -> (forall d, In d ms -> moves d) ->
       says_members env prior' cs l ms names ss).
  Proof.
    apply says_both.
    - intros cs v name aliases vs m bo c dt d Fn Nn Ft Fd Nd SF Ks C V Rn Rd Ru Fa Ga -> M.
      eapply SayReference; eauto. apply M; [now constructor|exact SF].
    - intros cs v name c vs d Fn Nn Fd C V Fc -> S M. eapply SayInline; eauto. apply inline_move; auto.
    - intros cs v name c vs d Fn Nn Fd C V N S M. eapply SayWrapped; eauto. apply inline_move; [|exact S].
      intros n x B. apply M. now constructor.
    - intros cs v m bo l ms names ss C S IH U M. eapply SayUnion; eauto. apply IH. intros d I n x B. apply M. econstructor; eauto.
    - intros. constructor.
    - intros cs v s l ms names ss F N S IH M. econstructor; eauto.
    - intros cs v s d l ms names ss F N S IH1 Sm IH2 M. econstructor; eauto.
      + apply IH1. apply M. now left.
      + apply IH2. intros; apply M. now right.
  Qed.

  Lemma names_move l ms : (forall d n, In d ms -> stands_for env prior n d -> stands_for env prior' n d) ->
    Forall2 (stands_for env prior) l ms -> Forall2 (stands_for env prior') l ms.
  Proof.
    intros H F. induction F as [|n d l ms S F IH]; constructor.
    - apply H; [now left|exact S].
    - apply IH. intros; apply H; [now right|assumption].
  Qed.

  Lemma says_move v d : moves d -> says env prior v d -> says env prior' v d.
  Proof.
    intros M X. inversion X; subst.
    - constructor. apply inline_move; auto.
    - eapply SaysStructure; [eassumption| |assumption]. eapply (proj2 members_move); [eassumption|]. intros d I n x B. apply M. econstructor; eauto.
    - eapply SaysUnion; [eassumption| |assumption]. eapply (proj2 members_move); [eassumption|]. intros d I n x B. apply M. econstructor; eauto.
    - constructor; assumption.
    - eapply SaysEnumeration; eauto.
    - eapply SaysFormat; eauto.
    - eapply (SaysFamily env prior' v m base n x l ms); auto; [apply M; [constructor|assumption]|].
      apply names_move; [|assumption]. intros d k I. apply M. now constructor.
    - eapply (SaysGroup env prior' v m base n identifier dn default x l ms); auto.
      + apply M; [constructor|assumption].
      + match goal with D : _ \/ _ |- _ => destruct D as [D|(d & D1 & D2 & D3)]; [left; exact D|] end.
        right. exists d. split; [exact D1|]. split; [exact D2|]. subst default. apply M; [constructor|exact D3].
      + apply names_move; [|assumption]. intros d k I. apply M. now constructor.
  Qed.
End Moving.

(** ** More definitions, or fewer *)

Lemma stands_more env prior ds n d : own_aliases env ds -> incl prior ds -> stands_for env prior n d -> stands_for env ds n d.
Proof.
  intros O I (A & k & L & H). split; [auto|]. exists k. split; [exact L|]. destruct H as [H|(N & l & H1 & H2)]; [auto|].
  right. split; [|eauto]. intros x X Q. assert (E : x = d) by (eapply O; eauto). subst x. exact (N d A Q).
Qed.

Lemma stands_fewer env prior ds n d : In d prior -> incl prior ds -> stands_for env ds n d -> stands_for env prior n d.
Proof.
  intros P I (A & k & L & H). split; [auto|]. exists k. split; [exact L|]. destruct H as [H|(N & H)]; [auto|]. right. split; auto.
Qed.

Lemma says_more env prior ds v d : own_aliases env ds -> incl prior ds -> says env prior v d -> says env ds v d.
Proof. intros O I. apply says_move. intros n x _. now apply stands_more. Qed.

Lemma says_fewer env prior ds v d : incl prior ds -> (forall x, built_on d x -> In x prior) -> says env ds v d -> says env prior v d.
Proof. intros I B. apply says_move. intros n x Q. apply stands_fewer; auto. Qed.

(** ** Files *)

Lemma says_file_len env prior docs ds : says_file env prior docs ds -> List.length docs = List.length ds.
Proof. induction 1; cbn; congruence. Qed.

Lemma says_file_all env prior docs ds : says_file env prior docs ds -> forall all, own_aliases env all -> incl (prior ++ ds) all ->
  Forall2 (fun v d => says env all v d /\ ~ falsy (rd_name d)) docs ds.
Proof.
  induction 1 as [prior|prior v d docs ds S N F X IH]; intros all O I; constructor.
  - split; [|exact N]. eapply says_more; [exact O| |exact S]. intros x H. apply I, in_or_app. auto.
  - apply IH; [exact O|]. now rewrite <- app_assoc.
Qed.

Lemma Forall2_in_l {A B} (R : A -> B -> Prop) l l' a : Forall2 R l l' -> In a l -> exists b, In b l' /\ R a b.
Proof. induction 1 as [|x y l l' H F IH]; intros []; [subst; eauto using in_eq|]. destruct (IH H0) as (b & Q1 & Q2). eauto using in_cons. Qed.

(** Documents taken from a file describe the same definitions as in that file. *)
Lemma says_from env docs ds docs' ds' : says_file env [] docs ds -> own_aliases env ds -> incl docs' docs ->
  says_file env [] docs' ds' -> incl ds' ds.
Proof.
  intros S O I S'. destruct (fabric_of_file _ _ _ S) as (r & _ & Ho & R).
  pose proof (says_file_all _ _ _ _ S ds O (incl_refl _)) as All.
  assert (G : forall prior docs' ds', says_file env prior docs' ds' -> incl docs' docs -> incl prior ds -> incl ds' ds).
  { clear docs' ds' I S'. intros prior docs' ds' X. induction X as [prior|prior v d docs' ds' X1 N F X IH]; intros I P.
    - intros x [].
    - assert (D : In d ds).
      { destruct (Forall2_in_l _ _ _ v All (I v (or_introl eq_refl))) as (d1 & J & Q1 & Q2).
        assert (E : d = d1); [|now subst]. pose proof (says_more _ _ _ _ _ O P X1) as Q3. rewrite <- R in Q1, Q3.
        assert (E1 : read_definition env r v = ROk d1) by (apply (definition_iff _ _ _ _ Ho); auto).
        assert (E2 : read_definition env r v = ROk d) by (apply (definition_iff _ _ _ _ Ho); auto). congruence. }
      assert (D' : incl ds' ds).
      { apply IH; [intros x H; apply I; now right|]. intros x H. apply in_app_or in H. destruct H as [H|[<-|[]]]; auto. }
      intros x [<-|H]; auto. }
  apply (G _ _ _ S' I). intros x [].
Qed.

Lemma own_fewer env ds ds' : incl ds' ds -> own_aliases env ds -> own_aliases env ds'.
Proof. intros I O d x l a k D X. apply O; auto. Qed.

(** ** Looking up *)

Lemma lookup_result env r n : (exists k, y_lower env n = Ok k /\ exists o, rlookup env r n = ROk o) \/
  (exists e, y_lower env n = Raise e /\ rlookup env r n = RErr (Err e)).
Proof.
  unfold rlookup. destruct n; cbn [y_lower lift rbind]; try (right; eexists; split; reflexivity); left; eexists; split; eauto; cbn [rbind lift]; eauto.
Qed.

Lemma lookup_same env r r' n : holds env r -> holds env r' ->
  (forall d, stands_for env (registered r) n d <-> stands_for env (registered r') n d) -> rlookup env r n = rlookup env r' n.
Proof.
  intros H H' E. destruct (lookup_result env r n) as [(k & L & o & Q)|(e & L & Q)], (lookup_result env r' n) as [(k' & L' & o' & Q')|(e' & L' & Q')];
    try congruence. rewrite Q, Q'. f_equal.
  assert (C : forall d, o = Some d <-> o' = Some d).
  { intros d. split; intros ->.
    - apply (lookup_iff _ _ _ _ H) in Q. apply E in Q. apply (lookup_iff _ _ _ _ H') in Q. congruence.
    - apply (lookup_iff _ _ _ _ H') in Q'. apply E in Q'. apply (lookup_iff _ _ _ _ H) in Q'. congruence. }
  destruct o as [d|], o' as [d'|]; try reflexivity.
  - symmetry. now apply C.
  - symmetry. now apply C.
  - now apply C.
Qed.

(** ** Any order in which names are defined before use *)

Lemma y_eqb_sym : forall a b, y_eqb a b = y_eqb b a.
Proof.
  fix IH 1. intros a b.
  assert (B : forall x y : bool, (x = true <-> y = true) -> x = y) by (intros [] [] [H1 H2]; auto; symmetry; auto).
  destruct a as [|x|x|x|x|x|x|x|x|x|x], b as [|y|y|y|y|y|y|y|y|y|y]; cbn [y_eqb]; try reflexivity.
  - now destruct x, y.
  - apply Z.eqb_sym.
  - apply B. rewrite !EqualProofs.f64_eqb_iff. split; apply EqualProofs.neq_sym.
  - apply B. rewrite !ReaderProofs.list_eqb_Z. split; congruence.
  - apply B. rewrite !BytesProofs.bytes_eqb_eq. split; congruence.
  - apply Z.eqb_sym.
  - revert y. induction x as [|a x IHx]; intros [|b y]; try reflexivity. f_equal; [apply IH|apply IHx].
Qed.

(** Neither the names nor the aliases of the one are those of the other. *)
Definition apart (env : yenv) (d x : rdef) : Prop :=
  (forall k, y_lower env (rd_name d) = Ok k -> y_lower env (rd_name x) <> Ok k) /\
  (forall l al a b, y_iter (rd_aliases d) = Ok l -> y_iter (rd_aliases x) = Ok al -> In a l -> In b al -> y_eqb a b = false).

Lemma apart_sym env d x : apart env d x -> apart env x d.
Proof.
  intros [A B]. split; [intros k H Q; exact (A k Q H)|]. intros l al a b L AL I J. rewrite y_eqb_sym. eapply B; eauto.
Qed.

(** The definition has a name and aliases. *)
Definition named (env : yenv) (d : rdef) : Prop :=
  exists k l, y_lower env (rd_name d) = Ok k /\ y_iter (rd_aliases d) = Ok l /\ Forall (fun a => hashable a = true) l.

Lemma fresh_apart env prior d : fresh env prior d -> named env d /\ Forall (apart env d) prior.
Proof.
  intros (k & l & A & B & C & D). split; [exists k, l; auto|]. apply Forall_forall. intros x X. destruct (D x X) as [D1 D2].
  split; [intros k' K'; congruence|]. intros l' al a b L AL I J. replace l' with l in I by congruence.
  destruct (D2 al AL) as [_ D3]. auto.
Qed.

Lemma apart_fresh env all prior d : own_aliases env all -> In d all -> incl prior all ->
  named env d -> Forall (apart env d) prior -> fresh env prior d.
Proof.
  intros O D I (k & l & A & B & C) F. rewrite Forall_forall in F. exists k, l. split; [exact A|]. split; [exact B|]. split; [exact C|].
  intros x X. destruct (F x X) as [F1 F2]. split; [auto|]. intros al AL. split.
  - intros N. assert (E : d = x) by (eapply (O x d); eauto). subst x. exact (F1 k A A).
  - intros a b Ia Ib. eapply F2; eauto.
Qed.

Lemma says_file_apart env prior docs ds : says_file env prior docs ds ->
  Forall (named env) ds /\ ForallOrdPairs (apart env) ds /\ Forall (fun d => Forall (apart env d) prior) ds.
Proof.
  induction 1 as [prior|prior v d docs ds S N F X (A & B & C)]; [repeat constructor|].
  destruct (fresh_apart _ _ _ F) as [F1 F2]. split; [constructor; auto|]. split.
  - constructor; [|exact B]. eapply Forall_impl; [|exact C]. intros x Q. rewrite Forall_app in Q. destruct Q as [_ Q].
    inversion Q; subst. now apply apart_sym.
  - constructor; [exact F2|]. eapply Forall_impl; [|exact C]. intros x Q. rewrite Forall_app in Q. tauto.
Qed.

Lemma pairs_permuted {A} (R : A -> A -> Prop) l l' : (forall x y, R x y -> R y x) -> Permutation l l' ->
  ForallOrdPairs R l -> ForallOrdPairs R l'.
Proof.
  intros Sy P. induction P as [|x l l' P IH|x y l|l m l' P1 IH1 P2 IH2]; intros H; auto.
  - inversion H; subst. constructor; auto. eapply Permutation_Forall; eauto.
  - inversion H as [|? ? H1 H2]; subst. inversion H2 as [|? ? H3 H4]; subst. inversion H1; subst.
    constructor; [constructor; auto|]. constructor; auto.
Qed.

Lemma apart_file env all : own_aliases env all -> forall docs ds prior,
  incl (prior ++ ds) all -> Forall2 (fun v d => says env all v d /\ ~ falsy (rd_name d)) docs ds ->
  Forall (named env) ds -> ForallOrdPairs (apart env) ds -> Forall (fun d => Forall (apart env d) prior) ds ->
  (forall a d b x, ds = a ++ d :: b -> built_on d x -> In x (prior ++ a)) ->
  says_file env prior docs ds.
Proof.
  intros O docs ds prior I F. revert prior I. induction F as [|v d docs ds [S N] F IH]; intros prior I Na Pa Pr U; [constructor|].
  inversion Na; subst. inversion Pa; subst. inversion Pr; subst.
  assert (Ip : incl prior all) by (intros x H; apply I, in_or_app; auto).
  constructor; auto.
  - apply (says_fewer _ _ all); [exact Ip| |exact S]. intros x B. specialize (U [] d ds x eq_refl B). now rewrite app_nil_r in U.
  - eapply (apart_fresh _ all); eauto. apply I, in_or_app. right. now left.
  - apply IH; auto.
    + now rewrite <- app_assoc.
    + match goal with A : Forall (apart env d) ds |- _ => rename A into Fd end.
      rewrite Forall_forall in *. intros x X. apply Forall_app. split; [auto|]. constructor; [|constructor]. apply apart_sym. auto.
    + intros a d' b x -> B. rewrite <- app_assoc. apply (U (d :: a) d' b x eq_refl B).
Qed.

Lemma combine_snd {A B} (l : list A) (l' : list B) : List.length l = List.length l' -> map snd (combine l l') = l'.
Proof. revert l'. induction l; intros [|]; cbn; intros; f_equal; try discriminate; auto. Qed.

Lemma combine_forall2 {A B} (R : A -> B -> Prop) l l' : List.length l = List.length l' ->
  (Forall2 R l l' <-> Forall (fun p => R (fst p) (snd p)) (combine l l')).
Proof.
  revert l'. induction l as [|a l IH]; intros [|b l'] E; try discriminate E; split; intros H; try constructor; inversion H; subst; auto.
  - apply IH; [now injection E|assumption].
  - apply IH; [now injection E|assumption].
Qed.

Lemma says_reordered env docs ds docs' ds' : says_file env [] docs ds -> own_aliases env ds ->
  List.length docs' = List.length ds' -> Permutation (combine docs ds) (combine docs' ds') -> before_use ds' ->
  says_file env [] docs' ds'.
Proof.
  intros S O L P U. pose proof (says_file_len _ _ _ _ S) as L0.
  assert (Pd : Permutation ds ds').
  { rewrite <- (combine_snd docs ds L0), <- (combine_snd docs' ds' L). now apply Permutation_map. }
  destruct (says_file_apart _ _ _ _ S) as (A & B & _).
  apply (apart_file env ds O).
  - cbn [app]. intros x X. eapply Permutation_in; [|exact X]. now apply Permutation_sym.
  - apply combine_forall2; [exact L|]. eapply Permutation_Forall; [exact P|]. apply (combine_forall2 (fun v d => says env ds v d /\ ~ falsy (rd_name d))); [exact L0|].
    apply (says_file_all _ _ _ _ S); [exact O|apply incl_refl].
  - eapply Permutation_Forall; eauto.
  - eapply pairs_permuted; eauto. apply apart_sym.
  - apply Forall_forall. constructor.
  - exact U.
Qed.

(** ** The properties *)

Lemma read_says env docs r : read_file env rreg_empty (Some (docs, YEnd)) = (Ok tt, r) ->
  says_file env [] docs (registered r) /\ holds env r.
Proof.
  intros H. assert (S : says_file env [] docs (registered r)) by (apply file_says; eauto). split; [exact S|].
  destruct (fabric_of_file _ _ _ S) as (r' & Q & Ho & _). cbn [fabric read_file] in *. rewrite H in Q. now injection Q as ->.
Qed.

(** Documents taken from a file, in any order in which they are read without error. *)
Lemma taken : forall env docs docs' r r',
  read_file env rreg_empty (Some (docs, YEnd)) = (Ok tt, r) ->
  read_file env rreg_empty (Some (docs', YEnd)) = (Ok tt, r') ->
  incl docs' docs -> own_aliases env (registered r) ->
  incl (registered r') (registered r) /\
  forall name d, rlookup env r' name = ROk (Some d) -> rlookup env r name = ROk (Some d).
Proof.
  intros env docs docs' r r' H H' I O. apply read_says in H, H'. destruct H as [S Ho], H' as [S' Ho'].
  pose proof (says_from _ _ _ _ _ S O I S') as J. split; [exact J|]. intros name d L.
  apply (lookup_iff _ _ _ _ Ho') in L. apply (lookup_iff _ _ _ _ Ho). eapply stands_more; eauto.
Qed.

(** The same documents in another order. *)
Lemma reordered : forall env docs docs' r r',
  read_file env rreg_empty (Some (docs, YEnd)) = (Ok tt, r) ->
  read_file env rreg_empty (Some (docs', YEnd)) = (Ok tt, r') ->
  Permutation.Permutation docs docs' -> own_aliases env (registered r) ->
  (forall name, rlookup env r' name = rlookup env r name) /\
  (forall orc name, create_map orc env r' name = create_map orc env r name).
Proof.
  intros env docs docs' r r' H H' P O. apply read_says in H, H'. destruct H as [S Ho], H' as [S' Ho'].
  assert (I : incl docs' docs) by (intros x; apply Permutation_in; now apply Permutation_sym).
  assert (I' : incl docs docs') by (intros x; now apply Permutation_in).
  pose proof (says_from _ _ _ _ _ S O I S') as J. pose proof (own_fewer _ _ _ J O) as O'.
  pose proof (says_from _ _ _ _ _ S' O' I' S) as J'.
  assert (E : forall name, rlookup env r' name = rlookup env r name).
  { intros n. apply lookup_same; auto. intros d. split; apply stands_more; auto. }
  split; [exact E|]. intros orc name. unfold create_map. now rewrite E.
Qed.

(** What was read comes before its use. *)
Lemma inline_built env prior member v d : says_inline env prior member v d -> forall x, built_on d x -> In x prior.
Proof.
  intros X x B. inversion X; subst; inversion B; subst.
  match goal with H : says_elements _ _ _ _ _ _ _ |- _ => destruct H as (_ & _ & _ & _ & H & _); apply H end.
Qed.

Lemma members_built env prior :
  (forall cs v d, says_member env prior cs v d -> forall x, built_on d x -> In x prior) /\
  (forall cs l ms names ss, says_members env prior cs l ms names ss -> forall d, In d ms -> forall x, built_on d x -> In x prior).
Proof.
  apply says_both.
  - intros cs v name aliases vs m bo c dt d Fn Nn Ft Fd Nd SF Ks C V Rn Rd Ru Fa Ga -> x B.
    inversion B; subst; [apply SF|congruence].
  - intros cs v name c vs d Fn Nn Fd C V Fc -> S. exact (inline_built _ _ _ _ _ S).
  - intros cs v name c vs d Fn Nn Fd C V N S x B. inversion B; subst; [congruence|]. eapply inline_built; [exact S|assumption].
  - intros cs v m bo l ms names ss C S IH U x B. inversion B; subst; eauto.
  - intros cs d [].
  - intros cs v s l ms names ss F N S IH. exact IH.
  - intros cs v s d l ms names ss F N S IH1 Sm IH2 y [<-|I]; [exact IH1|exact (IH2 y I)].
Qed.

Lemma names_built env prior l ms d : Forall2 (stands_for env prior) l ms -> In d ms -> In d prior.
Proof. induction 1 as [|n x l ms S F IH]; intros []; [subst; apply S|auto]. Qed.

Lemma says_built env prior v d : says env prior v d -> forall x, built_on d x -> In x prior.
Proof.
  intros X y B. inversion X; subst.
  - eapply inline_built; eauto.
  - inversion B; subst. eapply (proj2 (members_built env prior)); eauto.
  - inversion B; subst. eapply (proj2 (members_built env prior)); eauto.
  - inversion B.
  - inversion B.
  - inversion B.
  - inversion B; subst; [match goal with H : stands_for _ _ _ y |- _ => apply H end|eapply names_built; eauto].
  - inversion B; subst; [match goal with H : stands_for _ _ _ y |- _ => apply H end| |eapply names_built; eauto].
    match goal with D : _ \/ _ |- _ => destruct D as [[_ Q]|(d & _ & Q & S)] end; [discriminate Q|]. injection Q as <-. apply S.
Qed.

Lemma file_built env prior docs ds : says_file env prior docs ds ->
  forall a d b x, ds = a ++ d :: b -> built_on d x -> In x (prior ++ a).
Proof.
  induction 1 as [prior|prior v d docs ds S N F X IH]; intros a y b x E B; [destruct a; discriminate|].
  destruct a as [|d' a]; injection E as -> ->.
  - rewrite app_nil_r. eapply says_built; eauto.
  - pose proof (IH _ _ _ _ eq_refl B) as Q. now rewrite <- app_assoc in Q.
Qed.

Lemma needed : forall env docs r,
  read_file env rreg_empty (Some (docs, YEnd)) = (Ok tt, r) -> before_use (registered r).
Proof. intros env docs r H. apply read_says in H. exact (file_built _ _ _ _ (proj1 H)). Qed.

(** Any order in which definitions come before their use is read without error. *)
Lemma any_order : forall env docs docs' ds r,
  read_file env rreg_empty (Some (docs, YEnd)) = (Ok tt, r) -> own_aliases env (registered r) ->
  List.length docs' = List.length ds -> Permutation.Permutation (combine docs (registered r)) (combine docs' ds) -> before_use ds ->
  exists r', read_file env rreg_empty (Some (docs', YEnd)) = (Ok tt, r') /\ registered r' = ds.
Proof.
  intros env docs docs' ds r H O L P U. apply read_says in H. destruct H as [S _].
  apply file_says. eapply says_reordered; eauto.
Qed.
