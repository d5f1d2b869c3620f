(** The order of keys in definition files does not matter. *)
From Coq Require Import String List ZArith Bool Lia Permutation.
From Verif Require Import Base Ieee PyVal Yaml DataTypes DataMaps Reader SpecReader SpecDescribe Fabric SpecFabric SpecKeys
  ReaderProofs ReaderRefs DescribeProofs FabricProofs.
Import ListNotations.
Open Scope Z_scope.
Local Open Scope string_scope.
Local Open Scope list_scope.

(** ** Looking up keys *)

Lemma get_in k l x : NoDup (map fst l) -> (map_get (Y k) l = Some x <-> In (Y k, x) l).
Proof.
  induction l as [|[k' y] l IH]; cbn [map_get map fst]; intros N; [split; [discriminate|intros []]|].
  inversion N as [|? ? N1 N2]; subst. destruct (y_eqb (Y k) k') eqn:E.
  - apply y_eqb_str_l in E. subst k'. split; [intros H; injection H as ->; now left|].
    intros [H|H]; [now injection H as ->|]. exfalso. apply N1. exact (in_map fst _ _ H).
  - rewrite (IH N2). split; [now right|]. intros [H|H]; [|exact H]. injection H as -> _.
    exfalso. assert (Q : y_eqb (Y k) (Y k) = true) by now apply y_eqb_str_l. congruence.
Qed.

Definition rel (R : string -> yval -> yval -> Prop) (a b : yval * yval) : Prop :=
  fst a = fst b /\ (snd a = snd b \/ exists k, fst a = Y k /\ R k (snd a) (snd b)).

Lemma rel_keys R p l : Forall2 (rel R) p l -> map fst p = map fst l.
Proof. induction 1 as [|a b p l [H _] F IH]; cbn; congruence. Qed.

Lemma rel_l R p l : Forall2 (rel R) p l -> forall a, In a p -> exists b, In b l /\ rel R a b.
Proof.
  induction 1 as [|a b p l H F IH]; intros c []; [subst; exists b; split; [now left|auto]|].
  destruct (IH c H0) as (d & I & Q). exists d. split; [now right|auto].
Qed.

Lemma rel_r R p l : Forall2 (rel R) p l -> forall b, In b l -> exists a, In a p /\ rel R a b.
Proof.
  induction 1 as [|a b p l H F IH]; intros c []; [subst; exists a; split; [now left|auto]|].
  destruct (IH c H0) as (d & I & Q). exists d. split; [now right|auto].
Qed.

(** The same with the two mappings exchanged. *)
Lemma rel_flip R p l : Forall2 (rel R) p l -> Forall2 (rel (fun k x y => R k y x)) l p.
Proof.
  induction 1 as [|a b p l [H1 H2] F IH]; constructor; auto. split; [congruence|].
  destruct H2 as [H2|(k & H2 & H3)]; [left; congruence|right; exists k; split; [congruence|auto]].
Qed.

Lemma shuffle_flip R v v' : shuffle R v v' -> shuffle (fun k x y => R k y x) v' v.
Proof.
  intros (l & l' & p & -> & -> & N & P & F).
  assert (K := rel_keys _ _ _ F). apply rel_flip in F.
  (* rearrange l' in the way p was rearranged into l *)
  assert (G : exists p', Permutation l' p' /\ Forall2 (rel (fun k x y => R k y x)) p' l).
  { apply Permutation_sym in P. clear - P F. revert l' F.
    induction P as [|x p l P IH|x y p|p q l P1 IH1 P2 IH2]; intros l' F.
    - inversion F; subst. exists []. auto.
    - inversion F as [|a ? l1 ? H1 H2]; subst. destruct (IH _ H2) as (p' & Q1 & Q2).
      exists (a :: p'). split; [now constructor|now constructor].
    - inversion F as [|a ? l1 ? H1 H2]; subst. inversion H2 as [|b ? l2 ? H3 H4]; subst.
      exists (b :: a :: l2). split; [constructor|]. constructor; auto.
    - destruct (IH1 _ F) as (p1 & Q1 & Q2). destruct (IH2 _ Q2) as (p2 & Q3 & Q4).
      exists p2. split; [now transitivity p1|auto]. }
  destruct G as (p' & G1 & G2). exists l', l, p'. repeat split; auto.
  rewrite <- K. eapply Permutation_NoDup; [|exact N]. now apply Permutation_map.
Qed.

Lemma shuffle_weaken (R S : string -> yval -> yval -> Prop) v v' :
  (forall k x y, R k x y -> S k x y) -> shuffle R v v' -> shuffle S v v'.
Proof.
  intros H (l & l' & p & E1 & E2 & N & P & F). exists l, l', p. repeat split; auto.
  clear - H F. induction F as [|a b p l [H1 H2] F IH]; constructor; auto. split; auto.
  destruct H2 as [H2|(k & H2 & H3)]; [auto|right; exists k; auto].
Qed.

Lemma shuffle_here_flip v v' : shuffle_here v v' -> shuffle_here v' v.
Proof. intros H. apply shuffle_flip in H. eapply shuffle_weaken; [|exact H]. tauto. Qed.

Lemma lists_flip (R S : yval -> yval -> Prop) x y : (forall a b, R a b -> S b a) -> lists_of R x y -> lists_of S y x.
Proof.
  intros H (xs & ys & -> & -> & F). exists ys, xs. repeat split.
  induction F as [|a b xs ys H1 F IH]; constructor; auto. destruct H1; auto.
Qed.

Lemma shuffle_member_flip n : forall v v', shuffle_member n v v' -> shuffle_member n v' v.
Proof.
  induction n as [|n IH]; cbn [shuffle_member]; intros v v' H; [exact H|].
  apply shuffle_flip in H. eapply shuffle_weaken; [|exact H]. intros k x y [[E Q]|[E Q]].
  - left. split; [exact E|]. now apply shuffle_here_flip.
  - right. split; [exact E|]. eapply lists_flip; [|exact Q]. auto.
Qed.

Lemma shuffle_document_flip v v' : shuffle_document v v' -> shuffle_document v' v.
Proof.
  intros (n & H). exists n. apply shuffle_flip in H. eapply shuffle_weaken; [|exact H]. intros k x y [[E Q]|[[E Q]|[E Q]]].
  - left. split; [exact E|]. now apply shuffle_here_flip.
  - right. left. split; [exact E|]. eapply lists_flip; [|exact Q]. apply shuffle_member_flip.
  - right. right. split; [exact E|]. eapply lists_flip; [|exact Q]. apply shuffle_here_flip.
Qed.

(** ** What is found *)

Lemma entry_shuffle R v v' k x : shuffle R v v' -> entry v k x -> exists y, entry v' k y /\ (x = y \/ R k x y).
Proof.
  intros (l & l' & p & -> & -> & N & P & F) (l0 & E & G). injection E as <-. apply (get_in _ _ _ N) in G.
  apply (Permutation_in _ P) in G. destruct (rel_l _ _ _ F _ G) as ([k' y] & I & Q1 & Q2). cbn in Q1, Q2. subst k'.
  assert (N' : NoDup (map fst l')).
  { rewrite <- (rel_keys _ _ _ F). eapply Permutation_NoDup; [|exact N]. now apply Permutation_map. }
  exists y. split.
  - exists l'. split; [reflexivity|]. now apply get_in.
  - destruct Q2 as [Q2|(k' & Q2 & Q3)]; [auto|]. right. apply Y_inj in Q2. now subst.
Qed.

Lemma field_shuffle R d v v' k x : shuffle R v v' -> field_or d v k x -> exists y, field_or d v' k y /\ (x = y \/ R k x y).
Proof.
  intros S [H|(M & H & ->)].
  - destruct (entry_shuffle _ _ _ _ _ S H) as (y & Q1 & Q2). exists y. split; [now left|exact Q2].
  - exists d. split; [|auto]. right. destruct S as (l & l' & p & E1 & E2 & S). split; [eauto|]. split; [|auto].
    intros y Hy.
    assert (S' : shuffle R v v') by (exists l, l', p; auto). apply shuffle_flip in S'.
    destruct (entry_shuffle _ _ _ _ _ S' Hy) as (z & Q1 & _). exact (H z Q1).
Qed.

(** A key under which nothing changes. *)
Lemma field_same R d v v' k x : shuffle R v v' -> (forall x y, ~ R k x y) -> field_or d v k x -> field_or d v' k x.
Proof.
  intros S N H. destruct (field_shuffle _ _ _ _ _ _ S H) as (y & Q1 & [->|Q2]); [exact Q1|]. exfalso. exact (N _ _ Q2).
Qed.

Lemma only_shuffle R names v v' : shuffle R v v' -> only_keys names v -> only_keys names v'.
Proof.
  intros (l & l' & p & -> & -> & N & P & F) (l0 & E & H). injection E as <-. exists l'. split; [reflexivity|].
  rewrite Forall_forall in *. intros b I. destruct (rel_r _ _ _ F _ I) as (a & J & Q & _).
  rewrite <- Q. apply H. apply Permutation_sym in P. exact (Permutation_in _ P J).
Qed.

Lemma falsy_shuffle R v v' : shuffle R v v' -> falsy v -> falsy v'.
Proof.
  intros (l & l' & p & -> & -> & N & P & F) H. unfold falsy in *; change truth with y_truthy in *. cbn [y_truthy] in *.
  destruct l; [|discriminate]. apply Permutation_nil in P. subst p. inversion F; subst. reflexivity.
Qed.

Lemma truthy_shuffle R v v' : shuffle R v v' -> ~ falsy v -> ~ falsy v'.
Proof. intros S H F. apply H. apply shuffle_flip in S. eapply falsy_shuffle; eauto. Qed.

Lemma shuffle_map R v v' : shuffle R v v' -> (exists l, v = YMap l) /\ exists l, v' = YMap l.
Proof. intros (l & l' & p & -> & -> & _). eauto. Qed.

Ltac no_such := intros ? ? ?; intuition discriminate.
Ltac fsame S := eapply field_same; [exact S|no_such|eassumption].

(** The keys that are read as they are. *)
Definition kept (R : string -> yval -> yval -> Prop) : Prop :=
  forall k x y, R k x y -> k = "attributes" \/ k = "members" \/ k = "values" \/ k = "layout".

Lemma field_kept R d v v' k x : shuffle R v v' -> kept R ->
  k <> "attributes" -> k <> "members" -> k <> "values" -> k <> "layout" -> field_or d v k x -> field_or d v' k x.
Proof. intros S K A B C D. apply (field_same R); auto. intros y z H. destruct (K _ _ _ H) as [E|[E|[E|E]]]; congruence. Qed.

Ltac kept S K := eapply (field_kept _ _ _ _ _ _ S K); [discriminate|discriminate|discriminate|discriminate|eassumption].

Lemma meta_shuffle R v v' m : shuffle R v v' -> kept R -> says_meta v m -> says_meta v' m.
Proof.
  intros S K (A & (a & B1 & B2) & C & D). split; [kept S K|]. split; [exists a; split; [kept S K|exact B2]|].
  split; [kept S K|kept S K].
Qed.

(** The attributes. *)
Definition here_in (R : string -> yval -> yval -> Prop) : Prop := forall x y, R "attributes" x y -> shuffle_here x y.

Lemma attributes_shuffle R v v' a : shuffle R v v' -> here_in R -> field v "attributes" a ->
  exists a', field v' "attributes" a' /\ (a = a' \/ shuffle_here a a').
Proof.
  intros S H F. destruct (field_shuffle _ _ _ _ _ _ S F) as (y & Q1 & [->|Q2]); [eauto|]. exists y. split; [exact Q1|]. right. exact (H _ _ Q2).
Qed.

Lemma order_shuffle R names v v' bo : shuffle R v v' -> here_in R -> says_order names v bo -> says_order names v' bo.
Proof.
  intros S H (a & F & D). destruct (attributes_shuffle _ _ _ _ S H F) as (a' & F' & [<-|Q]); [exists a; auto|].
  exists a'. split; [exact F'|]. destruct D as [[D1 D2]|(D1 & D2 & D3 & D4)]; [left; split; [eapply falsy_shuffle; eauto|auto]|].
  right. split; [eapply truthy_shuffle; eauto|]. split; [eapply only_shuffle; eauto|]. split; [|exact D4].
  eapply (field_same (fun _ _ _ => False)); [exact Q|tauto|exact D3].
Qed.

Lemma size_shuffle R d sizes v v' s u : shuffle R v v' -> here_in R -> says_size d sizes v s u -> says_size d sizes v' s u.
Proof.
  intros S H (a & F & D). destruct (attributes_shuffle _ _ _ _ S H F) as (a' & F' & [<-|Q]); [exists a; auto|].
  exists a'. split; [exact F'|]. destruct D as [[D1 D2]|(D1 & D2 & D3 & D4)]; [left; split; [eapply falsy_shuffle; eauto|auto]|].
  right. split; [eapply truthy_shuffle; eauto|]. split; [|split; [exact D3|]].
  - eapply (field_same (fun _ _ _ => False)); [exact Q|tauto|exact D2].
  - eapply (field_same (fun _ _ _ => False)); [exact Q|tauto|exact D4].
Qed.

Lemma format_shuffle R v v' f : shuffle R v v' -> here_in R -> says_format v f -> says_format v' f.
Proof.
  intros S H (a & F & D). destruct (attributes_shuffle _ _ _ _ S H F) as (a' & F' & [<-|Q]); [exists a; auto|].
  exists a'. split; [exact F'|]. destruct D as [[D1 D2]|(D1 & D2 & D3)]; [left; split; [eapply falsy_shuffle; eauto|auto]|].
  right. split; [eapply truthy_shuffle; eauto|]. split; [|exact D3].
  eapply (field_same (fun _ _ _ => False)); [exact Q|tauto|exact D2].
Qed.

Lemma fixed_shuffle R member type d sizes v v' f : shuffle R v v' -> kept R -> here_in R ->
  says_fixed member type d sizes v f -> says_fixed member type d sizes v' f.
Proof.
  intros S K H (A & B & C & D). split; [eapply only_shuffle; eauto|]. split; [eapply meta_shuffle; eauto|].
  split; [eapply order_shuffle; eauto|eapply size_shuffle; eauto].
Qed.

Lemma elements_shuffle R env prior member k v v' e el : shuffle R v v' -> kept R ->
  says_elements env prior member k v e el -> says_elements env prior member k v' e el.
Proof.
  intros S K (A & B & C & D & E & F & (s & n & t & G1 & G2 & G3 & G) & H). split; [eapply only_shuffle; eauto|].
  split; [eapply meta_shuffle; eauto|]. split; [kept S K|]. split; [exact D|]. split; [exact E|]. split; [exact F|].
  split; [exists s, n, t; split; [kept S K|]; split; [kept S K|]; split; [kept S K|exact G]|].
  destruct k; auto. destruct H as [H1 H2]. split; [kept S K|exact H2].
Qed.

Lemma inline_shuffle R env prior member v v' d : shuffle R v v' -> kept R -> here_in R ->
  says_inline env prior member v d -> says_inline env prior member v' d.
Proof.
  intros S K H X. inversion X; subst.
  - constructor; [kept S K|eapply fixed_shuffle; eauto].
  - constructor; [kept S K|eapply fixed_shuffle; eauto].
  - constructor; [kept S K|eapply fixed_shuffle; eauto].
  - constructor; [kept S K|eapply fixed_shuffle; eauto|eapply format_shuffle; eauto].
  - constructor; [kept S K|eapply fixed_shuffle; eauto].
  - constructor; [reflexivity|kept S K|eapply only_shuffle; eauto|eapply meta_shuffle; eauto|kept S K|assumption].
  - constructor; [kept S K|eapply elements_shuffle; eauto].
Qed.

(** ** Members *)

Lemma lists_iter (R : yval -> yval -> Prop) x y l : lists_of R x y -> y_iter x = Ok l ->
  exists l', y_iter y = Ok l' /\ Forall2 (fun a b => a = b \/ R a b) l l'.
Proof. intros (xs & ys & -> & -> & F) H. cbn in H. injection H as <-. exists ys. auto. Qed.

Lemma lists_truthy (R : yval -> yval -> Prop) x y : lists_of R x y -> ~ falsy x -> ~ falsy y.
Proof.
  intros (xs & ys & -> & -> & F) H G. apply H. unfold falsy in *; change truth with y_truthy in *. cbn [y_truthy] in *. inversion F; subst; [reflexivity|discriminate].
Qed.

Lemma eq_or_refl (R : yval -> yval -> Prop) l : Forall2 (fun a b => a = b \/ R a b) l l.
Proof. induction l; constructor; auto. Qed.

Lemma container_shuffle (R : string -> yval -> yval -> Prop) Q type v v' m bo l : shuffle R v v' -> kept R -> here_in R ->
  (forall x y, R "members" x y -> lists_of Q x y) ->
  says_container type v m bo l -> exists l', says_container type v' m bo l' /\ Forall2 (fun a b => a = b \/ Q a b) l l'.
Proof.
  intros S K H L (A & B & C & D & x & E1 & E2 & E3).
  destruct (field_shuffle _ _ _ _ _ _ S E1) as (y & F1 & F2).
  assert (G : exists l', y_iter y = Ok l' /\ Forall2 (fun a b => a = b \/ Q a b) l l' /\ ~ falsy y).
  { destruct F2 as [<-|F2]; [exists l; split; [exact E3|]; split; [apply eq_or_refl|exact E2]|].
    specialize (L _ _ F2). destruct (lists_iter _ _ _ _ L E3) as (l' & G1 & G2). exists l'.
    split; [exact G1|]. split; [exact G2|]. eapply lists_truthy; eauto. }
  destruct G as (l' & G1 & G2 & G3). exists l'. split; [|exact G2].
  split; [kept S K|]. split; [eapply only_shuffle; eauto|]. split; [eapply meta_shuffle; eauto|].
  split; [eapply order_shuffle; eauto|]. exists y. auto.
Qed.

Definition member_rel (n : nat) : string -> yval -> yval -> Prop :=
  fun k x y => k = "attributes" /\ shuffle_here x y \/ k = "members" /\ lists_of (shuffle_member n) x y.

Lemma member_kept n : kept (member_rel n).
Proof. intros k x y [[-> _]|[-> _]]; auto. Qed.

Lemma member_here n : here_in (member_rel n).
Proof. intros x y [[_ H]|[H _]]; [exact H|discriminate]. Qed.

Lemma member_lists n x y : member_rel n "members" x y -> lists_of (shuffle_member n) x y.
Proof. intros [[H _]|[_ H]]; [discriminate|exact H]. Qed.

Lemma values_shuffle n v v' vs : shuffle (member_rel n) v v' -> says_values v vs -> says_values v' vs.
Proof.
  intros S (x & y & A & B & C). exists x, y. split; [kept S (member_kept n)|]. split; [|exact C].
  eapply field_same; [exact S| |exact B]. intros a b [[H _]|[H _]]; discriminate.
Qed.

Lemma condition_shuffle n cs v v' c : shuffle (member_rel n) v v' -> says_condition cs v c -> says_condition cs v' c.
Proof. intros S [A B]. split; [kept S (member_kept n)|exact B]. Qed.

Lemma members_shuffle env prior n :
  (forall v v', shuffle_member n v v' -> forall cs d, says_member env prior cs v d -> says_member env prior cs v' d) ->
  (forall v v', shuffle_member n v v' -> exists n', shuffle (member_rel n') v v') ->
  forall cs l ms names ss, says_members env prior cs l ms names ss ->
  forall l', Forall2 (fun a b => a = b \/ shuffle_member n a b) l l' -> says_members env prior cs l' ms names ss.
Proof.
  intros M N cs l ms names ss X.
  induction X as [cs|cs v s l ms names ss A B X IH|cs v s d l ms names ss A B C X IH]; intros l' F; inversion F as [|? v' ? l2 F1 F2]; subst.
  - constructor.
  - assert (A' : field v' "section" s).
    { destruct F1 as [<-|F1]; [exact A|]. destruct (N _ _ F1) as (n' & S). kept S (member_kept n'). }
    econstructor; eauto.
  - assert (A' : field v' "section" s).
    { destruct F1 as [<-|F1]; [exact A|]. destruct (N _ _ F1) as (n' & S). kept S (member_kept n'). }
    econstructor; [exact A'|exact B| |apply IH; exact F2]. destruct F1 as [<-|F1]; [exact C|]. eapply M; eauto.
Qed.

Lemma shuffle_member_rel n v v' : shuffle_member n v v' -> exists n', shuffle (member_rel n') v v'.
Proof. destruct n as [|n]; cbn [shuffle_member]; [intros []|]. intros H. exists n. exact H. Qed.

Lemma member_shuffle env prior n : forall v v', shuffle_member n v v' ->
  forall cs d, says_member env prior cs v d -> says_member env prior cs v' d.
Proof.
  induction n as [|n IH]; intros v v' S cs d X; [destruct S|].
  change (shuffle (member_rel n) v v') in S. pose proof (member_kept n) as K. pose proof (member_here n) as H.
  inversion X; subst.
  - eapply SayReference; try eassumption; try reflexivity; try (kept S K).
    + eapply only_shuffle; eauto.
    + eapply condition_shuffle; eauto.
    + eapply values_shuffle; eauto.
  - eapply SayInline; try eassumption; try reflexivity; try (kept S K).
    + eapply condition_shuffle; eauto.
    + eapply values_shuffle; eauto.
    + eapply inline_shuffle; eauto.
  - eapply SayWrapped; try eassumption; try reflexivity; try (kept S K).
    + eapply condition_shuffle; eauto.
    + eapply values_shuffle; eauto.
    + eapply inline_shuffle; eauto.
  - match goal with C : says_container _ _ _ _ _ |- _ =>
      destruct (container_shuffle _ _ _ _ _ _ _ _ S K H (member_lists n) C) as (l' & C' & F) end.
    eapply SayUnion; [exact C'| |assumption]. eapply (members_shuffle env prior n IH (shuffle_member_rel n)); eauto.
Qed.

(** ** Documents *)

Definition document_rel (n : nat) : string -> yval -> yval -> Prop :=
  fun k x y => k = "attributes" /\ shuffle_here x y
            \/ k = "members" /\ lists_of (shuffle_member n) x y
            \/ (k = "values" \/ k = "layout") /\ lists_of shuffle_here x y.

Lemma document_kept n : kept (document_rel n).
Proof. intros k x y [[-> _]|[[-> _]|[[->| ->] _]]]; auto. Qed.

Lemma document_here n : here_in (document_rel n).
Proof. intros x y [[_ H]|[[H _]|[[H|H] _]]]; [exact H|discriminate|discriminate|discriminate]. Qed.

Lemma document_members n x y : document_rel n "members" x y -> lists_of (shuffle_member n) x y.
Proof. intros [[H _]|[[_ H]|[[H|H] _]]]; [discriminate|exact H|discriminate|discriminate]. Qed.

Lemma document_values n x y : document_rel n "values" x y -> lists_of shuffle_here x y.
Proof. intros [[H _]|[[H _]|[_ H]]]; [discriminate|discriminate|exact H]. Qed.

Lemma document_layout n x y : document_rel n "layout" x y -> lists_of shuffle_here x y.
Proof. intros [[H _]|[[H _]|[_ H]]]; [discriminate|discriminate|exact H]. Qed.

Lemma enum_value_shuffle v v' x : shuffle_here v v' -> says_enum_value v x -> says_enum_value v' x.
Proof.
  intros S (A & B & C & D & E & F & G & (a & H1 & H2) & I).
  assert (K : forall k y, field v k y -> field v' k y).
  { intros k y Q. eapply (field_same (fun _ _ _ => False)); [exact S|tauto|exact Q]. }
  repeat split; auto. exists a. auto.
Qed.

Lemma layout_shuffle v v' x : shuffle_here v v' -> says_layout v x -> says_layout v' x.
Proof.
  intros S (A & B & C & D).
  assert (K : forall k y, field v k y -> field v' k y).
  { intros k y Q. eapply (field_same (fun _ _ _ => False)); [exact S|tauto|exact Q]. }
  split; [auto|]. split; [auto|]. split; [auto|]. eapply only_shuffle; eauto.
Qed.

Lemma Forall2_items {A} (P : yval -> A -> Prop) (R : yval -> yval -> Prop) l l' xs :
  (forall v v' x, R v v' -> P v x -> P v' x) ->
  Forall2 (fun a b => a = b \/ R a b) l l' -> Forall2 P l xs -> Forall2 P l' xs.
Proof.
  intros H F. revert xs. induction F as [|a b l l' [<-|Q] F IH]; intros xs G; inversion G; subst; constructor; eauto.
Qed.

(** Names are no mappings. *)
Lemma names_shuffle env prior n l l' ms :
  Forall2 (fun a b => a = b \/ shuffle_member n a b) l l' -> Forall2 (stands_for env prior) l ms -> l' = l.
Proof.
  intros F. revert ms. induction F as [|a b l l' Q F IH]; intros ms G; inversion G as [|? ? ? ? G1 G2]; subst; [reflexivity|].
  rewrite (IH _ G2). destruct Q as [->|Q]; [reflexivity|]. exfalso.
  destruct (shuffle_member_rel _ _ _ Q) as (n' & S). destruct (shuffle_map _ _ _ S) as [(la & ->) _].
  destruct G1 as (_ & k & G1 & _). discriminate.
Qed.

(** A list under a key. *)
Lemma list_shuffle (R : string -> yval -> yval -> Prop) Q d k v v' x l : shuffle R v v' -> (forall x y, R k x y -> lists_of Q x y) ->
  field_or d v k x -> y_iter x = Ok l -> exists y l', field_or d v' k y /\ y_iter y = Ok l' /\ (~ falsy x -> ~ falsy y) /\
    Forall2 (fun a b => a = b \/ Q a b) l l'.
Proof.
  intros S L F I. destruct (field_shuffle _ _ _ _ _ _ S F) as (y & F1 & [<-|F2]).
  - exists x, l. split; [exact F1|]. split; [exact I|]. split; [auto|apply eq_or_refl].
  - specialize (L _ _ F2). destruct (lists_iter _ _ _ _ L I) as (l' & G1 & G2). exists y, l'.
    split; [exact F1|]. split; [exact G1|]. split; [eapply lists_truthy; eauto|exact G2].
Qed.

Lemma document_shuffle env prior v v' d : shuffle_document v v' -> says env prior v d -> says env prior v' d.
Proof.
  intros (n & S) X. change (shuffle (document_rel n) v v') in S.
  pose proof (document_kept n) as K. pose proof (document_here n) as H.
  inversion X; subst.
  - apply SaysInline. eapply inline_shuffle; eauto.
  - match goal with C : says_container _ _ _ _ _ |- _ =>
      destruct (container_shuffle _ _ _ _ _ _ _ _ S K H (document_members n) C) as (l' & C' & F) end.
    eapply SaysStructure; [exact C'| |assumption].
    eapply (members_shuffle env prior n (member_shuffle env prior n) (shuffle_member_rel n)); eauto.
  - match goal with C : says_container _ _ _ _ _ |- _ =>
      destruct (container_shuffle _ _ _ _ _ _ _ _ S K H (document_members n) C) as (l' & C' & F) end.
    eapply SaysUnion; [exact C'| |assumption].
    eapply (members_shuffle env prior n (member_shuffle env prior n) (shuffle_member_rel n)); eauto.
  - apply SaysConstant; try assumption; try (kept S K); [eapply only_shuffle; eauto|eapply meta_shuffle; eauto].
  - match goal with F : field v "values" _, I : y_iter _ = Ok _ |- _ =>
      destruct (list_shuffle _ _ _ _ _ _ _ _ S (document_values n) F I) as (y & l' & F1 & F2 & F3 & F4) end.
    eapply SaysEnumeration; [kept S K|eapply only_shuffle; eauto|eapply meta_shuffle; eauto|exact F1|auto|exact F2| |assumption|assumption|assumption].
    eapply (Forall2_items says_enum_value shuffle_here); [apply enum_value_shuffle|exact F4|assumption].
  - match goal with F : field_or _ v "layout" _, I : y_iter _ = Ok _ |- _ =>
      destruct (list_shuffle _ _ _ _ _ _ _ _ S (document_layout n) F I) as (y & l' & F1 & F2 & F3 & F4) end.
    match goal with F : field v "attributes" _ |- _ =>
      destruct (attributes_shuffle _ _ _ _ S H F) as (a' & F' & Q) end.
    eapply SaysFormat; [kept S K|eapply only_shuffle; eauto|eapply meta_shuffle; eauto|exact F1|exact F2| |kept S K|exact F'|].
    + eapply (Forall2_items says_layout shuffle_here); [apply layout_shuffle|exact F4|assumption].
    + match goal with D : _ \/ _ |- _ => destruct D as [[D1 D2]|(b & D1 & D2 & D3)] end.
      * left. split; [|exact D2]. destruct Q as [<-|Q]; [exact D1|eapply falsy_shuffle; eauto].
      * right. exists b. split; [destruct Q as [<-|Q]; [exact D1|eapply truthy_shuffle; eauto]|]. split; [exact D2|].
        eapply order_shuffle; eauto.
  - match goal with F : field v "members" _, I : y_iter _ = Ok _ |- _ =>
      destruct (list_shuffle _ _ _ _ _ _ _ _ S (document_members n) F I) as (y & l' & F1 & F2 & F3 & F4) end.
    match goal with G : Forall2 (stands_for env prior) _ _ |- _ => pose proof (names_shuffle _ _ _ _ _ _ F4 G) as E end. subst l'.
    eapply SaysFamily; [kept S K|eapply only_shuffle; eauto|eapply meta_shuffle; eauto|kept S K|eassumption|assumption
      |exact F1|auto|exact F2|assumption|assumption].
  - match goal with F : field v "members" _, I : y_iter _ = Ok _ |- _ =>
      destruct (list_shuffle _ _ _ _ _ _ _ _ S (document_members n) F I) as (y & l' & F1 & F2 & F3 & F4) end.
    match goal with G : Forall2 (stands_for env prior) _ _ |- _ => pose proof (names_shuffle _ _ _ _ _ _ F4 G) as E end. subst l'.
    eapply SaysGroup; [kept S K|eapply only_shuffle; eauto|eapply meta_shuffle; eauto|kept S K|eassumption|assumption
      |kept S K|assumption|kept S K|assumption|exact F1|auto|exact F2|assumption|assumption|assumption].
Qed.

Lemma file_shuffle env docs docs' : Forall2 (fun v v' => v = v' \/ shuffle_document v v') docs docs' ->
  forall prior ds, says_file env prior docs ds -> says_file env prior docs' ds.
Proof.
  intros F. induction F as [|v v' docs docs' Q F IH]; intros prior ds X; inversion X; subst; [constructor|].
  constructor; auto. destruct Q as [<-|Q]; [assumption|]. eapply document_shuffle; eauto.
Qed.

Lemma docs_flip docs docs' : Forall2 (fun v v' => v = v' \/ shuffle_document v v') docs docs' ->
  Forall2 (fun v v' => v = v' \/ shuffle_document v v') docs' docs.
Proof. induction 1 as [|a b l l' Q F IH]; constructor; auto. destruct Q; [auto|right; now apply shuffle_document_flip]. Qed.

(** ** Reading *)

Lemma read_shuffle env docs docs' : Forall2 (fun v v' => v = v' \/ shuffle_document v v') docs docs' ->
  forall r last r', holds env r -> read_docs env r last docs YEnd = (Ok tt, r') -> read_docs env r last docs' YEnd = (Ok tt, r').
Proof.
  intros F. induction F as [|v v' docs docs' Q F IH]; intros r last r' Ho H; [exact H|]. cbn [read_docs] in *.
  destruct (read_definition env r v) as [d|[]|] eqn:E; try discriminate.
  assert (E' : read_definition env r v' = ROk d).
  { destruct Q as [<-|Q]; [exact E|]. apply (definition_iff _ _ _ _ Ho) in E. apply (definition_iff _ _ _ _ Ho).
    split; [|tauto]. eapply document_shuffle; [exact Q|tauto]. }
  rewrite E'. destruct (rregister env r d) as [r1|x|] eqn:G; try discriminate.
  apply IH; [|exact H]. eapply holds_register; eauto.
Qed.

Lemma key_order : forall env docs docs' r,
  Forall2 (fun v v' => v = v' \/ shuffle_document v v') docs docs' ->
  (read_file env rreg_empty (Some (docs, YEnd)) = (Ok tt, r) <->
   read_file env rreg_empty (Some (docs', YEnd)) = (Ok tt, r)).
Proof.
  intros env docs docs' r F. split; intros H.
  - exact (read_shuffle _ _ _ F _ _ _ (holds_empty env) H).
  - exact (read_shuffle _ _ _ (docs_flip _ _ F) _ _ _ (holds_empty env) H).
Qed.

Lemma key_order_maps : forall orc env docs docs' r r',
  Forall2 (fun v v' => v = v' \/ shuffle_document v v') docs docs' ->
  fabric env (Some (docs, YEnd)) = Ok r -> fabric env (Some (docs', YEnd)) = Ok r' ->
  forall name, create_map orc env r name = create_map orc env r' name.
Proof.
  intros orc env docs docs' r r' F H H' name. cbn [fabric] in *.
  destruct (read_docs env rreg_empty None docs YEnd) as [[[]|x|] r1] eqn:E; try discriminate. injection H as ->.
  rewrite (read_shuffle _ _ _ F _ _ _ (holds_empty env) E) in H'. now injection H' as ->.
Qed.

Lemma key_order_fails : forall env docs docs',
  Forall2 (fun v v' => v = v' \/ shuffle_document v v') docs docs' ->
  (exists x, fabric env (Some (docs, YEnd)) = Raise x) -> exists x, fabric env (Some (docs', YEnd)) = Raise x.
Proof.
  intros env docs docs' F [x H]. apply fabric_created. intros [_ [ds S]].
  apply (file_shuffle _ _ _ (docs_flip _ _ F)) in S. destruct (fabric_of_file _ _ _ S) as (r & Q & _). congruence.
Qed.
