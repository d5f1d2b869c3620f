(** From definition files to the names of numbers and to layouts. *)
From Coq Require Import String Ascii List ZArith Bool Lia.
From Verif Require Import Base PyVal PyStruct DataTypes ClassFactory DataMaps Lookups SpecPrim SpecMap SpecCreate SpecReads
  Yaml Reader SpecReader SpecDescribe Fabric SpecFabric SpecPlain ReaderProofs DescribeProofs FabricProofs FileProofs PlainProofs.
Import ListNotations.
Open Scope Z_scope.
Local Open Scope string_scope.
Local Open Scope list_scope.

Lemma says_one env prior docs ds : says_file env prior docs ds -> forall v, In v docs ->
  exists prior' d k, In d ds /\ says env prior' v d /\ y_lower env (rd_name d) = Ok k.
Proof.
  induction 1 as [prior|prior w d docs ds S N F X IH]; intros v V; [destruct V|].
  destruct V as [->|V].
  - destruct F as (k & l & K & _). exists prior, d, k. split; [now left|]. auto.
  - destruct (IH v V) as (p & d' & k & A & B). exists p, d', k. split; [now right|auto].
Qed.

(** The map of a document. *)
Lemma map_of_document orc env docs r v : Forall plain_document docs -> fabric env (Some (docs, YEnd)) = Ok r -> In v docs ->
  exists prior rd d, says env prior v rd /\ same rd d /\
    create_map orc env r (rd_name rd) = match create orc d None with
                                        | Ok m => Made m
                                        | Raise e => MakeError (Err e)
                                        | OutOfFuel => MakeFuel
                                        end.
Proof.
  intros P F V. destruct (proj1 (proj1 (fabric_created env docs YEnd)) (ex_intro _ r F)) as (_ & ds & S).
  destruct (says_one _ _ _ _ S v V) as (prior & rd & k & I & Sy & K).
  pose proof (plain_covered env docs ds S P) as C. rewrite Forall_forall in C. destruct (C rd I) as (d & D & _).
  destruct (map_of_name orc env docs ds S) as (r' & F' & M & _). rewrite F in F'. injection F' as <-.
  exists prior, rd, d. split; [exact Sy|]. split; [exact D|]. apply (M _ rd); [|exact D]. split; [exact I|]. exists k. auto.
Qed.

Lemma adding_numbers en vs en' : adding en vs en' -> en_per_number en' = en_per_number en ++ map (fun v => (ev_number v, v)) vs.
Proof.
  induction 1 as [en|en v en' vs en'' A _ IH]; [now rewrite app_nil_r|]. rewrite IH. unfold enum_add in A.
  destruct (dict_mem _ _); [discriminate|]. destruct (num_get _ _); [discriminate|]. destruct (existsb _ _); [discriminate|].
  injection A as <-. cbn [en_per_number map]. now rewrite <- app_assoc.
Qed.

Lemma find_number k vs : (forall v, In v vs -> exists z, ev_number v = VInt z) ->
  (forall i j v w z, nth_error vs i = Some v -> nth_error vs j = Some w -> ev_number v = VInt z -> ev_number w = VInt z -> i = j) ->
  forall v, num_get (VInt k) (map (fun v => (ev_number v, v)) vs) = Some v <-> In v vs /\ ev_number v = VInt k.
Proof.
  intros Z U v. unfold num_get. split.
  - destruct (find _ _) as [[n w]|] eqn:F; [|discriminate]. intros H. injection H as <-. cbn [snd].
    apply find_some in F. destruct F as [I Q]. cbn [fst] in Q. apply in_map_iff in I. destruct I as (x & E & I). injection E as <- <-.
    split; [exact I|]. destruct (Z x I) as [z E]. rewrite E in *. cbn in Q. apply Z.eqb_eq in Q. now subst.
  - intros [I E]. destruct (find _ _) as [[n w]|] eqn:F.
    + apply find_some in F. destruct F as [J Q]. cbn [fst] in Q. apply in_map_iff in J. destruct J as (x & X & J). injection X as <- <-.
      cbn [snd]. f_equal. destruct (Z x J) as [z G]. rewrite G in Q. cbn in Q. apply Z.eqb_eq in Q. subst z.
      apply In_nth_error in I. destruct I as [i I]. apply In_nth_error in J. destruct J as [j J].
      assert (j = i) by (eapply U; eauto). subst j. congruence.
    + exfalso. pose proof (find_none _ _ F (ev_number v, v) (in_map (fun v => (ev_number v, v)) _ _ I)) as Q. cbn [fst] in Q.
      rewrite E in Q. cbn in Q. now rewrite Z.eqb_refl in Q.
Qed.

Lemma Forall2_fst {A B} (R : A -> B -> Prop) l l' : Forall2 R l l' -> forall a, In a l -> exists b, In b l' /\ R a b.
Proof.
  induction 1 as [|a b l l' H F IH]; intros x X; [destruct X|]. destruct X as [->|X]; [exists b; cbn; auto|].
  destruct (IH x X) as (y & Y & Q). exists y. cbn. auto.
Qed.

Lemma Forall2_snd {A B} (R : A -> B -> Prop) l l' : Forall2 R l l' -> forall b, In b l' -> exists a, In a l /\ R a b.
Proof.
  induction 1 as [|a b l l' H F IH]; intros x X; [destruct X|]. destruct X as [->|X]; [exists a; cbn; auto|].
  destruct (IH x X) as (y & Y & Q). exists y. cbn. auto.
Qed.

(** The document is of one type. *)
Ltac other_type H :=
  match goal with
  | K : field ?v "type" ?x, L : field ?v "type" ?y |- _ => pose proof (field_fun _ _ _ _ K L) as H; vm_compute in H; discriminate H
  end.

(** C63 *)
Lemma names_of_numbers : forall orc env docs r v name l,
  Forall plain_document docs -> fabric env (Some (docs, YEnd)) = Ok r -> In v docs ->
  field v "type" (Y "enumeration") -> field v "name" name -> field v "values" (YList l) ->
  Forall (fun e => exists z, field e "number" (YInt z)) l ->
  exists m, create_map orc env r name = Made (Some m) /\
    forall k, exists o, map_get_name m (VInt k) = Ok o /\
      forall s, o = Some s <-> exists e, In e l /\ field e "name" (Y s) /\ field e "number" (YInt k).
Proof.
  intros orc env docs r v name l P F V T N VL NU. destruct (map_of_document orc env docs r v P F V) as (prior & rd & d & S & D & M).
  destruct S as [v d0 S|v mm bo l0 ms names ss S|v mm bo l0 ms names ss S| |v mm x l0 vs T' K Me X NF I FV DN DU UA| | |];
    try (exfalso; first [
      destruct (inline_type _ _ _ _ _ S) as (k & Q & Q'); pose proof (field_fun _ _ _ _ Q T) as E;
        apply Y_inj, (kind_name_inj k KEnumeration) in E; subst k; discriminate Q'
      | destruct S as (Q & _); other_type E | let E := fresh in other_type E]).
  assert (name = rm_name mm) by (destruct Me as (A & _); eapply field_fun; eauto). subst name.
  assert (x = YList l) by (eapply field_fun; eauto). subst x. cbn in I. injection I as <-.
  inversion D; subst. cbn [create apply_ov rd_name rd_meta] in M.
  eexists. split; [exact M|]. intros k. eexists. split; [reflexivity|].
  match goal with H : adding _ _ _ |- _ => rename H into A end. match goal with H : Forall2 same_enum _ _ |- _ => rename H into FS end.
  apply adding_numbers in A. cbn [en_per_number app] in A. unfold enum_get_name. rewrite A.
  rewrite Forall_forall in NU.
  assert (B : forall v', In v' vs' -> exists e x, In e l /\ In x vs /\ says_enum_value e x /\ same_enum x v').
  { intros v' I. destruct (Forall2_snd _ _ _ FS v' I) as (x & X1 & Q). destruct (Forall2_snd _ _ _ FV x X1) as (e & E & Q').
    exists e, x. auto. }
  assert (Z : forall v', In v' vs' -> exists z, ev_number v' = VInt z).
  { intros v' I. destruct (B v' I) as (e & x & E & _ & (_ & _ & _ & Q & _) & (_ & G & _)). destruct (NU e E) as [z H].
    rewrite (field_fun _ _ _ _ Q H) in G. inversion G. eauto. }
  pose proof (find_number k vs' Z) as FN.
  assert (U : forall i j v w z, nth_error vs' i = Some v -> nth_error vs' j = Some w -> ev_number v = VInt z -> ev_number w = VInt z -> i = j).
  { intros i j a b z I J Ea Eb. destruct (forall2_nth _ _ _ FS _ _ I) as (x & X1 & (_ & Gx & _)).
    destruct (forall2_nth _ _ _ FS _ _ J) as (y & Y & (_ & Gy & _)). rewrite Ea in Gx. rewrite Eb in Gy. inversion Gx. inversion Gy.
    destruct (Nat.lt_trichotomy i j) as [L|[L|L]]; [|exact L|]; exfalso.
    - pose proof (DU i j (rv_number x) (rv_number y) L (map_nth_error _ _ _ X1) (map_nth_error _ _ _ Y)) as Q.
      replace (rv_number x) with (YInt z) in Q by congruence. replace (rv_number y) with (YInt z) in Q by congruence. cbn in Q. rewrite Z.eqb_refl in Q. discriminate.
    - pose proof (DU j i (rv_number y) (rv_number x) L (map_nth_error _ _ _ Y) (map_nth_error _ _ _ X1)) as Q.
      replace (rv_number x) with (YInt z) in Q by congruence. replace (rv_number y) with (YInt z) in Q by congruence. cbn in Q. rewrite Z.eqb_refl in Q. discriminate. }
  specialize (FN U). intros s. split.
  - intros H. destruct (num_get _ _) as [w|] eqn:G; [|discriminate]. injection H as <-. destruct (proj1 (FN w) eq_refl) as [I E].
    destruct (B w I) as (e & x & In1 & _ & (Q1 & _ & _ & Q2 & _) & ((G1 & _) & G2 & _)). exists e. split; [exact In1|].
    rewrite E in G2. inversion G2. rewrite <- G1. split; [exact Q1|]. replace (YInt k) with (rv_number x) by congruence. exact Q2.
  - intros (e & Ie & En & Ek). destruct (Forall2_fst _ _ _ FV e Ie) as (x & X1 & (Q1 & _ & _ & Q2 & _)).
    destruct (Forall2_fst _ _ _ FS x X1) as (w & W & ((G1 & _) & G2 & _)).
    rewrite (field_fun _ _ _ _ Q2 Ek) in G2. inversion G2 as [| |z E1 E2| | |].
    assert (G : num_get (VInt k) (map (fun v => (ev_number v, v)) vs') = Some w) by (apply FN; auto).
    rewrite G. cbn. f_equal. apply Y_inj. rewrite <- G1. eapply field_fun; eauto.
Qed.

Lemma layouts_written : forall orc env docs r v name l,
  Forall plain_document docs -> fabric env (Some (docs, YEnd)) = Ok r -> In v docs ->
  field v "type" (Y "format") -> field v "name" name -> field_or (YList []) v "layout" (YList l) ->
  exists m layout, create_map orc env r name = Made (Some m) /\ map_layout m = Ok layout /\
    Forall2 (fun e x => field e "data_type" (Y (fst x)) /\
                        field e "offset" match snd x with Some z => YInt z | None => YNull end) l layout.
Proof.
  intros orc env docs r v name l P F V T N VL. destruct (map_of_document orc env docs r v P F V) as (prior & rd & d & S & D & M).
  destruct S as [v d0 S|v mm bo l0 ms names ss S|v mm bo l0 ms names ss S| | |v mm a bo x l0 layout metadata T' K Me X I FL| |];
    try (exfalso; first [
      destruct (inline_type _ _ _ _ _ S) as (k & Q & Q'); pose proof (field_fun _ _ _ _ Q T) as E;
        apply Y_inj, (kind_name_inj k KFormat) in E; subst k; discriminate Q'
      | destruct S as (Q & _); other_type E | let E := fresh in other_type E]).
  assert (name = rm_name mm) by (destruct Me as (A & _); eapply field_fun; eauto). subst name.
  assert (x = YList l) by (eapply field_or_fun; eauto). subst x. cbn in I. injection I as <-.
  inversion D; subst. cbn [create apply_ov rd_name rd_meta] in M.
  eexists. eexists. split; [exact M|]. split; [reflexivity|].
  match goal with H : Forall2 same_layout _ _ |- _ => rename H into FS end. clear - FL FS.
  revert l' FS. induction FL as [|e x l layout S FL IH]; intros l' FS; inversion FS as [|x' y z t Sa FS']; subst; constructor; auto.
  destruct S as (A & _ & B & _). destruct Sa as ((C & _) & E). rewrite <- C. split; [exact A|].
  destruct (snd y); rewrite <- E; exact B.
Qed.
