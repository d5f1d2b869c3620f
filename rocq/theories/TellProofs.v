(** Different bytes are mapped to different values. *)
From Coq Require Import String List ZArith Bool Lia.
From Verif Require Import Base Ieee PyVal PyStruct DataTypes ClassFactory DataMaps.
From Verif Require Import BytesProofs SpecPrim PrimProofs IeeeProofs SpecMap SpecCreate SpecReads SpecFold SpecTell
  CreateProofs StreamProofs SteadyProofs FoldProofs FloatProofs ReadsProofs FitProofs.
Import ListNotations.
Open Scope Z_scope.
#[local] Arguments Z.pow : simpl never.
#[local] Arguments Z.mul : simpl never.
#[local] Arguments Z.add : simpl never.
#[local] Arguments Z.div : simpl never.

(** *** Numbers *)

Lemma stored_inj en a b : len a = len b -> stored_number en a = stored_number en b -> a = b.
Proof.
  intros L E. rewrite <- !le_val_stored in E.
  assert (R : reorder en a = reorder en b).
  { rewrite <- (le_enc_val (reorder en a)), <- (le_enc_val (reorder en b)), E. f_equal. rewrite !reorder_length. unfold len in L. lia. }
  rewrite <- (reorder_involutive en a), <- (reorder_involutive en b). now rewrite R.
Qed.

Lemma stored_integer_inj s en a b : len a = len b -> stored_integer s en a = stored_integer s en b -> a = b.
Proof.
  intros L E. apply (stored_inj en); auto. unfold stored_integer in E. destruct s; [|exact E].
  pose proof (stored_number_range en a _ eq_refl) as A. pose proof (stored_number_range en b _ eq_refl) as B.
  unfold twos_complement in E. rewrite L in *. set (p := 2 ^ (8 * len b)) in *. set (q := 2 ^ (8 * len b - 1)) in *. clearbody p q.
  destruct (Z.ltb_spec (stored_number en a) q), (Z.ltb_spec (stored_number en b) q); lia.
Qed.

Lemma widened_inj b b' w : 0 <= b < 2 ^ 32 -> 0 <= b' < 2 ^ 32 -> widened b w -> widened b' w -> ~ nan_double w -> b = b'.
Proof.
  intros B B' W W' N. pose proof (widened_unique _ _ _ W (widened_f32 b B)) as E. pose proof (widened_unique _ _ _ W' (widened_f32 b' B')) as E'.
  assert (S : f64_to_f32 (f32_to_f64 b) = Some b).
  { apply f32_round_trip; auto. intros Q. apply N. rewrite E. now apply widen_nan. }
  assert (S' : f64_to_f32 (f32_to_f64 b') = Some b').
  { apply f32_round_trip; auto. intros Q. apply N. rewrite E'. now apply widen_nan. }
  congruence.
Qed.

(** *** Definitions *)

Lemma telling_used orc cls bo m : everywhere (telling orc) m -> everywhere (telling orc) (used_type cls bo m).
Proof.
  intros K. apply everywhere_type in K. destruct (used_as_explicit cls bo m) as (ov & EX & U). destruct (U orc) as [_ ->].
  destruct ov as [[n b]|]; auto. destruct (type_of m) as [| | | | | |k e el| | | | | | | |]; cbn in K |- *; auto.
  split; [destruct b; try discriminate; destruct EX|auto].
Qed.

Lemma telling_element orc e el : everywhere (telling orc) el -> everywhere (telling orc) (element_type e el).
Proof.
  intros K. unfold element_type. destruct (e_bo e); auto; destruct (dt_byte_order el) as [[]|]; auto;
    destruct (is_composite el); auto; destruct el; cbn in K |- *; auto; (split; [discriminate|auto]).
Qed.

Lemma known_used cls bo m : everywhere known m -> everywhere known (used_type cls bo m).
Proof.
  intros K. apply everywhere_type in K. destruct (used_as_explicit cls bo m) as (ov & EX & U). destruct (U (mkOracle Little (fun _ _ => EvExc) (fun _ => false) (fun _ _ => None) (fun _ _ => None))) as [_ ->].
  destruct ov as [[n b]|]; auto. destruct (type_of m); cbn in K |- *; auto.
Qed.

Lemma known_element e el : everywhere known el -> everywhere known (element_type e el).
Proof.
  intros K. unfold element_type. destruct (e_bo e); auto; destruct (dt_byte_order el) as [[]|]; auto;
    destruct (is_composite el); auto; destruct el; cbn in K |- *; auto.
Qed.

Lemma single_used cls bo m : everywhere no_single m -> everywhere no_single (used_type cls bo m).
Proof.
  intros K. apply everywhere_type in K. destruct (used_as_explicit cls bo m) as (ov & EX & U). destruct (U (mkOracle Little (fun _ _ => EvExc) (fun _ => false) (fun _ _ => None) (fun _ _ => None))) as [_ ->].
  destruct ov as [[n b]|]; auto. destruct (type_of m); cbn in K |- *; auto.
Qed.

Lemma single_element e el : everywhere no_single el -> everywhere no_single (element_type e el).
Proof.
  intros K. unfold element_type. destruct (e_bo e); auto; destruct (dt_byte_order el) as [[]|]; auto;
    destruct (is_composite el); auto; destruct el; cbn in K |- *; auto.
Qed.

Lemma span_app a b : span (a ++ b) = span a + span b.
Proof. induction a as [|x a IH]; cbn; [reflexivity|]. fold (span (a ++ b)). fold (span a). lia. Qed.

(** A sequence is its elements. *)
Lemma sequence_elements orc bs e el off vals v n : reads orc bs (DElems KSequence e el) off vals v n ->
  exists rs, v = VTuple (map fst rs) /\ n = span rs /\ reads_elements orc bs (element_type e el) off rs.
Proof.
  intros R. inversion R; subst; eauto.
  exists (rs ++ [(w, k)]). rewrite map_app, span_app. cbn. rewrite Z.add_0_r. auto.
Qed.

(** *** Sizes are not negative *)
Lemma reads_nonneg orc bs d off vals v n : reads orc bs d off vals v n -> everywhere known d -> 0 <= n.
Proof.
  intros R. induction R using reads_ind' with
    (P0 := fun d off rs => everywhere known d -> 0 <= span rs)
    (P1 := fun cls bo names vals done ms off rs => Forall (everywhere known) ms -> 0 <= total rs);
    intros K; try lia; try (cbn in H; lia).
  - destruct H0; lia.
  - apply IHR. destruct K. now apply known_element.
  - destruct K as [_ K]. apply (known_element e) in K. specialize (IHR K). rewrite span_app in IHR. cbn in IHR. lia.
  - apply IHR. destruct K. now apply known_element.
  - apply IHR. destruct K. now apply known_element.
  - destruct K as [K _]. cbn in K. destruct H0 as [[_ S]|(_ & k & c & G & S & ->)]; apply measure_nonneg in S; auto. apply K in G. nia.
  - pose proof (len_nonneg t). destruct H1; nia.
  - apply IHR. destruct K. split; auto.
  - apply IHR. destruct K as [_ K]. now apply go_forall in K.
  - apply IHR2. destruct K as (_ & _ & D & M). apply go_forall in M. rewrite Forall_forall in M.
    destruct H0 as [(b1 & a1 & -> & _)|(_ & ->)]; auto. apply M, in_or_app. right. now left.
  - cbn. lia.
  - cbn [span fold_right snd]. fold (span rs). specialize (IHR K). specialize (IHR0 K). lia.
  - cbn. lia.
  - inversion K; subst. cbn [total fold_right size_of]. fold (total rs). specialize (IHR (known_used _ _ _ H4)). specialize (IHR0 H5). lia.
  - inversion K; subst. cbn [total fold_right size_of]. fold (total rs). specialize (IHR H4). lia.
Qed.

Lemma reads_elements_nonneg orc bs d off rs : reads_elements orc bs d off rs -> everywhere known d -> 0 <= span rs.
Proof.
  induction 1; intros K; [cbn; lia|]. cbn [span fold_right snd]. fold (span rs). pose proof (reads_nonneg _ _ _ _ _ _ _ H0 K). specialize (IHreads_elements K). lia.
Qed.

Lemma reads_members_nonneg orc bs cls bo names vals done ms off rs : reads_members orc bs cls bo names vals done ms off rs ->
  Forall (everywhere known) ms -> 0 <= total rs.
Proof.
  induction 1; intros K; [cbn; lia| |]; inversion K; subst; cbn [total fold_right size_of]; fold (total rs); specialize (IHreads_members ltac:(assumption)); [|lia].
  match goal with H : reads _ _ _ _ _ _ _ |- _ => apply reads_nonneg in H; [lia|now apply known_used] end.
Qed.

Lemma no_nan_tuple l : no_nan (VTuple l) <-> Forall no_nan l.
Proof. cbn [no_nan]. induction l as [|a l IH]; [split; auto|]. rewrite IH. split; [intros [A B]; constructor; auto|intros H; inversion H; auto]. Qed.

Lemma no_nan_struct cls names l : List.length names = List.length l -> no_nan (VStruct cls (combine names l)) <-> Forall no_nan l.
Proof.
  cbn [no_nan]. revert names. induction l as [|a l IH]; intros [|x names] L; try discriminate; cbn [combine]; [split; auto|].
  injection L as L. rewrite (IH _ L). split; [intros [A B]; constructor; auto|intros H; inversion H; auto].
Qed.

Lemma combine_inj {A B} (l : list A) : forall (x y : list B), List.length x = List.length l -> List.length y = List.length l ->
  combine l x = combine l y -> x = y.
Proof.
  induction l as [|a l IH]; intros [|b x] [|c y] X Y E; try discriminate; [reflexivity|]. cbn in *. injection E as -> E. f_equal. apply IH; auto.
Qed.

Lemma members_length orc bs cls bo names vals done ms off rs : reads_members orc bs cls bo names vals done ms off rs -> List.length rs = List.length ms.
Proof. induction 1; cbn; auto. Qed.

Lemma condition_fun orc m e a b : condition_is orc m e a -> condition_is orc m e b -> a = b.
Proof. unfold condition_is. destruct (truthy_str _); congruence. Qed.

Lemma stream_tells orc bs bs' e el off vals l n n' : 0 <= off -> everywhere known (DElems KStream e el) ->
  reads orc bs (DElems KStream e el) off vals (VBytes l) n -> reads orc bs' (DElems KStream e el) off vals (VBytes l) n' ->
  n = n' /\ window bs off n = window bs' off n.
Proof.
  intros Ho K R R'.
  assert (G : forall b k, reads orc b (DElems KStream e el) off vals (VBytes l) k -> len l = k /\ window b off k = l).
  { intros b k Q. pose proof (reads_nonneg _ _ _ _ _ _ _ Q K) as N. inversion Q; subst.
    - split; auto. apply len_window; auto.
    - split; auto. match goal with H : first_at _ _ _ _ |- _ => rename H into F end.
      destruct (Z.eq_dec (len t) 0) as [Z0|NZ]; [rewrite Z0, Z.mul_0_r; reflexivity|].
      pose proof (len_nonneg t). pose proof (first_at_inside t b off k0 Ho ltac:(lia) F). apply len_window; auto. }
  destruct (G _ _ R) as [A B]. destruct (G _ _ R') as [A' B']. assert (n = n') by lia. subst n'. split; auto. congruence.
Qed.

(** A string and what is left of it. *)
Lemma string_tells orc bs bs' e el off vals l l' r n n' : 0 <= off -> everywhere known (DElems KStream e el) -> byte_terminator (e_terminator e) ->
  (e_terminator e = None \/ unsized_stream e el) ->
  reads orc bs (DElems KStream e el) off vals (VBytes l) n -> reads orc bs' (DElems KStream e el) off vals (VBytes l') n' ->
  text_part (e_terminator e) l r -> text_part (e_terminator e) l' r -> l = l'.
Proof.
  intros Ho K BT C R R' P P'. destruct (e_terminator e) as [t|] eqn:T; [|cbn in P, P'; congruence].
  destruct C as [C|U]; [discriminate|]. destruct BT as (b & -> & LB). cbn in P, P'.
  assert (G : forall s x k, reads orc s (DElems KStream e el) off vals (VBytes x) k -> cut_at b x r -> x = r ++ b).
  { intros s x k Q X. inversion Q; subst; [contradiction|].
    assert (b = t) by congruence. subst t. match goal with H : first_at _ s _ _ |- _ => rename H into F end.
    pose proof (first_at_inside b s off k0 Ho LB F) as I. pose proof (first_at_in b s off k0 Ho LB F) as F'.
    set (w := window s off ((k0 + 1) * len b)) in *. pose proof F as (K0 & _).
    assert (LW : len w = (k0 + 1) * len b) by (unfold w; apply len_window; nia).
    destruct X as [(j & J & ->)|(N & _)]; [|exfalso; exact (N _ F')].
    assert (j = k0).
    { destruct J as (J1 & J2 & J3). destruct F' as (_ & F2 & F3). destruct (Z.lt_trichotomy j k0) as [L|[L|L]]; auto; exfalso.
      - exact (F3 j ltac:(lia) J2).
      - exact (J3 k0 ltac:(lia) F2). }
    subst j. clear J. destruct F' as (_ & F2 & _). rewrite Z.add_0_l in F2. rewrite <- F2 at 2. unfold window.
    rewrite firstn_all2 with (n := Z.to_nat (len b)); [symmetry; apply firstn_skipn|].
    rewrite skipn_length. unfold len in LW |- *. nia. }
  rewrite (G _ _ _ R P), (G _ _ _ R' P'). reflexivity.
Qed.

(** Terminators of strings have bytes. *)
Definition ended (d : dtype) : Prop :=
  match d with DElems KString e _ => byte_terminator (e_terminator e) | _ => True end.

Lemma ended_used cls bo m : everywhere ended m -> everywhere ended (used_type cls bo m).
Proof.
  intros K. apply everywhere_type in K. destruct (used_as_explicit cls bo m) as (ov & EX & U). destruct (U (mkOracle Little (fun _ _ => EvExc) (fun _ => false) (fun _ _ => None) (fun _ _ => None))) as [_ ->].
  destruct ov as [[n b]|]; auto. destruct (type_of m); cbn in K |- *; auto.
Qed.

Lemma ended_element e el : everywhere ended el -> everywhere ended (element_type e el).
Proof.
  intros K. unfold element_type. destruct (e_bo e); auto; destruct (dt_byte_order el) as [[]|]; auto;
    destruct (is_composite el); auto; destruct el; cbn in K |- *; auto.
Qed.

Lemma sound_ended d : everywhere sound d -> everywhere ended d.
Proof.
  apply everywhere_weaken. intros x [S _]. destruct x; cbn; auto. destruct k; auto. destruct S as (_ & _ & _ & S).
  destruct (e_terminator _) eqn:E; cbn; auto. destruct (S _ eq_refl) as (b & -> & _ & L). eauto.
Qed.

(** What is asked of a definition. *)
Definition asked orc (d : dtype) : Prop := everywhere known d /\ everywhere ended d /\ everywhere (telling orc) d.

Lemma asked_used orc cls bo m : asked orc m -> asked orc (used_type cls bo m).
Proof. intros (A & B & C). split; [|split]; [now apply known_used|now apply ended_used|now apply telling_used]. Qed.

Lemma asked_element orc k e el : asked orc (DElems k e el) -> asked orc (element_type e el).
Proof. intros ((_ & A) & (_ & B) & (_ & C)). split; [|split]; [now apply known_element|now apply ended_element|now apply telling_element]. Qed.

Lemma asked_members orc mt bo ms : asked orc (DStructure mt bo ms) -> Forall (asked orc) ms.
Proof.
  intros ((_ & A) & (_ & B) & (_ & C)). apply go_forall in A. apply go_forall in B. apply go_forall in C.
  rewrite Forall_forall in *. intros x H. split; [|split]; auto.
Qed.

Lemma asked_known orc ms : Forall (asked orc) ms -> Forall (everywhere known) ms.
Proof. intros H. eapply Forall_impl; [|exact H]. intros x (A & _). exact A. Qed.

Lemma selects_choice identifier default ms id d : selects identifier default ms id d ->
  In d (ms ++ match default with Some x => [x] | None => [] end).
Proof.
  intros [(b & a & -> & _)|(_ & ->)]; apply in_or_app; [left; apply in_or_app; right; now left|right; now left].
Qed.

Lemma everywhere_choice P mt bo base identifier default ms x : everywhere P (DGroup mt bo base identifier default ms) ->
  In x (ms ++ match default with Some x => [x] | None => [] end) -> everywhere P x.
Proof.
  intros (_ & _ & D & M) I. apply go_forall in M. rewrite Forall_forall in M. apply in_app_or in I as [I|I]; auto.
  destruct default as [y|]; [destruct I as [<-|[]]; exact D|destruct I].
Qed.

Lemma sized_fun f a b : sized f a -> sized f b -> a = b.
Proof. intros [A _] [B _]. congruence. Qed.

Lemma window_glue (bs bs' : bytes) off a b : 0 <= off -> 0 <= a -> 0 <= b ->
  window bs off a = window bs' off a -> window bs (off + a) b = window bs' (off + a) b -> window bs off (a + b) = window bs' off (a + b).
Proof. intros O A B E E'. rewrite !window_plus by auto. congruence. Qed.

#[local] Ltac one_size := match goal with A : sized ?f ?a, B : sized ?f ?b |- _ => pose proof (sized_fun f a b A B); clear B end.

Lemma reads_tell orc bs bs' d off vals v n : reads orc bs d off vals v n ->
  0 <= off -> asked orc d -> (everywhere no_single d \/ no_nan v) ->
  forall n', reads orc bs' d off vals v n' -> n = n' /\ window bs off n = window bs' off n.
Proof.
  intros R. induction R using reads_ind' with
    (P0 := fun d off rs => 0 <= off -> asked orc d -> (everywhere no_single d \/ Forall no_nan (map fst rs)) ->
       forall rs', reads_elements orc bs' d off rs' -> map fst rs = map fst rs' -> rs = rs' /\ window bs off (span rs) = window bs' off (span rs))
    (P1 := fun cls bo names vals done ms off rs => 0 <= off -> Forall (asked orc) ms -> (Forall (everywhere no_single) ms \/ Forall no_nan (map value_of rs)) ->
       forall rs', reads_members orc bs' cls bo names vals done ms off rs' -> map value_of rs = map value_of rs' ->
       rs = rs' /\ window bs off (total rs) = window bs' off (total rs));
    intros Ho K NN.
  - (* integers *)
    intros n' R'. inversion R'; subst. one_size. subst. split; auto.
    eapply stored_integer_inj; [|symmetry; eassumption]. cbn in H. rewrite !len_window; auto; lia.
  - (* doubles *)
    intros n' R'. inversion R'; subst; [|one_size; discriminate]. split; auto.
    eapply stored_inj; [|symmetry; eassumption]. rewrite !len_window; auto; lia.
  - (* singles *)
    intros n' R'. inversion R'; subst; [one_size; discriminate|]. split; auto.
    apply (stored_inj (order_on (o_host orc) (f_bo f))); [rewrite !len_window; auto; lia|].
    destruct NN as [[NN _]|NN]; [cbn in NN; destruct H; congruence|].
    eapply widened_inj; [| |eassumption|eassumption|exact NN]; apply (stored_number_range _ _ 4); rewrite len_window; lia.
  - (* booleans *)
    intros n' R'. inversion R'; subst. one_size. subst. split; auto.
    destruct K as (_ & _ & (T & _)). cbn in T. destruct fv as [fz|], tv as [tz|]; try (exfalso; destruct T; congruence).
    apply (stored_inj (order_on (o_host orc) (f_bo f))); [cbn in H; rewrite !len_window; auto; lia|].
    cbn zeta in *. unfold stands_for_true, stands_for_false in *. destruct b; intuition congruence.
  - (* characters *)
    intros n' R'. inversion R'; subst. one_size. subst. split; auto.
    match goal with E : stored_integer _ _ _ = stored_integer _ _ _ |- _ => apply stored_integer_inj in E; auto end. cbn in H. rewrite !len_window; auto; lia.
  - (* UUIDs *)
    intros n' R'. inversion R'; subst. split; auto. destruct K as (_ & _ & (T & _)). cbn in T.
    assert (L : forall b : bytes, off + 16 <= len b -> List.length (window b off 16) = 16%nat) by (intros b LB; rewrite length_window by lia; reflexivity).
    destruct (f_bo f); [congruence|congruence|].
    destruct H1 as (u & S & ->). match goal with X : exists u, _ /\ _ |- _ => destruct X as (u' & S' & Q) end. injection Q as <-.
    rewrite uuid_swap_spec in S, S' by auto.
    rewrite <- (uuid_swap_involutive (window bs off 16)), <- (uuid_swap_involutive (window bs' off 16)) by auto. congruence.
  - (* padding *)
    intros n' R'. inversion R'; subst. destruct H0 as [A0 A1]. match goal with E : aligns _ _ n' |- _ => destruct E as [B0 B1] end.
    match goal with E : window _ _ _ = window _ _ _ |- _ => rename E into W end.
    assert (n = n'). { apply (f_equal len) in W. rewrite !len_window in W; lia. } subst n'. split; auto.
  - (* counted *)
    intros n' R'. apply sequence_elements in R' as (rs' & E & -> & R'). injection E as E.
    destruct (IHR Ho (asked_element _ _ _ _ K)) with (rs' := rs') as [<- W]; auto.
    destruct NN as [[_ NN]|NN]; [left; now apply single_element|right; now apply no_nan_tuple].
  - (* terminated *)
    intros n' R'. apply sequence_elements in R' as (rs' & E & -> & R'). injection E as E.
    destruct (IHR Ho (asked_element _ _ _ _ K)) with (rs' := rs') as [<- W]; auto.
    + destruct NN as [[_ NN]|NN]; [left; now apply single_element|right; apply no_nan_tuple in NN; now rewrite map_app].
    + now rewrite map_app.
    + rewrite span_app in W |- *. cbn in W |- *. rewrite Z.add_0_r in *. auto.
  - (* sized *)
    intros n' R'. apply sequence_elements in R' as (rs' & E & -> & R'). injection E as E.
    destruct (IHR Ho (asked_element _ _ _ _ K)) with (rs' := rs') as [<- W]; auto.
    destruct NN as [[_ NN]|NN]; [left; now apply single_element|right; now apply no_nan_tuple].
  - (* sized, with elements of varying sizes *)
    intros n' R'. apply sequence_elements in R' as (rs' & E & -> & R'). injection E as E.
    destruct (IHR Ho (asked_element _ _ _ _ K)) with (rs' := rs') as [<- W]; auto.
    destruct NN as [NN|NN]; [left; apply single_element; destruct NN; auto|right; now apply no_nan_tuple].
  - (* streams *)
    intros n' R'. destruct K as (K & _). eapply stream_tells; eauto. now constructor.
  - (* terminated streams *)
    intros n' R'. destruct K as (K & _). eapply stream_tells; eauto. now constructor.
  - (* strings *)
    intros n' R'. inversion R'; subst. destruct K as (K & (B & _) & ((F & C) & _)). cbn in B.
    assert (K' : everywhere known (DElems KStream e el)) by (destruct K; split; auto).
    match goal with D : o_decode _ _ r = _, D' : o_decode _ _ ?r' = _ |- _ => assert (r = r') by (apply F in D; apply F in D'; congruence) end. subst.
    match goal with R1 : reads _ bs' (DElems KStream _ _) _ _ (VBytes ?l') _ |- _ =>
      assert (l = l') by (eapply (string_tells orc bs bs'); eauto); subst; eapply stream_tells; eauto end.
  - (* structures *)
    intros n' R'. inversion R'; subst. match goal with E : combine _ _ = combine _ _ |- _ => apply combine_inj in E; [|rewrite !map_length; eapply members_length; eauto..] end.
    destruct (IHR Ho (asked_members _ _ _ _ K)) with (rs' := rs0) as [<- W]; auto.
    destruct NN as [[_ NN]|NN]; [left; now apply go_forall in NN|right; apply no_nan_struct in NN; auto].
    rewrite !map_length. symmetry. eapply members_length; eauto.
  - (* groups *)
    intros n' R'. inversion R'; subst. 
    match goal with R1 : reads _ bs' ?x off [] v n' |- _ => rename x into d'; rename R1 into Rd' end.
    assert (I : In d (ms ++ match default with Some x => [x] | None => [] end)) by (eapply selects_choice; eauto).
    assert (I' : In d' (ms ++ match default with Some x => [x] | None => [] end)) by (eapply selects_choice; eauto).
    destruct K as (K & B & T). pose proof T as ((TS & TN) & _).
    assert (d = d').
    { destruct (TS _ I) as (mt1 & bo1 & l1 & E1), (TS _ I') as (mt2 & bo2 & l2 & E2). apply TN; auto. subst d d'.
      inversion Rd'; subst. inversion R2; subst. unfold dt_name. cbn [dt_meta]. congruence. }
    subst d'. apply IHR2; auto.
    + split; [|split]; eapply everywhere_choice; eauto.
    + destruct NN as [NN|NN]; auto. left. eapply everywhere_choice; eauto.
  - intros rs' R' E. destruct rs'; [|discriminate]. auto.
  - intros rs' R' E. destruct rs' as [|[v' n'] rs']; [discriminate|]. cbn in E. injection E as <- E. inversion R'; subst.
    destruct (IHR Ho K) with (n' := n') as [<- W]; auto.
    { destruct NN as [NN|NN]; auto. cbn in NN. inversion NN. auto. }
    assert (N0 : 0 <= n) by (destruct K; eapply reads_nonneg; eauto). 
    assert (N1 : 0 <= span rs) by (destruct K; eapply reads_elements_nonneg; eauto). 
    destruct (IHR0 ltac:(lia) K) with (rs' := rs') as [<- W']; auto.
    { destruct NN as [NN|NN]; auto. cbn in NN. inversion NN. auto. }
    split; auto. cbn [span fold_right snd]. apply window_glue; auto.
  - intros rs' R' E. destruct rs'; [|discriminate]. auto.
  - intros rs' R' E. inversion K as [|? ? K1 K2]; subst. inversion R'; subst; [|match goal with A : condition_is _ _ _ true, B : condition_is _ _ _ false |- _ => pose proof (condition_fun _ _ _ _ _ A B); discriminate end].
    cbn in E. injection E as <- E. 
    destruct (IHR Ho (asked_used _ _ _ _ K1)) with (n' := n0) as [<- W]; auto.
    { destruct NN as [NN|NN]; [left; apply single_used; now inversion NN|right; cbn in NN; now inversion NN]. }
    assert (N0 : 0 <= n) by (destruct (asked_used orc cls bo m K1); eapply reads_nonneg; eauto). 
    assert (N1 : 0 <= total rs) by (eapply reads_members_nonneg; eauto; now apply asked_known in K2). 
    destruct (IHR0 ltac:(lia) K2) with (rs' := rs0) as [<- W']; auto.
    { destruct NN as [NN|NN]; [left; now inversion NN|right; cbn in NN; now inversion NN]. }
    split; auto. cbn [total fold_right size_of]. apply window_glue; auto.
  - intros rs' R' E. inversion K as [|? ? K1 K2]; subst. inversion R'; subst; [match goal with A : condition_is _ _ _ true, B : condition_is _ _ _ false |- _ => pose proof (condition_fun _ _ _ _ _ A B); discriminate end|].
    cbn in E. injection E as E. 
    destruct (IHR Ho K2) with (rs' := rs0) as [<- W']; auto.
    { destruct NN as [NN|NN]; [left; now inversion NN|right; cbn in NN; now inversion NN]. }
Qed.

(** The bytes of a value can be told from the value. *)
Theorem maps_tell : forall orc d m fuel fuel' bs bs' off vals depth depth' v n n',
  extensional orc -> everywhere regular d -> everywhere (telling orc) d ->
  create orc d None = Ok (Some m) -> 0 <= off <= len bs -> off <= len bs' ->
  maps orc fuel m bs off vals depth v n -> maps orc fuel' m bs' off vals depth' v n' ->
  everywhere no_single d \/ no_nan v ->
  n = n' /\ window bs off n = window bs' off n.
Proof.
  intros orc d m fuel fuel' bs bs' off vals depth depth' v n n' X E T C Ho Ho' M M' NN.
  apply (mapping_reads _ _ d) in M; auto. apply (mapping_reads _ _ d) in M'; auto; [|lia].
  eapply reads_tell; eauto; [lia|]. pose proof (regular_sound _ E) as S. split; [now apply sound_known|split; [now apply sound_ended|auto]].
Qed.
