(** Structures of which a single member changes. *)
From Coq Require Import String Ascii List ZArith Bool Lia.
From Verif Require Import Base PyVal PyStruct DataTypes ClassFactory DataMaps SpecPrim SpecMap SpecCreate SpecReads SpecRound SpecFold SpecShort SpecGrow SpecWrites SpecEdit
  BytesProofs PrimProofs MapProofs ContextProofs StructProofs LayoutProofs CreateProofs LinearProofs StreamProofs SteadyProofs WindowProofs
  ReadsProofs FoldProofs FitProofs IeeeProofs TellProofs WritesProofs.
Import ListNotations.
Open Scope string_scope.
Open Scope list_scope.
Open Scope Z_scope.

#[local] Arguments Z.add : simpl never.
#[local] Arguments Z.mul : simpl never.
#[local] Arguments Z.pow : simpl never.

(** ** Writing *)

Lemma stores_unique en d v b b' : proper v -> stores en d v b -> stores en d v b' -> b = b'.
Proof.
  intros P S S'. destruct (stores_code en d v b S) as (c & C). apply (pack_stores en d c v) in S, S'; auto. congruence.
Qed.

Lemma stores_all_unique en ds : forall vs b b', Forall proper vs -> stores_all en ds vs b -> stores_all en ds vs b' -> b = b'.
Proof.
  induction ds as [|d ds IH]; intros vs b b' P S S'; inversion S; subst; inversion S'; subst; auto.
  inversion P; subst. f_equal; [eapply stores_unique; eauto|eapply IH; eauto].
Qed.

Lemma stores_all_app en ds1 ds2 : forall vs b, stores_all en (ds1 ++ ds2) vs b ->
  exists vs1 vs2 b1 b2, vs = vs1 ++ vs2 /\ b = b1 ++ b2 /\ stores_all en ds1 vs1 b1 /\ stores_all en ds2 vs2 b2.
Proof.
  induction ds1 as [|d ds1 IH]; intros vs b S.
  - exists [], vs, [], b. repeat split; auto. constructor.
  - cbn in S. inversion S; subst. match goal with H : stores_all _ (_ ++ _) _ _ |- _ => apply IH in H; destruct H as (v1 & v2 & b1 & b2 & -> & -> & S1 & S2) end. exists (v :: v1), v2, (b0 ++ b1), b2.
    rewrite app_assoc. repeat split; auto. now constructor.
Qed.

Lemma app_split {A} (a : list A) : forall b c d, List.length a = List.length c -> a ++ b = c ++ d -> a = c /\ b = d.
Proof. induction a as [|x a IH]; intros b [|y c] d L Q; try discriminate; auto. inversion Q; subst. apply IH in H1; auto. now destruct H1 as [-> ->]. Qed.

Lemma stores_all_length en ds vs b : stores_all en ds vs b -> List.length vs = List.length ds.
Proof. induction 1; cbn; auto. Qed.

Lemma writes_stream orc e el vals v b : writes orc (DElems KStream e el) vals v b ->
  exists l, v = VBytes l /\
    ((~ unsized_stream e el /\ b = l) \/
     (unsized_stream e el /\ exists t, e_terminator e = Some (VBytes t) /\
        (((exists p, l = p ++ t) /\ b = l) \/ ((forall p, l <> p ++ t) /\ b = l ++ t)))).
Proof.
  intros W. remember (DElems KStream e el) as d. destruct W; inversion Heqd; subst; try contradiction.
  - exists b. auto.
  - exists (b ++ t). split; auto. right. split; auto. exists t. split; auto. left. eauto.
  - exists b. split; auto. right. split; auto. exists t. auto.
Qed.

Lemma stream_anywhere orc e el vals vals' l b b' :
  writes orc (DElems KStream e el) vals (VBytes l) b -> writes orc (DElems KStream e el) vals' (VBytes l) b' -> b = b'.
Proof.
  intros W W'. apply writes_stream in W, W'. destruct W as (l1 & Q & W), W' as (l2 & Q' & W'). inversion Q; inversion Q'; subst.
  destruct W as [[U ->]|(U & t & T & W)], W' as [[U' ->]|(U' & t' & T' & W')]; try contradiction; auto.
  assert (t' = t) by congruence. subst.
  destruct W as [[(p & ->) ->]|[N ->]], W' as [[(p' & Q'') ->]|[N' ->]]; auto; exfalso; [now apply (N' p)|now apply (N p')].
Qed.

Lemma writes_string orc e el vals v b : writes orc (DElems KString e el) vals v b ->
  exists s l, v = VStr s /\ o_encode orc (e_encoding e) s = Some l /\ writes orc (DElems KStream e el) vals (VBytes l) b.
Proof. intros W. remember (DElems KString e el) as d. destruct W; inversion Heqd; subst; try contradiction. eauto. Qed.

(** What is written does not depend on the namespace. *)
Lemma writes_anywhere orc d m vals vals' v b b' :
  extensional orc -> everywhere sound d -> create orc d None = Ok (Some m) -> proper v ->
  writes orc d vals v b -> writes orc d vals' v b' -> b = b'.
Proof.
  intros X E C P W W'.
  assert (K : (exists e el, d = DElems KStream e el \/ d = DElems KString e el) \/ writes orc d vals' v b).
  { destruct W; try (left; eauto; fail); right.
    - eapply WriteNumber; eauto.
    - eapply WriteBoolean; eauto.
    - eapply WriteCharacter; eauto.
    - eapply WriteCharacterByte; eauto.
    - eapply WriteUUID; eauto.
    - eapply WritePadding; eauto.
    - eapply WriteSequence; eauto.
    - eapply WriteStructureOnce; eauto.
    - eapply WriteStructure; eauto. }
  destruct K as [(e & el & [-> | ->])|K]; [| |eapply (writing_unique orc d m vals'); eauto].
  - destruct (writes_stream _ _ _ _ _ _ W) as (l & -> & _). eapply stream_anywhere; eauto.
  - apply writes_string in W, W'. destruct W as (s & l & -> & EN & W), W' as (s' & l' & Q & EN' & W').
    inversion Q; subst. assert (l' = l) by congruence. subst. eapply stream_anywhere; eauto.
Qed.

Definition hollow (d : dtype) : Prop :=
  match d with DUnion _ _ _ | DFamily _ _ _ | DMember _ _ _ _ _ _ => True | _ => False end.

Lemma hollow_used sn bo m : hollow (used_type sn bo m) <-> hollow (type_of m).
Proof. unfold used_type. destruct bo; try tauto; destruct (dt_byte_order (type_of m)) as [[]|]; try tauto; destruct (type_of m); cbn; tauto. Qed.

Lemma hollow_unwritten orc d vals v b : hollow d -> ~ writes orc d vals v b.
Proof. intros H W. destruct W; try contradiction. destruct d; contradiction. Qed.

Lemma writes_members_app orc cls bo v ms1 ms2 : forall b, writes_members orc cls bo v (ms1 ++ ms2) b ->
  exists b1 b2, b = b1 ++ b2 /\ writes_members orc cls bo v ms1 b1 /\ writes_members orc cls bo v ms2 b2.
Proof.
  induction ms1 as [|m ms1 IH]; intros b W.
  - exists [], b. repeat split; auto. constructor.
  - cbn in W. remember (m :: ms1 ++ ms2) as l. destruct W; inversion Heql; subst.
    + apply IH in W. destruct W as (b1 & b2 & -> & W1 & W2). exists b1, b2. repeat split; auto. now apply WriteAbsent.
    + apply IH in W. destruct W as (b1 & b2 & -> & W1 & W2). exists (b ++ b1), b2. rewrite app_assoc. repeat split; auto. now apply WritePresent.
Qed.

(** One member. *)
Lemma writes_member orc cls bo v m ms b : writes_members orc cls bo v (m :: ms) b ->
  exists b1 b2, b = b1 ++ b2 /\ writes_members orc cls bo v ms b2 /\
    (((py_getattr v (dt_name m) = VNone \/ hollow (used_type cls bo m)) /\ b1 = []) \/
     (py_getattr v (dt_name m) <> VNone /\ writes orc (used_type cls bo m) [(type_name v, v)] (py_getattr v (dt_name m)) b1)).
Proof.
  intros W. remember (m :: ms) as l. destruct W; inversion Heql; subst.
  - exists [], b. auto.
  - exists b, bs. auto.
Qed.

(** Members that are the same are written the same. *)
Lemma members_unique orc cls bo v v' ms : extensional orc -> proper v ->
  Forall (fun m => everywhere sound m /\ exists t, create orc (used_type cls bo m) None = Ok t) ms ->
  Forall (fun m => py_getattr v' (dt_name m) = py_getattr v (dt_name m)) ms ->
  forall b b', writes_members orc cls bo v ms b -> writes_members orc cls bo v' ms b' -> b = b'.
Proof.
  intros X P. induction ms as [|m ms IH]; intros A S b b' W W'.
  - inversion W; inversion W'; congruence.
  - inversion A as [|? ? (E & t & C) A']; inversion S as [|? ? S1 S2]; subst. apply writes_member in W, W'.
    destruct W as (b1 & b2 & -> & W2 & W1), W' as (b1' & b2' & -> & W2' & W1'). f_equal; [|eapply IH; eauto].
    rewrite S1 in W1'.
    destruct W1 as [[[N|H] ->]|[N W1]], W1' as [[[N'|H'] ->]|[N' W1']]; auto; try contradiction;
      try (exfalso; eapply hollow_unwritten; eauto; fail).
    destruct t as [t|]; [|apply create_nothing in C; exfalso; exact (hollow_unwritten _ _ _ _ _ C W1)].
    apply (writes_anywhere orc (used_type cls bo m) t [(type_name v, v)] [(type_name v', v')] (py_getattr v (dt_name m))); auto.
    + now apply sound_used.
    + now apply proper_getattr.
Qed.

Lemma created_members orc mt bo ms m : everywhere sound (DStructure mt bo ms) -> create orc (DStructure mt bo ms) None = Ok (Some m) ->
  Forall (fun m => everywhere sound m /\ exists t, create orc (used_type (m_name mt) bo m) None = Ok t) ms.
Proof.
  intros E C. pose proof (everywhere_here _ _ E) as [_ WN]. pose proof (proj2 E) as Em. apply go_forall in Em.
  pose proof (well_named_distinct _ _ _ WN (m_name mt) bo) as DT.
  assert (SH : exists lin d cls ms' attrs op, m = MStructure lin d cls ms' attrs op).
  { cbn [create] in C. apply bind_ok in C. destruct C as (s & S & C). inversion C; subst s. unfold create_structure in S.
    repeat (apply bind_ok in S; destruct S as (? & _ & S)). destruct x1; [apply bind_ok in S; destruct S as (? & _ & S)|];
      inversion S; do 6 eexists; reflexivity. }
  destruct SH as (lin & d & cls & ms' & attrs & op & ->).
  pose proof (structure_own_maps _ _ _ _ _ _ _ _ _ _ C DT) as OM. clear - OM Em.
  induction OM as [|x a ms attrs [_ Q] _ IH]; constructor; inversion Em; subst; eauto.
Qed.

(** C69: another value for one member changes the bytes of this member and no others. *)
Lemma edit_written orc mt bo before x after m v v' c c' b b' :
  extensional orc -> everywhere sound (DStructure mt bo (before ++ x :: after)) ->
  create orc (DStructure mt bo (before ++ x :: after)) None = Ok (Some m) ->
  proper v -> proper v' -> clean c -> clean c' ->
  (forall y, In y (before ++ after) -> py_getattr v' (dt_name y) = py_getattr v (dt_name y)) ->
  fst (foldbs orc m v c) = Ok (VBytes b) -> fst (foldbs orc m v' c') = Ok (VBytes b') ->
  exists pre old new post, b = pre ++ old ++ post /\ b' = pre ++ new ++ post /\
    member_bytes orc mt bo (before ++ x :: after) x (py_getattr v (dt_name x)) old /\
    member_bytes orc mt bo (before ++ x :: after) x (py_getattr v' (dt_name x)) new.
Proof.
  intros X E C P P' Cl Cl' S F F'. apply (folding_writes orc _ m v c b X E C P Cl) in F. apply (folding_writes orc _ m v' c' b' X E C P' Cl') in F'.
  remember (DStructure mt bo (before ++ x :: after)) as d. pose proof C as C0. rewrite Heqd in C0.
  assert (SB : Forall (fun y => py_getattr v' (dt_name y) = py_getattr v (dt_name y)) before) by (apply Forall_forall; intros; apply S, in_or_app; auto).
  assert (SA : Forall (fun y => py_getattr v' (dt_name y) = py_getattr v (dt_name y)) after) by (apply Forall_forall; intros; apply S, in_or_app; auto).
  destruct F; inversion Heqd; subst; try contradiction.
  - assert (ST : stores_all (order_on (o_host orc) bo) (map type_of (before ++ x :: after)) (map (fun m => py_getattr v' (dt_name m)) (before ++ x :: after)) b').
    { remember (DStructure mt bo (before ++ x :: after)) as d. destruct F'; inversion Heqd0; subst; try contradiction; auto. }
    rewrite !map_app in *. cbn [map] in *.
    assert (PV : forall (l : list dtype) w, proper w -> Forall proper (map (fun m => py_getattr w (dt_name m)) l)).
    { intros l w Pw. apply Forall_forall. intros z Z. apply in_map_iff in Z. destruct Z as (y & <- & _). now apply proper_getattr. }
    apply stores_all_app in H0, ST.
    destruct H0 as (v1 & v2 & b1 & b2 & Qv & -> & S1 & S2), ST as (v1' & v2' & b1' & b2' & Qv' & -> & S1' & S2').
    pose proof (stores_all_length _ _ _ _ S1) as L1. pose proof (stores_all_length _ _ _ _ S1') as L1'.
    rewrite map_length in L1, L1'.
    apply app_split in Qv; [|now rewrite map_length]. apply app_split in Qv'; [|now rewrite map_length].
    destruct Qv as [<- <-], Qv' as [<- <-]. inversion S2; subst; inversion S2'; subst.
    assert (b1' = b1).
    { eapply stores_all_unique; [|exact S1'|]; [now apply PV|]. replace (map (fun m => py_getattr v' (dt_name m)) before) with (map (fun m => py_getattr v (dt_name m)) before); auto.
      apply map_ext_in. intros a Ha. symmetry. now apply (proj1 (Forall_forall _ _) SB). }
    assert (bs0 = bs).
    { eapply stores_all_unique; [|match goal with H : stores_all _ _ _ bs0 |- _ => exact H end|]; [now apply PV|].
      replace (map (fun m => py_getattr v' (dt_name m)) after) with (map (fun m => py_getattr v (dt_name m)) after); auto.
      apply map_ext_in. intros a Ha. symmetry. now apply (proj1 (Forall_forall _ _) SA). }
    subst. exists b1, b, b0, bs. repeat split; auto; now apply AsNumber.
  - assert (W' : writes_members orc (m_name mt) bo v' (before ++ x :: after) b').
    { remember (DStructure mt bo (before ++ x :: after)) as d. destruct F'; inversion Heqd0; subst; try contradiction; auto. }
    pose proof (created_members _ _ _ _ _ E C0) as CM. apply Forall_app in CM. destruct CM as [CB CA]. inversion CA as [|? ? _ CA']; subst.
    apply writes_members_app in H0, W'. destruct H0 as (b1 & b2 & -> & W1 & W2), W' as (b1' & b2' & -> & W1' & W2').
    apply writes_member in W2, W2'. destruct W2 as (o & post & -> & W2 & W), W2' as (n & post' & -> & W2' & W').
    exists b1, o, n, post.
    assert (b1' = b1) by (symmetry; exact (members_unique orc _ _ v v' before X P CB SB _ _ W1 W1')).
    assert (post' = post) by (symmetry; exact (members_unique orc _ _ v v' after X P CA' SA _ _ W2 W2')). subst.
    repeat split; auto.
    + destruct W as [[N ->]|[N W]]; [apply AsNothing; auto|eapply AsType; eauto]. rewrite hollow_used in N. exact N.
    + destruct W' as [[N ->]|[N W']]; [apply AsNothing; auto|eapply AsType; eauto]. rewrite hollow_used in N. exact N.
Qed.

Lemma wide_used sn bo m k : as_wide_as (type_of m) k -> as_wide_as (used_type sn bo m) k.
Proof.
  intros [S K]. split; [now rewrite used_size|]. unfold used_type. destruct bo; auto; destruct (dt_byte_order (type_of m)) as [[]|]; auto;
    destruct (type_of m); auto.
Qed.

Lemma stores_size en d v b k : stores en d v b -> get_byte_size d = Some k -> len b = k.
Proof. intros S. destruct S; cbn [get_byte_size]; unfold fixed_byte_size; destruct (String.eqb _ _); congruence. Qed.

Lemma stores_all_size en d s : forall l b, stores_all en (map (fun _ => d) l) l b -> get_byte_size d = Some s -> len b = len l * s.
Proof.
  induction l as [|v l IH]; intros b S G; inversion S; subst; [reflexivity|].
  match goal with H : stores en d v _ |- _ => pose proof (stores_size _ _ _ _ _ H G) as Q1 end.
  match goal with H : stores_all _ _ _ _ |- _ => pose proof (IH _ H G) as Q2 end.
  unfold len in *. rewrite app_length. cbn [List.length]. nia.
Qed.

(** What a type of fixed size writes has this size. *)
Lemma writes_size orc d vals v b k : everywhere sound d -> proper v -> as_wide_as d k -> writes orc d vals v b -> len b = k.
Proof.
  intros E P [S K] W. pose proof (everywhere_here _ _ E) as So. destruct W; try contradiction.
  - eapply stores_size; eauto.
  - eapply stores_size; eauto.
  - eapply stores_size; eauto.
  - eapply stores_size; eauto.
  - destruct So as [So _]. cbn in So. apply So in S. subst k. cbn in P. destruct (f_bo f); try contradiction; [now subst|].
    assert (L : List.length u = 16%nat) by (unfold len in P; lia). rewrite uuid_swap_spec in H by auto. inversion H; subst.
    unfold len. rewrite uuid_swap_length; auto.
  - destruct K as (_ & _ & _ & K). cbn [get_byte_size] in S. destruct So as [(_ & D0 & N0 & _) _].
    destruct H1 as [L0 H1]. unfold elems_byte_size in S.
    assert (GB : exists s, get_byte_size el = Some s).
    { destruct H1 as [(s & c & _ & G & _)|[D N]]; [eauto|]. rewrite D in S. cbn [truthy_Z] in S. destruct (truthy_Z (e_number e)); [|discriminate].
      destruct (get_byte_size el); [eauto|discriminate]. }
    destruct GB as (s & G). rewrite (stores_all_size _ _ s _ _ H3 G).
    destruct H1 as [(s' & c & D & G' & NZ & ->)|[D N]].
    + assert (c = s) by congruence. subst c. rewrite D in S. specialize (D0 _ D). unfold truthy_Z in S.
      destruct (s' =? 0) eqn:Z0; [apply Z.eqb_eq in Z0; lia|]. inversion S; subst k.
      specialize (K s' s D G). pose proof (Z.div_mod s' s NZ). lia.
    + rewrite D, N in S. cbn [truthy_Z] in S. unfold truthy_Z in S. destruct (len l =? 0) eqn:Z0; [apply Z.eqb_eq in Z0; lia|].
      rewrite G in S. destruct (s =? 0); [discriminate|]. inversion S. lia.
  - destruct K as (K1 & K2 & K3). cbn [get_byte_size] in S. destruct So as [(_ & D0 & N0 & _) _]. unfold elems_byte_size in S.
    destruct H0 as [[HD M]|(HD & k0 & c & G & M & LB)].
    + destruct M as [(D & D1 & _)|(_ & x & Q & _)]; [|congruence]. rewrite D1 in S. specialize (D0 _ D1). unfold truthy_Z in S.
      destruct (len b =? 0) eqn:Z0; [apply Z.eqb_eq in Z0; lia|]. congruence.
    + unfold has_data_size in HD. apply orb_false_iff in HD. destruct HD as [HD _]. destruct (e_data_size e); [discriminate|].
      destruct M as [(D & D1 & _)|(_ & x & Q & _)]; [|congruence]. rewrite D1 in S. specialize (N0 _ D1). unfold truthy_Z in S.
      destruct (k0 =? 0) eqn:Z0; [apply Z.eqb_eq in Z0; lia|]. rewrite G in S. destruct (c =? 0); [discriminate|]. inversion S. lia.
  - destruct K as (_ & _ & K). congruence.
  - destruct K as (_ & _ & K). congruence.
Qed.

Lemma member_width orc mt bo ms x w b k : everywhere sound x -> proper w -> w <> VNone -> as_wide_as (type_of x) k ->
  member_bytes orc mt bo ms x w b -> len b = k.
Proof.
  intros E P N K B. destruct B as [b A S|vals b A _ W|A [W|H]].
  - destruct K. eapply stores_size; eauto.
  - eapply (writes_size orc (used_type (m_name mt) bo x)); eauto; [now apply sound_used|now apply wide_used].
  - contradiction.
  - exfalso. destruct K as [_ K]. destruct (type_of x); contradiction.
Qed.

(** Values that are read are proper. *)
Lemma proper_tuple l : proper (VTuple l) <-> Forall proper l.
Proof. cbn [proper]. induction l as [|a l IH]; [split; auto|]. rewrite IH. split; [intros [A B]; constructor; auto|intros H; inversion H; auto]. Qed.

Lemma proper_struct cls names l : Forall proper l -> proper (VStruct cls (combine names l)).
Proof.
  cbn [proper]. revert names. induction l as [|a l IH]; intros [|x names] P; cbn [combine]; auto.
  inversion P; subst. split; auto. now apply IH.
Qed.

Lemma reads_proper orc bs d off vals v n : reads orc bs d off vals v n -> 0 <= off -> everywhere known d -> proper v.
Proof.
  intros R. induction R using reads_ind' with
    (P0 := fun d off rs => 0 <= off -> everywhere known d -> Forall proper (map fst rs))
    (P1 := fun cls bo names vals done ms off rs => 0 <= off -> Forall (everywhere known) ms -> Forall proper (map value_of rs));
    intros Ho K; try exact I.
  - cbn [proper]. apply (stored_number_range _ _ 8). rewrite len_window; lia.
  - cbn [proper]. destruct H1. assumption.
  - assert (L : len (window bs off 16) = 16) by (rewrite len_window; lia). destruct (f_bo f); subst; auto; [exact I|].
    destruct H1 as (u & U & ->). cbn [proper]. rewrite uuid_swap_spec in U by (unfold len in L; lia). inversion U; subst.
    unfold len. rewrite uuid_swap_length; auto. unfold len in L. lia.
  - destruct K as [_ K]. apply proper_tuple. apply IHR; auto. now apply known_element.
  - destruct K as [_ K]. apply proper_tuple. apply (known_element e) in K. specialize (IHR Ho K). now rewrite map_app in IHR.
  - destruct K as [_ K]. apply proper_tuple. apply IHR; auto. now apply known_element.
  - destruct K as [_ K]. apply proper_tuple. apply IHR; auto. now apply known_element.
  - destruct K as [_ K]. apply go_forall in K. apply proper_struct. auto.
  - apply IHR2; auto. destruct K as (_ & _ & D & M). apply go_forall in M. rewrite Forall_forall in M.
    destruct H0 as [(b1 & a1 & -> & _)|(_ & ->)]; auto. apply M, in_or_app. right. now left.
  - constructor.
  - pose proof (reads_nonneg _ _ _ _ _ _ _ R K). cbn. constructor; auto. apply IHR0; auto. lia.
  - constructor.
  - inversion K; subst. pose proof (known_used cls bo m ltac:(assumption)) as Ku. pose proof (reads_nonneg _ _ _ _ _ _ _ R Ku). cbn. constructor; auto.
    apply IHR0; auto. lia.
  - inversion K; subst. cbn. constructor; auto. exact I.
Qed.

(** C69: what is written back after a member of fixed size got another value. *)
Lemma patched orc mt bo before x after m fuel bs off vals depth v n v' c c' b' k :
  extensional orc -> everywhere regular (DStructure mt bo (before ++ x :: after)) ->
  folds_back orc (DStructure mt bo (before ++ x :: after)) ->
  create orc (DStructure mt bo (before ++ x :: after)) None = Ok (Some m) -> 0 <= off <= len bs ->
  maps orc fuel m bs off vals depth v n ->
  everywhere no_single (DStructure mt bo (before ++ x :: after)) \/ no_nan v ->
  clean c -> sizes_agree orc (DStructure mt bo (before ++ x :: after)) vals (ctx_values c) v ->
  as_wide_as (type_of x) k -> proper v' -> clean c' ->
  (forall y, In y (before ++ after) -> py_getattr v' (dt_name y) = py_getattr v (dt_name y)) ->
  py_getattr v (dt_name x) <> VNone -> py_getattr v' (dt_name x) <> VNone ->
  fst (foldbs orc m v' c') = Ok (VBytes b') ->
  exists pre old new post, window bs off n = pre ++ old ++ post /\ b' = pre ++ new ++ post /\
    len old = k /\ len new = k /\
    member_bytes orc mt bo (before ++ x :: after) x (py_getattr v (dt_name x)) old /\
    member_bytes orc mt bo (before ++ x :: after) x (py_getattr v' (dt_name x)) new.
Proof.
  intros X E FB C Ho M NS Cl SA K P' Cl' S N N' F'. pose proof (regular_sound _ E) as So.
  assert (P : proper v).
  { eapply reads_proper; [eapply mapping_reads; eauto|lia|now apply sound_known]. }
  assert (F : fst (foldbs orc m v c) = Ok (VBytes (window bs off n))) by (eapply map_then_fold; eauto; lia).
  destruct (edit_written orc mt bo before x after m v v' c c' _ _ X So C P P' Cl Cl' S F F') as (pre & o & w & post & Q1 & Q2 & B1 & B2).
  pose proof (proj2 So) as Em. apply go_forall in Em. rewrite Forall_forall in Em. specialize (Em x ltac:(apply in_or_app; right; now left)).
  exists pre, o, w, post. split; auto. split; auto. split; [|split; [|auto]].
  - eapply member_width; [exact Em|exact (proper_getattr v (dt_name x) P)|exact N|exact K|exact B1].
  - eapply member_width; [exact Em|exact (proper_getattr v' (dt_name x) P')|exact N'|exact K|exact B2].
Qed.
