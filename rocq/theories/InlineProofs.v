(** Members described in place are read and written like members that refer to a
    definition. *)
From Coq Require Import String List ZArith Bool Lia.
From Verif Require Import Base PyVal PyStruct DataTypes ClassFactory DataMaps.
From Verif Require Import BytesProofs SpecPrim PrimProofs SpecMap SpecCreate SpecReads SpecFold SpecGrow SpecEdit SpecShort SpecWrites SpecInline
  CreateProofs StreamProofs SteadyProofs FoldProofs ReadsProofs FitProofs TellProofs GrowProofs EditProofs DisturbProofs WritesProofs TurnProofs.
From Verif Require SpecMake MakeProofs.
Import ListNotations.
Open Scope Z_scope.
#[local] Arguments Z.mul : simpl never.
#[local] Arguments Z.add : simpl never.
#[local] Arguments Z.div : simpl never.

Definition plain_member (x : dtype) : dtype :=
  match x with
  | DMember m b c _ vs i => DMember (label (m_name m)) b (truthy_str c) None (supported vs) (plain i)
  | DBoolean _ _ _ | DCharacter _ | DFloat _ | DInteger _ _ | DUUID _ | DElems _ _ _ =>
      DMember (label (dt_name x)) (order_or_native x) None None None (plain x)
  | DPadding m b a => DPadding (label (m_name m)) b a
  | _ => x
  end.

Lemma plain_structure m bo ms : plain (DStructure m bo ms) = DStructure (label (m_name m)) bo (map plain_member ms).
Proof. reflexivity. Qed.

Lemma order_plain d : dt_byte_order (plain d) = dt_byte_order d.
Proof. destruct d; reflexivity. Qed.

Lemma order_member d : dt_byte_order (plain_member d) = dt_byte_order d.
Proof. destruct d; reflexivity. Qed.

Lemma truthy_twice c : truthy_str (truthy_str c) = truthy_str c.
Proof. destruct c as [[|]|]; reflexivity. Qed.

Lemma composite_plain d : is_composite (plain d) = is_composite d /\ is_composite (plain_member d) = is_composite d.
Proof.
  induction d using dtype_rect'; cbn; auto. destruct IHd as [IH _]. split; auto. rewrite truthy_twice, IH. reflexivity.
Qed.

Lemma size_plain d : get_byte_size (plain d) = get_byte_size d /\ get_byte_size (plain_member d) = get_byte_size d.
Proof.
  induction d using dtype_rect'; cbn; auto.
  - destruct IHd as [-> _]. auto.
  - assert (G : forall acc, (fix go (l : list dtype) (acc : Z) : option Z :=
             match l with [] => Some acc | m :: r => match struct_size_step acc (pad_align m) (get_byte_size m) with Some a => go r a | None => None end end) (map plain_member ms) acc
        = (fix go (l : list dtype) (acc : Z) : option Z :=
             match l with [] => Some acc | m :: r => match struct_size_step acc (pad_align m) (get_byte_size m) with Some a => go r a | None => None end end) ms acc).
    { induction H as [|x l [_ Hx] Hl IH]; intros acc; cbn [map]; auto. rewrite Hx. replace (pad_align (plain_member x)) with (pad_align x) by now destruct x.
      destruct (struct_size_step _ _ _); auto. }
    split; auto. destruct ms; [reflexivity|]. exact (G 0).
  - destruct IHd as [IH _]. split; auto. rewrite truthy_twice, IH. reflexivity.
Qed.

Lemma levels_plain d : levels (plain d) = levels d /\ levels (plain_member d) = levels d.
Proof.
  induction d using dtype_rect'; cbn; auto.
  - destruct IHd as [-> _]. auto.
  - split; auto. f_equal. change (fold_right (fun m a => Z.max (levels m) a) 0 (map plain_member ms) = fold_right (fun m a => Z.max (levels m) a) 0 ms).
    induction H as [|x l [_ Hx] Hl IH]; cbn [map fold_right]; auto. now rewrite Hx, IH.
  - destruct IHd as [IH _]. auto.
Qed.

Lemma same_plain_size d d' : plain d' = plain d -> get_byte_size d' = get_byte_size d.
Proof. intros E. rewrite <- (proj1 (size_plain d')), E. apply size_plain. Qed.
Lemma same_plain_order d d' : plain d' = plain d -> dt_byte_order d' = dt_byte_order d.
Proof. intros E. now rewrite <- (order_plain d'), E, order_plain. Qed.
Lemma same_plain_composite d d' : plain d' = plain d -> is_composite d' = is_composite d.
Proof. intros E. rewrite <- (proj1 (composite_plain d')), E. apply composite_plain. Qed.
Lemma same_plain_levels d d' : plain d' = plain d -> levels d' = levels d.
Proof. intros E. rewrite <- (proj1 (levels_plain d')), E. apply levels_plain. Qed.

(** Members of the same plain form. *)
Lemma member_alike x x' : plain_member x' = plain_member x ->
  dt_name x' = dt_name x /\ truthy_str (member_cond x') = truthy_str (member_cond x) /\
  supported (member_values x') = supported (member_values x) /\ plain (type_of x') = plain (type_of x).
Proof.
  intros E. destruct x, x'; cbn in E |- *; try discriminate E; injection E; intros; subst; unfold dt_name in *; cbn in *; repeat split; congruence.
Qed.

Lemma names_alike ms ms' : map plain_member ms' = map plain_member ms -> map dt_name ms' = map dt_name ms.
Proof.
  revert ms'. induction ms as [|x l IH]; intros [|x' l'] E; try discriminate E; auto. injection E as E1 E2.
  cbn [map]. f_equal; [apply (member_alike _ _ E1)|now apply IH].
Qed.

Lemma copy_plain sname n b d d' : plain d' = plain d -> 
  plain (set_name_bo (String.append n (String.append sname (String.append n (dt_name d')))) b d') =
  plain (set_name_bo (String.append n (String.append sname (String.append n (dt_name d)))) b d).
Proof.
  intros E. destruct d, d'; try discriminate E; unfold dt_name; cbn in E |- *; injection E; intros; subst; unfold fixed_plain; cbn; try reflexivity; try congruence.
  all: try match goal with H : m_name _ = m_name _ |- _ => now rewrite H end.
Qed.

Lemma used_plain sname bo x x' : plain_member x' = plain_member x -> plain (used_type sname bo x') = plain (used_type sname bo x).
Proof.
  intros E. apply member_alike in E. destruct E as (_ & _ & _ & E). unfold used_type. rewrite (same_plain_order _ _ E).
  destruct bo; auto; destruct (dt_byte_order (type_of x)) as [[]|]; auto; now apply copy_plain.
Qed.

Lemma elems_plain k e el k' e' el' : plain (DElems k' e' el') = plain (DElems k e el) ->
  k' = k /\ e_bo e' = e_bo e /\ e_data_size e' = e_data_size e /\ e_data_size_expr e' = e_data_size_expr e /\
  e_terminator e' = e_terminator e /\ e_number e' = e_number e /\ e_number_expr e' = e_number_expr e /\
  e_encoding e' = e_encoding e /\ plain el' = plain el.
Proof. intros E. cbn in E. injection E. intros. repeat split; congruence. Qed.

Lemma element_plain e e' d d' : e_bo e' = e_bo e -> plain d' = plain d -> plain (element_type e' d') = plain (element_type e d).
Proof.
  intros Eb E. unfold element_type. rewrite Eb, (same_plain_order _ _ E), (same_plain_composite _ _ E).
  destruct (e_bo e); auto; destruct (dt_byte_order d) as [[]|] eqn:B; auto; destruct (is_composite d) eqn:K; auto.
  all: destruct d, d'; try discriminate K; try discriminate E; try discriminate B; cbn in E |- *; injection E; intros; subst; unfold fixed_plain; cbn; try reflexivity; congruence.
Qed.

Lemma stream_size_plain orc k e el e' el' vals n : plain (DElems k e' el') = plain (DElems k e el) ->
  stream_size orc e el vals n -> stream_size orc e' el' vals n.
Proof.
  intros E. apply elems_plain in E. destruct E as (_ & _ & Es & Ex & _ & En & Ey & _ & E).
  unfold stream_size, has_data_size. now rewrite Es, Ex, En, Ey, (same_plain_size _ _ E).
Qed.

Lemma unsized_plain k e el e' el' : plain (DElems k e' el') = plain (DElems k e el) -> (unsized_stream e' el' <-> unsized_stream e el).
Proof.
  intros E. apply elems_plain in E. destruct E as (_ & _ & Es & Ex & _ & En & Ey & _ & E).
  unfold unsized_stream, has_data_size, has_number. now rewrite Es, Ex, En, Ey, (same_plain_size _ _ E).
Qed.

Lemma stream_kind e el e' el' k : plain (DElems k e' el') = plain (DElems k e el) -> plain (DElems KStream e' el') = plain (DElems KStream e el).
Proof. intros E. apply elems_plain in E. destruct E as (_ & Eb & Es & Ex & Et & En & Ey & Ec & E). cbn. now rewrite Eb, Es, Ex, Et, En, Ey, Ec, E. Qed.

Lemma allowed_plain x x' v : supported (member_values x') = supported (member_values x) -> allowed x v -> allowed x' v.
Proof.
  unfold allowed, supported. destruct (member_values x) as [[|]|], (member_values x') as [[|]|]; try discriminate; auto. now intros [= -> ->].
Qed.

Lemma plain_reads orc bs d off e v n : reads orc bs d off e v n -> forall d', plain d' = plain d -> reads orc bs d' off e v n.
Proof.
  intros Q. induction Q using reads_ind' with
    (P0 := fun d off rs => forall d', plain d' = plain d -> reads_elements orc bs d' off rs)
    (P1 := fun cls bo names vals done ms off rs => forall ms', map plain_member ms' = map plain_member ms ->
       reads_members orc bs cls bo names vals done ms' off rs);
    try match goal with |- forall (_ : dtype), _ -> reads _ _ _ _ _ _ _ => intros d' E; destruct d'; try discriminate E end.
  - destruct f0, f; cbn in E |- *. injection E as -> -> -> ->. apply (ReadInteger _ _ (mkFixed _ _ _ _)); [exact H|exact H0|exact H1].
  - destruct f0, f; cbn in E |- *. injection E as -> -> ->. apply (ReadDouble _ _ (mkFixed _ _ _ _)); [exact H|exact H0].
  - destruct f0, f; cbn in E |- *. injection E as -> -> ->. apply (ReadSingle _ _ (mkFixed _ _ _ _)); [exact H|exact H0|exact H1].
  - destruct f0, f; cbn in E |- *. injection E as -> -> -> -> ->. apply (ReadBoolean _ _ (mkFixed _ _ _ _)); [exact H|exact H0|exact H1|exact H2].
  - destruct f0, f; cbn in E |- *. injection E as -> -> ->. eapply (ReadCharacter _ _ (mkFixed _ _ _ _)); [exact H|exact H0|exact H1|exact H2|exact H3].
  - destruct f0, f; cbn in E |- *. injection E as -> -> ->. apply (ReadUUID _ _ (mkFixed _ _ _ _)); [exact H|exact H0|exact H1].
  - cbn in E. injection E as -> ->. apply ReadPadding; assumption.
  - apply elems_plain in E. destruct E as (-> & Eb & Es & Ex & Et & En & Ey & Ec & E).
    pose proof (IHQ _ (element_plain _ _ _ _ Eb E)) as R.
    apply ReadCounted; [unfold has_data_size in *; now rewrite Es, Ex|now rewrite Et|now rewrite En, Ey|exact R].
  - apply elems_plain in E. destruct E as (-> & Eb & Es & Ex & Et & En & Ey & Ec & E).
    pose proof (IHQ _ (element_plain _ _ _ _ Eb E)) as R.
    eapply (ReadTerminated _ _ _ _ t); [unfold has_data_size in *; now rewrite Es, Ex|now rewrite Et|assumption|assumption|exact R].
  - apply elems_plain in E. destruct E as (-> & Eb & Es & Ex & Et & En & Ey & Ec & E).
    pose proof (IHQ _ (element_plain _ _ _ _ Eb E)) as R.
    apply (ReadSized _ _ _ _ s b); [unfold has_data_size in *; now rewrite Es, Ex|rewrite (same_plain_size _ _ E); assumption|assumption|now rewrite Es, Ex|assumption|exact R|assumption].
  - apply elems_plain in E. destruct E as (-> & Eb & Es & Ex & Et & En & Ey & Ec & E).
    pose proof (IHQ _ (element_plain _ _ _ _ Eb E)) as R. pose proof (same_plain_size _ _ E) as Z. destruct d'; try discriminate E.
    apply elems_plain in E. destruct E as (-> & _ & _ & _ & Et' & _).
    apply (ReadSizedVariable _ _ _ _ _ _ s t); [unfold has_data_size in *; now rewrite Es, Ex|now rewrite Z|now rewrite Es, Ex|now rewrite Et'|exact R|assumption|assumption].
  - assert (k = KStream) as -> by (apply elems_plain in E; apply E). apply ReadStream; auto.
    + now rewrite (unsized_plain _ _ _ _ _ E).
    + now apply (stream_size_plain _ _ _ _ _ _ _ _ E).
  - assert (k0 = KStream) as -> by (apply elems_plain in E; apply E). apply ReadStreamTerminated; auto.
    + now rewrite (unsized_plain _ _ _ _ _ E).
    + apply elems_plain in E. destruct E as (_ & _ & _ & _ & -> & _). assumption.
  - assert (k = KString) as -> by (apply elems_plain in E; apply E). pose proof (IHQ _ (stream_kind _ _ _ _ _ E)) as R.
    apply elems_plain in E. destruct E as (_ & _ & _ & _ & Et & _ & _ & Ec & _).
    eapply ReadString; [exact R|rewrite Et; eassumption|rewrite Ec; eassumption].
  - rewrite !plain_structure in E. injection E as En -> E. rewrite <- En, <- (names_alike _ _ E). apply ReadStructure.
    rewrite En, (names_alike _ _ E). now apply IHQ.
  - cbn in E. injection E; intros; subst. eapply ReadGroup; eauto.
  - intros d' E. constructor.
  - intros d' E. constructor; auto.
  - intros [|? ?] E; [|discriminate E]. constructor.
  - intros [|m' ms'] E; [discriminate E|]. injection E as Em E. pose proof (used_plain cls bo _ _ Em) as Eu.
    apply member_alike in Em. destruct Em as (Nm & Cm & Vm & _). apply ReadPresent; auto.
    + unfold condition_is in *. now rewrite Cm.
    + eapply allowed_plain; eauto.
  - intros [|m' ms'] E; [discriminate E|]. injection E as Em E.
    apply member_alike in Em. destruct Em as (Nm & Cm & Vm & _). apply ReadAbsent; auto.
    unfold condition_is in *. now rewrite Cm.
Qed.

(** C80 *)
Lemma plain_maps orc d d' m m' bs off vals depth v n :
  extensional orc -> plain d' = plain d -> everywhere regular d -> everywhere regular d' ->
  create orc d None = Ok (Some m) -> create orc d' None = Ok (Some m') ->
  0 <= off <= len bs -> depth + levels d <= 11 ->
  ((exists fuel, maps orc fuel m bs off vals depth v n) <-> (exists fuel, maps orc fuel m' bs off vals depth v n)).
Proof.
  intros X U E E' C C' Ho D.
  assert (D' : depth + levels d' <= 11) by (rewrite (same_plain_levels _ _ U); exact D).
  rewrite <- (reading_maps _ _ _ _ _ _ depth _ _ X E C Ho D), <- (reading_maps _ _ _ _ _ _ depth _ _ X E' C' Ho D').
  split; intros R; eapply plain_reads; eauto.
Qed.

(** *** Folding *)

Lemma stores_plain en d v b : stores en d v b -> forall d', plain d' = plain d -> stores en d' v b.
Proof.
  intros S d' E. destruct S; destruct d'; try discriminate E; cbn in E; injection E; intros; subst.
  - eapply StoreInteger; eauto; congruence.
  - eapply StoreBoolean; eauto; congruence.
  - eapply StoreCharacter; eauto; congruence.
  - eapply StoreDouble; eauto; congruence.
  - eapply StoreSingle; eauto; congruence.
Qed.

Lemma stores_all_plain en ds vs b : stores_all en ds vs b -> forall ds', map plain ds' = map plain ds -> stores_all en ds' vs b.
Proof.
  induction 1 as [|d ds v vs b bs S _ IH]; intros [|d' ds'] E; try discriminate E; [constructor|]. injection E as E1 E2.
  constructor; auto. eapply stores_plain; eauto.
Qed.

Lemma types_alike ms ms' : map plain_member ms' = map plain_member ms -> map plain (map type_of ms') = map plain (map type_of ms).
Proof.
  revert ms'. induction ms as [|x l IH]; intros [|x' l'] E; try discriminate E; auto. injection E as E1 E2.
  cbn [map]. f_equal; [apply (member_alike _ _ E1)|now apply IH].
Qed.

Lemma one_go_plain ms : forall bo ms', map plain_member ms' = map plain_member ms -> SpecMake.one_go bo ms -> SpecMake.one_go bo ms'.
Proof.
  induction ms as [|x l IH]; intros bo [|x' l'] E; try discriminate E; auto. injection E as E1 E2.
  cbn [SpecMake.one_go]. rewrite <- (proj2 (composite_plain x')), <- (order_member x'), E1, (proj2 (composite_plain x)), order_member.
  replace (is_padding x') with (is_padding x) by (destruct x, x'; try discriminate E1; reflexivity).
  intros (A & B & G). split; [assumption|]. split; [assumption|]. intros b2 Hb. destruct (G b2 Hb) as [G1 G2]. split; [exact G1|now apply (IH b2 l')].
Qed.

Lemma at_once_plain d d' : plain d' = plain d -> at_once d -> at_once d'.
Proof.
  intros E. destruct d, d'; try discriminate E; try (intros; exact I); try (intros []; fail).
  - apply elems_plain in E. destruct E as (-> & _ & _ & Ex & Et & _ & Ey & _ & E). cbn [at_once]. destruct k; auto.
    now rewrite (same_plain_composite _ _ E), Ex, Et, Ey.
  - rewrite !plain_structure in E. injection E as _ -> E. cbn [at_once]. now apply one_go_plain.
Qed.

Lemma plain_writes orc d vals v b : writes orc d vals v b -> forall d', plain d' = plain d -> writes orc d' vals v b.
Proof.
  apply (writes_ind' orc (fun d vals v b => forall d', plain d' = plain d -> writes orc d' vals v b)
    (fun cls bo v ms b => forall ms', map plain_member ms' = map plain_member ms -> writes_members orc cls bo v ms' b)); clear d vals v b.
  - intros d bo vals v b N O S d' E. apply (WriteNumber orc _ bo).
    + destruct d, d'; try discriminate E; exact N.
    + now rewrite (same_plain_order _ _ E).
    + eapply stores_plain; eauto.
  - intros f fv tv x z vals b V S d' E. pose proof (same_plain_order _ _ E) as B. destruct d'; try discriminate E. cbn in B. injection B as B.
    assert (E0 := E). cbn in E0. injection E0. intros. subst. apply (WriteBoolean orc _ fv tv x z); auto. rewrite B. eapply stores_plain; eauto.
  - intros f z vals b S d' E. pose proof (same_plain_order _ _ E) as B. destruct d'; try discriminate E. cbn in B. injection B as B.
    apply WriteCharacter. rewrite B. eapply stores_plain; eauto.
  - intros f z vals b S d' E. pose proof (same_plain_order _ _ E) as B. destruct d'; try discriminate E. cbn in B. injection B as B.
    apply WriteCharacterByte. rewrite B. eapply stores_plain; eauto.
  - intros f u vals b H d' E. pose proof (same_plain_order _ _ E) as B. destruct d'; try discriminate E. cbn in B. injection B as B.
    apply WriteUUID. now rewrite B.
  - intros mt bo a vals b d' E. destruct d'; try discriminate E. apply WritePadding.
  - intros e el bo l vals v b A N H O S d' E. pose proof (at_once_plain _ _ E A) as A'. destruct d'; try discriminate E.
    apply elems_plain in E. destruct E as (-> & Eb & Es & _ & _ & En & _ & _ & E).
    apply (WriteSequence orc _ _ bo l); auto.
    + unfold holds_elements in *. now rewrite Es, En, (same_plain_size _ _ E).
    + rewrite (same_plain_order (element_type e el)); auto using element_plain.
    + eapply stores_all_plain; [exact S|]. rewrite !map_map. apply map_ext. auto.
  - intros e el vals b U H d' E. destruct d'; try discriminate E. assert (k = KStream) as -> by (apply elems_plain in E; apply E).
    apply WriteStream; [now rewrite (unsized_plain _ _ _ _ _ E)|now apply (stream_size_plain _ _ _ _ _ _ _ _ E)].
  - intros e el t vals b U H d' E. destruct d'; try discriminate E. assert (k = KStream) as -> by (apply elems_plain in E; apply E).
    apply WriteStreamTerminated; [now rewrite (unsized_plain _ _ _ _ _ E)|]. apply elems_plain in E. destruct E as (_ & _ & _ & _ & -> & _). assumption.
  - intros e el t vals b U H N d' E. destruct d'; try discriminate E. assert (k = KStream) as -> by (apply elems_plain in E; apply E).
    apply WriteStreamAdded; auto; [now rewrite (unsized_plain _ _ _ _ _ E)|]. apply elems_plain in E. destruct E as (_ & _ & _ & _ & -> & _). assumption.
  - intros e el s l vals b H W IH d' E. destruct d'; try discriminate E. assert (k = KString) as -> by (apply elems_plain in E; apply E).
    apply (WriteString orc _ _ s l); [|apply IH; eapply stream_kind; eauto].
    apply elems_plain in E. destruct E as (_ & _ & _ & _ & _ & _ & _ & -> & _). assumption.
  - intros mt bo ms vals v b A S d' E. pose proof (at_once_plain _ _ E A) as A'. destruct d'; try discriminate E.
    rewrite !plain_structure in E. injection E as _ -> E. apply WriteStructureOnce; auto.
    replace (map (fun m0 => py_getattr v (dt_name m0)) members) with (map (py_getattr v) (map dt_name members)) by (rewrite map_map; reflexivity).
    rewrite (names_alike _ _ E), map_map. eapply stores_all_plain; [exact S|now apply types_alike].
  - intros mt bo ms vals v b A W IH d' E.
    assert (A' : ~ at_once d') by (intros Q; apply A; eapply at_once_plain; [|exact Q]; auto). destruct d'; try discriminate E.
    rewrite !plain_structure in E. injection E as Nm -> E. apply WriteStructure; auto. rewrite Nm. auto.
  - intros cls bo v [|? ?] E; [|discriminate E]. constructor.
  - intros cls bo v m ms b H W IH [|m' ms'] E; [discriminate E|]. injection E as Em E. apply WriteAbsent; auto.
    pose proof (used_plain cls bo _ _ Em) as Eu. apply member_alike in Em. destruct Em as (-> & _). destruct H as [H|H]; [now left|right].
    destruct (used_type cls bo m), (used_type cls bo m'); try discriminate Eu; auto.
  - intros cls bo v m ms b bs N W IH W2 IH2 [|m' ms'] E; [discriminate E|]. injection E as Em E.
    pose proof (used_plain cls bo _ _ Em) as Eu. apply member_alike in Em. destruct Em as (Nm & _).
    apply WritePresent; rewrite ?Nm; auto.
Qed.

Lemma plain_folds orc d d' m m' v c b :
  extensional orc -> plain d' = plain d -> everywhere sound d -> everywhere sound d' ->
  create orc d None = Ok (Some m) -> create orc d' None = Ok (Some m') -> proper v -> clean c ->
  (fst (foldbs orc m v c) = Ok (VBytes b) <-> fst (foldbs orc m' v c) = Ok (VBytes b)).
Proof.
  intros X U E E' C C' P Cl.
  rewrite (folding_writes orc d m v c b X E C P Cl), (folding_writes orc d' m' v c b X E' C' P Cl).
  split; intros R; eapply plain_writes; eauto.
Qed.

(** *** Creation *)

Lemma described_copy n b d : described d -> described (set_name_bo n b d).
Proof. destruct d; auto. Qed.

Lemma described_element e el : everywhere described el -> everywhere described (element_type e el).
Proof.
  intros K. unfold element_type. destruct (e_bo e); auto; destruct (dt_byte_order el) as [[]|]; auto; destruct (is_composite el); auto;
    destruct el; destruct K as [K K']; (split; [exact K|exact K']).
Qed.

Lemma ordered_plain d d' : plain d' = plain d -> SpecMake.ordered d -> SpecMake.ordered d'.
Proof. intros E. unfold SpecMake.ordered. now rewrite (same_plain_order _ _ E). Qed.

Lemma unit_plain d d' : plain d' = plain d -> SpecMake.unit_size d' = SpecMake.unit_size d.
Proof.
  intros E. destruct d, d'; try discriminate E; auto; cbn in E; injection E; intros; subst; unfold SpecMake.unit_size; match goal with H : f_size _ = f_size _ |- _ => now rewrite H end.
Qed.

Lemma padding_plain d d' : plain d' = plain d -> is_padding d' = is_padding d.
Proof. intros E. destruct d, d'; try discriminate E; auto. Qed.

Lemma fits_plain ms ms' : map plain_member ms' = map plain_member ms -> SpecMake.one_go_fits ms -> SpecMake.one_go_fits ms'.
Proof.
  intros E [A B].
  assert (F : Forall2 (fun x x' => plain_member x' = plain_member x) ms ms').
  { clear A B. revert ms' E. induction ms as [|x l IH]; intros [|x' l'] E; try discriminate E; constructor; injection E; auto. }
  split.
  - intros before m after -> Sm. apply Forall2_app_inv_r in F. destruct F as (b0 & r0 & F1 & F2 & ->).
    inversion F2 as [|m0 ? a0 ? Em F3]; subst. apply member_alike in Em. destruct Em as (_ & _ & _ & Em).
    destruct (A b0 m0 a0 eq_refl) as (x & I & U).
    { destruct (type_of m0), (type_of m); try discriminate Em; auto. }
    clear -F1 I U. induction F1 as [|y y' l l' Ey F IH]; [destruct I|]. destruct I as [->|I].
    + exists y'. split; [now left|]. apply member_alike in Ey. destruct Ey as (_ & _ & _ & Ey). now rewrite (unit_plain _ _ Ey).
    + destruct (IH I) as (z & I2 & Z2). exists z. split; [now right|auto].
  - intros sizes F2. apply B. clear A B E. revert sizes F2. induction F as [|y y' l l' Ey F IH]; intros sizes F2; inversion F2; subst; constructor; auto.
    apply member_alike in Ey. destruct Ey as (_ & _ & _ & Ey). now rewrite <- (unit_plain _ _ Ey).
Qed.

Lemma in_alike ms ms' m' : map plain_member ms' = map plain_member ms -> In m' ms' -> exists m, In m ms /\ plain_member m' = plain_member m.
Proof.
  revert ms'. induction ms as [|x l IH]; intros [|x' l'] E I; try discriminate E; [destruct I|]. injection E as E1 E2. destruct I as [->|I].
  - exists x. split; [now left|auto].
  - destruct (IH l' E2 I) as (m & A & B). exists m. split; [now right|auto].
Qed.

Lemma mappable_plain orc d : SpecMake.mappable orc d -> forall d', plain d' = plain d -> everywhere described d' -> SpecMake.mappable orc d'.
Proof.
  induction 1 as [| | | | | | | | | | | |k e el O M IH R1 R2 K|mt bo ms A1 A2 A3 A4 A5 A6 A7 A8 A9 IH A10|]; intros d' E D;
    destruct d'; try discriminate E.
  - cbn in E. injection E. intros. subst. constructor. assumption.
  - constructor.
  - constructor.
  - constructor.
  - constructor.
  - constructor.
  - constructor.
  - constructor.
  - constructor.
  - constructor.
  - constructor.
  - constructor.
  - apply elems_plain in E. destruct E as (-> & Eb & Es & Ex & Et & En & Ey & Ec & E). destruct D as [_ D].
    apply SpecMake.MakeElems; rewrite ?Ex, ?Ey; auto.
    + now apply (ordered_plain _ _ E).
    + apply IH; [now apply element_plain|now apply described_element].
    + destruct k; try (rewrite (same_plain_composite _ _ E); exact K).
      unfold SpecMake.seq_one_go, SpecMake.seq_one_go_fits in *. now rewrite Es, Ex, Et, En, Ey, (same_plain_composite _ _ E), (padding_plain _ _ E), (unit_plain _ _ E), (same_plain_size _ _ E).
  - rewrite !plain_structure in E. injection E as Nm -> E. pose proof (names_alike _ _ E) as Ns. destruct D as [D1 D2]. rewrite everywhere_list in D2.
    apply SpecMake.MakeStructure; rewrite ?Nm, ?Ns; auto.
    + intros ->. destruct ms; [now apply A2|discriminate E].
    + intros m0 I. destruct (in_alike _ _ _ E I) as (x & Ix & Px). destruct (A8 x Ix) as [Q|Q]; [now left|right].
      apply member_alike in Px. eapply ordered_plain; [|exact Q]. apply Px.
    + intros m0 I. destruct (in_alike _ _ _ E I) as (x & Ix & Px). apply (IH x Ix); [now apply used_plain|].
      apply same_used; [exact described_copy|]. rewrite Forall_forall in D2. now apply D2.
    + intros G. apply (fits_plain ms); auto. apply A10. eapply one_go_plain; [|exact G]. auto.
  - cbn in E. injection E. intros. subst. econstructor; eauto.
Qed.

Lemma has_map_plain d d' : plain d' = plain d -> SpecMake.has_map d -> SpecMake.has_map d'.
Proof. intros E. destruct d, d'; try discriminate E; auto. Qed.

Lemma plain_created orc d d' : plain d' = plain d ->
  everywhere sound d -> everywhere SpecMake.shaped d -> everywhere sound d' -> everywhere SpecMake.shaped d' -> everywhere described d' ->
  (exists m, create orc d None = Ok (Some m)) -> exists m, create orc d' None = Ok (Some m).
Proof.
  intros E S1 S2 S3 S4 D (m & C).
  assert (M : SpecMake.mappable orc d) by (apply (MakeProofs.creation_succeeds orc d S1 S2); eauto).
  apply (mappable_plain orc d M d' E) in D. apply (MakeProofs.creation_succeeds orc d' S3 S4) in D. destruct D as ([m'|] & C'); eauto.
  exfalso. apply MakeProofs.creation_none in C'. apply C'. apply (has_map_plain _ _ E).
  destruct d; cbn; auto; cbn in C; discriminate C.
Qed.
