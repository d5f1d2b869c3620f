(** Creation of maps. *)
From Coq Require Import String Ascii List ZArith Bool Lia.
From Verif Require Import Base PyVal PyStruct DataTypes ClassFactory DataMaps.
From Verif Require Import BytesProofs ContainerProofs SpecPrim SpecMap SpecCreate MapProofs StructProofs.
Import ListNotations.
Open Scope Z_scope.

(** ** Induction on definitions *)

Definition on_def (P : dtype -> Prop) (o : option dtype) : Prop :=
  match o with Some m => P m | None => True end.

Lemma dtype_rect' (P : dtype -> Prop) :
  (forall f a b, P (DBoolean f a b)) ->
  (forall f, P (DCharacter f)) ->
  (forall f, P (DFloat f)) ->
  (forall f u, P (DInteger f u)) ->
  (forall f, P (DUUID f)) ->
  (forall m bo a, P (DPadding m bo a)) ->
  (forall k e el, P el -> P (DElems k e el)) ->
  (forall m bo ms, Forall P ms -> P (DStructure m bo ms)) ->
  (forall m bo ms, Forall P ms -> P (DUnion m bo ms)) ->
  (forall m bo c dt v i, P i -> P (DMember m bo c dt v i)) ->
  (forall m v, P (DConstant m v)) ->
  (forall m e, P (DEnumeration m e)) ->
  (forall m bo l, P (DFormat m bo l)) ->
  (forall m b ms, P b -> Forall P ms -> P (DFamily m b ms)) ->
  (forall m bo b i df ms, P b -> on_def P df -> Forall P ms -> P (DGroup m bo b i df ms)) ->
  forall d, P d.
Proof.
  intros H1 H2 H3 H4 H5 H6 H7 H8 H9 H10 H11 H12 H13 H14 H15.
  fix IH 1. intros d. destruct d.
  - apply H1.
  - apply H2.
  - apply H3.
  - apply H4.
  - apply H5.
  - apply H6.
  - apply H7. apply IH.
  - apply H8. induction members; constructor; [apply IH|assumption].
  - apply H9. induction members; constructor; [apply IH|assumption].
  - apply H10. apply IH.
  - apply H11.
  - apply H12.
  - apply H13.
  - apply H14; [apply IH|]. induction members; constructor; [apply IH|assumption].
  - apply H15; [apply IH| |].
    + destruct default as [x|]; [exact (IH x)|exact I].
    + induction members; constructor; [apply IH|assumption].
Qed.

Lemma go_forall P (l : list dtype) :
  (fix go (l : list dtype) : Prop :=
     match l with [] => True | m :: r => everywhere P m /\ go r end) l <-> Forall (everywhere P) l.
Proof.
  induction l as [|m l IH]; cbn; split; intros H; auto.
  - destruct H. constructor; tauto.
  - inversion H; tauto.
Qed.

Lemma everywhere_here P d : everywhere P d -> P d.
Proof. destruct d; cbn; tauto. Qed.

(** ** Copies with another byte order *)

Lemma prim_code_ov n bo d : prim_code (set_name_bo n bo d) = prim_code d.
Proof. destruct d; try reflexivity. Qed.

Lemma set_name_bo_name n bo d : dt_name (set_name_bo n bo d) = n.
Proof. destruct d; reflexivity. Qed.

Lemma set_name_bo_size n bo d : get_byte_size (set_name_bo n bo d) = get_byte_size d.
Proof. destruct d; reflexivity. Qed.

Lemma apply_ov_size ov d : get_byte_size (apply_ov ov d) = get_byte_size d.
Proof. destruct ov as [[n bo]|]; [apply set_name_bo_size|reflexivity]. Qed.

Lemma set_name_bo_composite n bo d : is_composite (set_name_bo n bo d) = is_composite d.
Proof. destruct d; reflexivity. Qed.

Lemma create_copy orc d n bo : create orc d (Some (n, bo)) = create orc (set_name_bo n bo d) None.
Proof.
  destruct d; reflexivity.
Qed.

(** ** Each member has the map of its own data type *)

Lemma override_used sname sbo m ov : member_override sname sbo (type_of m) = Ok ov ->
  apply_ov ov (type_of m) = used_type sname sbo m.
Proof.
  unfold member_override, used_type. destruct sbo; cbn [is_native bo_eqb].
  - intros H. inversion H. reflexivity.
  - destruct (dt_byte_order (type_of m)) as [[]|]; cbn; intros H; inversion H; reflexivity.
  - destruct (dt_byte_order (type_of m)) as [[]|]; cbn; intros H; inversion H; reflexivity.
Qed.

Lemma unwrap_type m : unwrap_member m = type_of m.
Proof. reflexivity. Qed.

Lemma inner_maker_type orc m ov : inner_maker orc m ov = create orc (type_of m) ov.
Proof. destruct m; reflexivity. Qed.

Lemma maker_used orc sname sbo m ov : member_override sname sbo (type_of m) = Ok ov ->
  inner_maker orc m ov = create orc (used_type sname sbo m) None.
Proof.
  intros H. rewrite inner_maker_type. rewrite <- (override_used _ _ _ _ H).
  destruct ov as [[n bo]|]; [apply create_copy|reflexivity].
Qed.

Lemma ov_name_used sname sbo m ov : member_override sname sbo (type_of m) = Ok ov ->
  ov_name ov (dt_name (type_of m)) = dt_name (used_type sname sbo m).
Proof.
  intros H. rewrite <- (override_used _ _ _ _ H). destruct ov as [[n bo]|]; [|reflexivity].
  cbn. now rewrite set_name_bo_name.
Qed.

(** The maps of the members are created from the definitions of some members,
    and from their own if no names clash. *)
Lemma member_maps_spec orc sname sbo all ms : forall cache attrs,
  (forall k mp, dict_get k cache = Some mp -> exists m, In m all /\
     dt_name (used_type sname sbo m) = k /\ create orc (used_type sname sbo m) None = Ok mp) ->
  (forall m, In m ms -> In m all) ->
  member_maps sname sbo (map (fun m => (m, inner_maker orc m)) ms) cache = Ok attrs ->
  Forall2 (fun m a => fst a = dt_name m /\ exists m', In m' all /\
     dt_name (used_type sname sbo m') = dt_name (used_type sname sbo m) /\
     create orc (used_type sname sbo m') None = Ok (snd a)) ms attrs.
Proof.
  induction ms as [|m ms IH]; intros cache attrs HC HI H; cbn in H.
  - inversion H. constructor.
  - rewrite unwrap_type in H. apply bind_ok in H. destruct H as (ov & Ho & H).
    rewrite (ov_name_used _ _ _ _ Ho) in H.
    destruct (dict_get (dt_name (used_type sname sbo m)) cache) as [mp|] eqn:G.
    + apply bind_ok in H. destruct H as (rest & R & H). inversion H; subst.
      constructor.
      * cbn. split; auto.
      * apply (IH cache); auto. intros m' Hm'. apply HI. now right.
    + apply bind_ok in H. destruct H as (mp & Hm & H).
      apply bind_ok in H. destruct H as (rest & R & H). inversion H; subst.
      rewrite (maker_used _ _ _ _ _ Ho) in Hm. constructor.
      * cbn. split; auto. exists m. split; auto. apply HI. now left.
      * apply (IH _ _) in R; auto.
        -- intros k mp' Hk. rewrite dict_get_set in Hk.
           destruct (String.eqb_spec k (dt_name (used_type sname sbo m))).
           ++ inversion Hk; subst. exists m. split; auto. apply HI. now left.
           ++ auto.
        -- intros m' Hm'. apply HI. now right.
Qed.

Lemma Forall2_weaken {A B} (P Q : A -> B -> Prop) l1 l2 :
  (forall a b, P a b -> Q a b) -> Forall2 P l1 l2 -> Forall2 Q l1 l2.
Proof. intros H F. induction F; constructor; auto. Qed.

(** Everything creation says about a structure map. *)
Lemma created_shape orc mt bo ms ov lin d cls ms' attrs op :
  create orc (DStructure mt bo ms) ov = Ok (Some (MStructure lin d cls ms' attrs op)) ->
  cls = ov_name ov (m_name mt) /\ ms' = ms /\ d = apply_ov ov (DStructure mt bo ms) /\
  ms <> [] /\ NoDup (map dt_name ms) /\
  map fst attrs = map dt_name ms /\ List.length ms = List.length attrs /\
  Forall2 (fun m a => exists m', In m' ms /\
     dt_name (used_type cls (ov_bo ov bo) m') = dt_name (used_type cls (ov_bo ov bo) m) /\
     create orc (used_type cls (ov_bo ov bo) m') None = Ok (snd a)) ms attrs /\
  check_linear (ov_bo ov bo) ms = Ok lin /\
  (if lin then struct_op orc (ov_bo ov bo) attrs = Ok op else op = None).
Proof.
  intros H. apply created_structure in H. apply create_structure_inv in H.
  destruct H as (attrs' & M & N & D & A & X). rewrite map_fst_pair' in *.
  apply (member_maps_spec orc _ _ ms ms) in M; auto; [|intros k mp; discriminate].
  assert (L : List.length ms = List.length attrs').
  { apply (f_equal (@List.length string)) in A. rewrite !map_length in A. auto. }
  assert (M' : Forall2 (fun m a => exists m', In m' ms /\
     dt_name (used_type (ov_name ov (m_name mt)) (ov_bo ov bo) m') = dt_name (used_type (ov_name ov (m_name mt)) (ov_bo ov bo) m) /\
     create orc (used_type (ov_name ov (m_name mt)) (ov_bo ov bo) m') None = Ok (snd a)) ms attrs').
  { eapply Forall2_weaken; [|exact M]. cbn. tauto. }
  destruct X as [(C & op' & O & E)|(C & E)]; inversion E; subst; repeat split; auto.
Qed.

Lemma structure_own_maps orc mt bo ms lin d cls ms' attrs op :
  create orc (DStructure mt bo ms) None = Ok (Some (MStructure lin d cls ms' attrs op)) ->
  distinct_types (m_name mt) bo ms ->
  Forall2 (fun m a => fst a = dt_name m /\
     create orc (used_type (m_name mt) bo m) None = Ok (snd a)) ms attrs.
Proof.
  intros H D. apply created_shape in H.
  destruct H as (-> & -> & _ & _ & _ & A & L & F & _). cbn in F, A.
  clear L.
  assert (G : forall l a, (forall x, In x l -> In x ms) -> map fst a = map dt_name l ->
    Forall2 (fun m a => exists m', In m' ms /\
       dt_name (used_type (m_name mt) bo m') = dt_name (used_type (m_name mt) bo m) /\
       create orc (used_type (m_name mt) bo m') None = Ok (snd a)) l a ->
    Forall2 (fun m a => fst a = dt_name m /\
       create orc (used_type (m_name mt) bo m) None = Ok (snd a)) l a).
  { intros l a Hin HA HF. revert HA Hin.
    induction HF as [|m a' l attrs' (m' & I' & N' & C') HF IH]; intros HA Hin; constructor.
    - cbn in HA. inversion HA. split; auto. rewrite <- (D m' m); auto. apply Hin. now left.
    - apply IH; [cbn in HA; now inversion HA|]. intros x Hx. apply Hin. now right. }
  apply G; auto.
Qed.

(** ** Maps and their parts *)

Lemma all_maps_here P m : all_maps P m -> P m.
Proof. destruct m; cbn; tauto. Qed.

Lemma all_maps_attrs P lin d cls ms attrs op :
  all_maps P (MStructure lin d cls ms attrs op) <->
  P (MStructure lin d cls ms attrs op) /\ Forall (fun a => on_opt (all_maps P) (snd a)) attrs.
Proof.
  cbn. apply and_iff_compat_l. induction attrs as [|[n [x|]] l IH]; split; intros H; auto.
  - destruct H. constructor; cbn; tauto.
  - inversion H; subst. cbn in *. tauto.
  - constructor; cbn; auto. tauto.
  - inversion H; tauto.
Qed.

Lemma all_maps_group P d i b df maps :
  all_maps P (MGroup d i b df maps) <->
  P (MGroup d i b df maps) /\ on_opt (all_maps P) b /\ on_opt (all_maps P) df /\
  Forall (fun a => on_opt (all_maps P) (snd a)) maps.
Proof.
  cbn. apply and_iff_compat_l. apply and_iff_compat_l. apply and_iff_compat_l.
  induction maps as [|[n [x|]] l IH]; split; intros H; auto.
  - destruct H. constructor; cbn; tauto.
  - inversion H; subst. cbn in *. tauto.
  - constructor; cbn; auto. tauto.
  - inversion H; tauto.
Qed.

Lemma all_maps_elem P m em :
  (match m with MSequence _ _ _ x _ | MStream _ _ x | MString _ _ x => x = em | _ => False end) ->
  (all_maps P m <-> P m /\ on_opt (all_maps P) em).
Proof. destruct m; try tauto; intros ->; destruct em; cbn; tauto. Qed.

Lemma used_as_ov sname sbo m : exists ov, forall orc,
  create orc (used_type sname sbo m) None = create orc (type_of m) ov /\
  used_type sname sbo m = apply_ov ov (type_of m).
Proof.
  unfold used_type. destruct sbo.
  - exists None. auto.
  - destruct (dt_byte_order (type_of m)) as [[]|]; try (exists None; now auto).
    eexists (Some (_, _)). intros orc. split; [symmetry; apply create_copy|reflexivity].
  - destruct (dt_byte_order (type_of m)) as [[]|]; try (exists None; now auto).
    eexists (Some (_, _)). intros orc. split; [symmetry; apply create_copy|reflexivity].
Qed.

Lemma everywhere_type P m : everywhere P m -> everywhere P (type_of m).
Proof. destruct m; cbn; tauto. Qed.

Definition elems_of (ov : override) (e : elems) : elems :=
  match ov with
  | None => e
  | Some (n, bo) =>
      mkElems (mkMeta n (m_aliases (e_meta e)) (m_desc (e_meta e))) bo (e_data_size e)
        (e_data_size_expr e) (e_data_type e) (e_terminator e) (e_number e) (e_number_expr e)
        (e_encoding e)
  end.

Lemma create_elems orc k e el ov m : create orc (DElems k e el) ov = Ok (Some m) ->
  exists eov em, element_override (elems_of ov e) el = Ok eov /\ create orc el eov = Ok em /\
    check_expressions orc (elems_of ov e) = Ok tt /\
    match k with
    | KSequence =>
        if sequence_is_linear (elems_of ov e) (apply_ov eov el)
        then exists o, sequence_op orc (elems_of ov e) (apply_ov eov el) em = Ok o /\
               m = MSequence true (elems_of ov e) (apply_ov eov el) em o
        else m = MSequence false (elems_of ov e) (apply_ov eov el) em None
    | KStream => is_composite (apply_ov eov el) = false /\ m = MStream (elems_of ov e) (apply_ov eov el) em
    | KString => is_composite (apply_ov eov el) = false /\ m = MString (elems_of ov e) (apply_ov eov el) em
    end.
Proof.
  cbn [create].
  replace (match apply_ov ov (DElems k e el) with DElems _ e' _ => e' | _ => e end) with (elems_of ov e)
    by (destruct ov as [[n bo]|]; reflexivity).
  intros H. apply bind_ok in H. destruct H as (eov & E & H).
  apply bind_ok in H. destruct H as (em & C & H).
  apply bind_ok in H. destruct H as ([] & X & H).
  exists eov, em. repeat (split; auto). destruct k.
  - destruct (sequence_is_linear _ _).
    + apply bind_ok in H. destruct H as (o & O & H). exists o. split; auto. congruence.
    + congruence.
  - destruct (is_composite (apply_ov eov el)); [discriminate|]. split; auto. congruence.
  - destruct (is_composite (apply_ov eov el)); [discriminate|]. split; auto. congruence.
Qed.

Lemma group_values_in vs (mk : maker) : forall acc out,
  (group_values vs mk acc = Ok out) ->
  forall k mp, In (k, mp) out -> In (k, mp) acc \/ (In k vs /\ mk None = Ok mp).
Proof.
  induction vs as [|v vs IH]; intros acc out H k mp Hin; cbn in H.
  - inversion H; subst; auto.
  - destruct (val_get v acc); [discriminate|]. apply bind_ok in H. destruct H as (m & Hm & H).
    destruct (IH _ _ H k mp Hin) as [Hi|[Hi Hk]].
    + apply in_app_or in Hi. destruct Hi as [Hi|[Hi|[]]]; auto. inversion Hi; subst. right. cbn. auto.
    + right. cbn. auto.
Qed.

Lemma group_maps_in i ms : forall acc out,
  group_maps i ms acc = Ok out ->
  forall k mp, In (k, mp) out -> In (k, mp) acc \/
    exists m mk vs, In (m, mk) ms /\ group_member_values i m = Ok vs /\ In k vs /\ mk None = Ok mp.
Proof.
  induction ms as [|[m mk] ms IH]; intros acc out H k mp Hin; cbn in H.
  - inversion H; subst; auto.
  - apply bind_ok in H. destruct H as (vs & V & H). apply bind_ok in H. destruct H as (acc' & A & H).
    destruct (IH _ _ H k mp Hin) as [Hi|(m' & mk' & vs' & I' & R)].
    + destruct (group_values_in _ _ _ _ A k mp Hi) as [Hj|[Hj Hk]]; auto.
      right. exists m, mk, vs. cbn. auto.
    + right. exists m', mk', vs'. cbn. tauto.
Qed.

Lemma dtype_ind_type (R : dtype -> Prop) :
  (forall d,
     (match d with
      | DElems _ _ el => R el
      | DStructure _ _ ms => Forall (fun m => R (type_of m)) ms
      | DGroup _ _ b _ df ms => R b /\ on_def R df /\ Forall R ms
      | _ => True
      end) -> R d) ->
  forall d, R d.
Proof.
  intros H d.
  assert (S : R d /\ R (type_of d)); [|tauto].
  induction d using dtype_rect'; try (cbn [type_of]; split; apply H; exact I).
  - cbn [type_of]. assert (R (DElems k e d)) by (apply H; tauto). tauto.
  - cbn [type_of]. assert (R (DStructure m bo ms)); [|tauto]. apply H.
    eapply Forall_impl; [|eassumption]. cbn. tauto.
  - cbn [type_of]. split; [apply H; exact I|tauto].
  - cbn [type_of]. assert (R (DGroup m bo d i df ms)); [|tauto]. apply H.
    repeat split; [tauto| |].
    + destruct df; cbn in *; tauto.
    + eapply Forall_impl; [|eassumption]. cbn. tauto.
Qed.

Lemma created_all orc (Q : dtype -> Prop) (P : dmap -> Prop) :
  (forall d ov m, Q d -> create orc d ov = Ok (Some m) -> P m) ->
  forall d ov m, everywhere Q d -> create orc d ov = Ok (Some m) -> all_maps P m.
Proof.
  intros L d. induction d as [d IH] using dtype_ind_type. intros ov x E C.
  pose proof (L _ _ _ (everywhere_here _ _ E) C) as HP.
  destruct d.
  - cbn in C. destruct false_value, true_value; try discriminate;
      (apply bind_ok in C; destruct C as (o & _ & C); inversion C; subst; cbn; auto).
  - cbn in C. apply bind_ok in C; destruct C as (o & _ & C); inversion C; subst; cbn; auto.
  - cbn in C. apply bind_ok in C; destruct C as (o & _ & C); inversion C; subst; cbn; auto.
  - cbn in C. apply bind_ok in C; destruct C as (o & _ & C); inversion C; subst; cbn; auto.
  - cbn in C. inversion C; subst; cbn; auto.
  - cbn in C. inversion C; subst; cbn; auto.
  - apply create_elems in C. destruct C as (eov & em & O & Ce & _ & C).
    assert (HE : on_opt (all_maps P) em).
    { destruct em; cbn; auto. apply (IH eov); auto. cbn in E. tauto. }
    destruct k.
    + destruct (sequence_is_linear _ _).
      * destruct C as (o & _ & ->). apply (all_maps_elem _ _ em); cbn; auto.
      * subst. apply (all_maps_elem _ _ em); cbn; auto.
    + destruct C as [_ ->]. apply (all_maps_elem _ _ em); cbn; auto.
    + destruct C as [_ ->]. apply (all_maps_elem _ _ em); cbn; auto.
  - assert (S : exists lin d cls ms' attrs op, x = MStructure lin d cls ms' attrs op).
    { apply created_structure in C. apply create_structure_inv in C.
      destruct C as (attrs & _ & _ & _ & _ & [(_ & op & _ & ->)|(_ & ->)]); eauto 10. }
    destruct S as (lin & d & cls & ms' & attrs & op & ->).
    apply created_shape in C. destruct C as (_ & _ & _ & _ & _ & _ & _ & F & _).
    apply all_maps_attrs. split; auto.
    cbn [everywhere] in E. destruct E as [_ E]. apply go_forall in E.
    rewrite Forall_forall in E, IH.
    clear HP. revert F. generalize members at 2 as l.
    intros l F. induction F as [|m0 a l attrs' (m' & I' & _ & C') F IHF]; constructor; auto.
    destruct (snd a) as [y|] eqn:Ey; cbn; auto.
    destruct (used_as_ov cls (ov_bo ov bo) m') as [ov' U]. destruct (U orc) as [U1 _]. rewrite U1 in C'.
    apply (IH m' I' ov'); auto. apply everywhere_type. auto.
  - discriminate.
  - discriminate.
  - cbn in C. inversion C; subst; cbn; auto.
  - cbn in C. inversion C; subst; cbn; auto.
  - cbn in C. inversion C; subst; cbn; auto.
  - discriminate.
  - cbn [create] in C. destruct IH as (IHb & IHd & IHm).
    cbn [everywhere] in E. destruct E as (_ & Eb & Ed & Em). apply go_forall in Em.
    apply bind_ok in C. destruct C as (df & Cd & C).
    apply bind_ok in C. destruct C as (b & Cb & C).
    assert (C' : exists maps, group_maps identifier (map (fun m => (m, create orc m)) members) [] = Ok maps /\
       x = MGroup (apply_ov ov (DGroup m bo d identifier default members)) identifier b df maps).
    { destruct members; [discriminate|]. apply bind_ok in C. destruct C as (maps & G & C).
      exists maps. split; auto. congruence. }
    destruct C' as (maps & G & ->). apply all_maps_group. split; auto. repeat split.
    + destruct b; cbn; auto. apply (IHb None); auto.
    + destruct default; [|inversion Cd; subst; cbn; auto].
      destruct df; cbn; auto. apply (IHd None); auto.
    + rewrite Forall_forall in *. intros [k [y|]] Hin; cbn; auto.
      destruct (group_maps_in _ _ _ _ G k (Some y) Hin) as [[]|(m' & mk & vs & I' & _ & _ & Cm)].
      apply in_map_iff in I'. destruct I' as (m2 & E2 & I2). inversion E2; subst.
      apply (IHm m' I2 None); auto.
Qed.

Lemma well_named_distinct m bo ms : well_named (DStructure m bo ms) ->
  forall sname sbo, distinct_types sname sbo ms.
Proof.
  intros [H U] sname sbo m1 m2 I1 I2 E.
  assert (X : forall m, In m ms -> used_type sname sbo m = type_of m \/
     used_type sname sbo m = set_name_bo (String.append "_" (String.append sname (String.append "_" (dt_name (type_of m))))) sbo (type_of m)).
  { intros m0 _. unfold used_type. destruct sbo; auto; destruct (dt_byte_order (type_of m0)) as [[]|]; auto. }
  assert (Y : forall m, In m ms -> sbo <> BONative -> dt_byte_order (type_of m) = Some BONative ->
     used_type sname sbo m = set_name_bo (String.append "_" (String.append sname (String.append "_" (dt_name (type_of m))))) sbo (type_of m)).
  { intros m0 _ N B. unfold used_type. rewrite B. destruct sbo; congruence. }
  destruct (X m1 I1) as [E1|E1], (X m2 I2) as [E2|E2]; rewrite E1, E2 in E.
  - rewrite E1, E2. auto.
  - rewrite set_name_bo_name in E. exfalso. eapply U; [exact I1|exact E].
  - rewrite set_name_bo_name in E. exfalso. eapply U; [exact I2|]. symmetry. exact E.
  - rewrite !set_name_bo_name in E. cbn in E. inversion E as [E'].
    assert (J : forall s a b, String.append s (String "_"%char a) = String.append s (String "_"%char b) -> a = b).
    { clear. induction s as [|c s IH]; cbn; intros a b H; inversion H; auto. }
    apply J in E'. rewrite E1, E2. rewrite (H m1 m2); auto.
Qed.
