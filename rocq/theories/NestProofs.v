(** Names and byte orders of the definitions that maps are created from, and the
    bound on nesting. *)
From Coq Require Import String List ZArith Bool Lia.
From Verif Require Import Base PyVal PyStruct DataTypes ClassFactory DataMaps.
From Verif Require Import BytesProofs ContainerProofs SpecPrim PrimProofs SpecMap SpecCreate MapProofs ContextProofs
  StructProofs LayoutProofs CreateProofs SeqProofs LinearProofs.
Import ListNotations.
Open Scope Z_scope.
Arguments Z.pow : simpl never.
Arguments Z.mul : simpl never.

Lemma find_app {A} (f : A -> bool) l1 l2 :
  find f (l1 ++ l2) = match find f l1 with Some x => Some x | None => find f l2 end.
Proof. induction l1; cbn; auto. destruct (f a); auto. Qed.

(** ** Clashes of names *)

Lemma member_maps_first orc sname sbo : forall ms done cache attrs,
  (forall m, dict_get (dt_name (used_type sname sbo m)) cache = None <->
     first_namesake sname sbo done m = None) ->
  (forall m m' mp, first_namesake sname sbo done m = Some m' ->
     dict_get (dt_name (used_type sname sbo m)) cache = Some mp ->
     create orc (used_type sname sbo m') None = Ok mp) ->
  member_maps sname sbo (map (fun m => (m, inner_maker orc m)) ms) cache = Ok attrs ->
  Forall2 (fun m a => fst a = dt_name m /\ exists m',
     first_namesake sname sbo (done ++ ms) m = Some m' /\
     create orc (used_type sname sbo m') None = Ok (snd a)) ms attrs.
Proof.
  induction ms as [|m ms IH]; intros done cache attrs HN HC H; cbn in H.
  - inversion H. constructor.
  - rewrite unwrap_type in H. apply bind_ok in H. destruct H as (ov & Ho & H).
    rewrite (ov_name_used _ _ _ _ Ho) in H.
    replace (done ++ m :: ms) with ((done ++ [m]) ++ ms) by (rewrite <- app_assoc; reflexivity).
    destruct (dict_get (dt_name (used_type sname sbo m)) cache) as [mp|] eqn:G.
    + apply bind_ok in H. destruct H as (rest & R & H). inversion H; subst.
      destruct (first_namesake sname sbo done m) as [m0|] eqn:F;
        [|apply HN in F; congruence].
      assert (F' : forall x, dt_name (used_type sname sbo x) = dt_name (used_type sname sbo m) ->
         first_namesake sname sbo done x = Some m0).
      { intros x Hx. unfold first_namesake in *. now rewrite Hx. }
      constructor.
      * cbn. split; auto. exists m0. split; eauto.
        unfold first_namesake in *. rewrite !find_app. now rewrite F.
      * apply (IH (done ++ [m]) cache); auto.
        -- intros x. rewrite HN. unfold first_namesake. rewrite find_app. cbn.
           destruct (find _ done) eqn:E; [tauto|].
           destruct (String.eqb_spec (dt_name (used_type sname sbo m)) (dt_name (used_type sname sbo x))); [|tauto].
           specialize (F' x (eq_sym e)). unfold first_namesake in F'. congruence.
        -- intros x m' mp' Hx. unfold first_namesake in Hx. rewrite find_app in Hx. cbn in Hx.
           destruct (find _ done) as [y|] eqn:E.
           ++ injection Hx as <-. apply HC. exact E.
           ++ destruct (String.eqb_spec (dt_name (used_type sname sbo m)) (dt_name (used_type sname sbo x))); [|discriminate].
              specialize (F' x (eq_sym e)). unfold first_namesake in F'. congruence.
    + apply bind_ok in H. destruct H as (mp & Hm & H).
      apply bind_ok in H. destruct H as (rest & R & H). inversion H; subst.
      rewrite (maker_used _ _ _ _ _ Ho) in Hm. apply HN in G.
      assert (F' : first_namesake sname sbo (done ++ [m]) m = Some m).
      { unfold first_namesake in *. rewrite find_app, G. cbn. now rewrite String.eqb_refl. }
      constructor.
      * cbn. split; auto. exists m. split; auto. unfold first_namesake in *. now rewrite find_app, F'.
      * apply (IH (done ++ [m])) in R; auto.
        -- intros x. rewrite dict_get_set.
           unfold first_namesake. rewrite find_app. cbn.
           destruct (String.eqb_spec (dt_name (used_type sname sbo x)) (dt_name (used_type sname sbo m))) as [E|E].
           ++ rewrite E, String.eqb_refl. destruct (find _ done); split; discriminate.
           ++ rewrite HN. unfold first_namesake. destruct (find _ done); [tauto|].
              destruct (String.eqb_spec (dt_name (used_type sname sbo m)) (dt_name (used_type sname sbo x))); [congruence|tauto].
        -- intros x m' mp' Hx. rewrite dict_get_set. unfold first_namesake in *. rewrite find_app in Hx. cbn in Hx.
           destruct (String.eqb_spec (dt_name (used_type sname sbo x)) (dt_name (used_type sname sbo m))) as [E|E].
           ++ rewrite E, G, String.eqb_refl in Hx. injection Hx as <-. intros Q. injection Q as <-. auto.
           ++ match type of Hx with context [match ?o with Some _ => _ | None => _ end] => destruct o as [y|] eqn:E2 end.
              ** injection Hx as <-. apply HC. exact E2.
              ** destruct (String.eqb_spec (dt_name (used_type sname sbo m)) (dt_name (used_type sname sbo x))); [congruence|discriminate Hx].
Qed.

Lemma structure_first_maps orc mt bo ms lin d cls ms' attrs op :
  create orc (DStructure mt bo ms) None = Ok (Some (MStructure lin d cls ms' attrs op)) ->
  Forall2 (fun m a => fst a = dt_name m /\ exists m',
     first_namesake (m_name mt) bo ms m = Some m' /\
     create orc (used_type (m_name mt) bo m') None = Ok (snd a)) ms attrs.
Proof.
  intros H. apply created_structure in H. apply create_structure_inv in H.
  destruct H as (attrs' & M & N & D & A & X). rewrite map_fst_pair' in *.
  assert (attrs' = attrs) as -> by (destruct X as [(_ & ? & _ & E)|(_ & E)]; inversion E; auto).
  cbn in M. apply (member_maps_first orc _ _ ms []) in M; auto.
  - intros m. cbn. tauto.
  - intros m m' mp Hm. discriminate.
Qed.

(** ** Byte orders *)

Lemma set_name_bo_order n bo d : dt_byte_order d <> None -> dt_byte_order (set_name_bo n bo d) = Some bo.
Proof. destruct d; cbn; auto; congruence. Qed.

Lemma structure_orders orc mt bo ms lin d cls ms' attrs op :
  create orc (DStructure mt bo ms) None = Ok (Some (MStructure lin d cls ms' attrs op)) ->
  distinct_types (m_name mt) bo ms ->
  Forall2 (fun m a => fst a = dt_name m /\ exists t,
     create orc t None = Ok (snd a) /\
     (t = type_of m \/ exists n, t = set_name_bo n bo (type_of m)) /\
     (forall own, dt_byte_order (type_of m) = Some own ->
        dt_byte_order t = Some (inherited bo own))) ms attrs.
Proof.
  intros H D. pose proof (structure_own_maps _ _ _ _ _ _ _ _ _ _ H D) as F.
  eapply Forall2_weaken; [|exact F]. cbn. intros m a (N & C). split; auto.
  exists (used_type (m_name mt) bo m). split; auto. unfold used_type in *.
  destruct bo; destruct (dt_byte_order (type_of m)) as [[]|] eqn:E; split; eauto;
    intros own Ho; inversion Ho; subst; cbn [inherited]; auto;
    apply set_name_bo_order; congruence.
Qed.

Lemma structure_integer_orders orc fuel mt bo ms lin d cls ms' attrs op m name x f u n bs off vals depth :
  create orc (DStructure mt bo ms) None = Ok (Some (MStructure lin d cls ms' attrs op)) ->
  distinct_types (m_name mt) bo ms ->
  In (m, (name, x)) (combine ms attrs) -> type_of m = DInteger f u ->
  In n [1; 2; 4; 8] -> sized f n -> 0 <= off -> off + n <= len bs ->
  exists y, x = Some y /\
    maps orc fuel y bs off vals depth
      (VInt (stored_integer (negb u) (order_on (o_host orc) (inherited bo (f_bo f))) (window bs off n))) n.
Proof.
  intros H D I T Hn Hs Ho Hl.
  pose proof (structure_orders _ _ _ _ _ _ _ _ _ _ H D) as F.
  assert (G : fst (name, x) = dt_name m /\ exists t,
     create orc t None = Ok (snd (name, x)) /\
     (t = type_of m \/ exists n, t = set_name_bo n bo (type_of m)) /\
     (forall own, dt_byte_order (type_of m) = Some own ->
        dt_byte_order t = Some (inherited bo own))).
  { clear H D. induction F; [contradiction|]. destruct I as [I|I]; auto. injection I as -> ->. auto. }
  destruct G as (_ & t & C & Ht & Hb). rewrite T in *. cbn [snd] in C.
  specialize (Hb (f_bo f) eq_refl).
  assert (E : exists f', t = DInteger f' u /\ sized f' n /\ f_bo f' = inherited bo (f_bo f)).
  { destruct Ht as [->|(nm & ->)]; cbn in *; injection Hb as Hb.
    - exists f. auto.
    - eexists. split; [reflexivity|]. split; auto. }
  destruct E as (f' & -> & Hs' & Hb'). rewrite (create_integer orc f' u n Hn Hs') in C.
  injection C as <-. eexists. split; [reflexivity|].
  destruct (map_integer orc fuel f' u n bs off (Some (ctx_new vals)) depth Hn Hs' Ho Hl) as [_ M].
  unfold maps. rewrite M, Hb'. cbn. eexists. split; reflexivity.
Qed.

Lemma sequence_orders orc k e el m :
  create orc (DElems k e el) None = Ok (Some m) ->
  exists own em t,
    dt_byte_order el = Some own /\ create orc t None = Ok em /\
    (t = el \/ exists n, t = set_name_bo n (e_bo e) el) /\
    dt_byte_order t = Some (if is_composite el then own else inherited (e_bo e) own) /\
    match m with
    | MSequence _ e' ed em' _ | MStream e' ed em' | MString e' ed em' => e' = e /\ ed = t /\ em' = em
    | _ => False
    end.
Proof.
  intros H. destruct (create_elems _ _ _ _ _ _ H) as (eov & em & E1 & E2 & _ & E3).
  cbn [elems_of apply_ov] in *. unfold element_override in E1.
  change (elems_of None e) with e in *.
  destruct (dt_byte_order el) as [own|] eqn:B; [|discriminate].
  exists own, em, (apply_ov eov el). split; auto.
  assert (C : create orc (apply_ov eov el) None = Ok em).
  { destruct eov as [[nm bo]|]; [cbn [apply_ov]; rewrite <- create_copy; exact E2|exact E2]. }
  split; auto.
  split; [|split].
  - destruct (negb _ && _ && _); inversion E1; subst; cbn; eauto.
  - destruct (is_composite el), own, (e_bo e); cbn in E1; inversion E1; subst; cbn [apply_ov inherited];
      auto; apply set_name_bo_order; congruence.
  - destruct k.
    + destruct (sequence_is_linear _ _); [destruct E3 as (o & _ & ->)|subst m]; auto.
    + destruct E3 as [_ ->]. auto.
    + destruct E3 as [_ ->]. auto.
Qed.

(** ** Nesting *)

Lemma seq_loop_never f bs nu ds tm depth s :
  (forall v, fst (f bs (q_off s) (Some (q_sub s)) (depth + 1)) <> Ok v) ->
  forall fuel s', seq_loop fuel (Some f) bs nu ds tm depth s = LDone s' -> s' = s.
Proof.
  intros N fuel s' H. destruct fuel; cbn in H; [discriminate|].
  destruct (is_empty _); [now inversion H|]. destruct (opt_eqZ _ _); [now inversion H|].
  destruct (opt_leZ _ _); [now inversion H|].
  destruct (f bs (q_off s) (Some (q_sub s)) (depth + 1)) as [[v|[]|] c]; try discriminate.
  exfalso. apply (N v). reflexivity.
Qed.

Lemma fields_reads orc fuel cls vals bs depth : forall l s off s' e d name x,
  fields orc fuel cls vals bs depth l s off s' e -> In (d, (name, Some x)) l ->
  truthy_str (member_cond d) = None ->
  exists off' vals' v n, maps orc fuel x bs off' vals' (depth + 1) v n.
Proof.
  intros l s off s' e d name x F. induction F; intros I C; [contradiction| |].
  - destruct I as [I|I]; [|now apply IHF]. injection I as -> -> ->. eauto.
  - destruct I as [I|I]; [|now apply IHF]. injection I as -> -> ->.
    unfold condition_is in H. rewrite C in H. discriminate.
Qed.

Lemma contains_never orc fuel m x depth : extensional orc -> contains m x ->
  (forall bs off vals v n, ~ maps orc fuel x bs off vals (depth + 1) v n) ->
  forall bs off vals v n, ~ maps orc fuel m bs off vals depth v n.
Proof.
  intros ext C N bs off vals v n' H.
  destruct (Z_lt_le_dec 10 depth) as [Hd|Hd].
  { apply maps_fst in H. rewrite depth_bound in H; auto; [discriminate|]. destruct C; exact I. }
  assert (N' : forall v, fst (mapbs orc fuel x bs off (Some (ctx_new [])) (depth + 1)) <> Ok v).
  { intros w W. apply maps_ok in W; auto. destruct W as (k & W). eapply N; eauto. }
  destruct C as [d cls ms attrs op mem name x L I C|e ed x op n D1 D2 D3 D4 D5|e ed x op t D1 D2 D3 D4].
  - assert (ms <> []) by (destruct ms; [contradiction|discriminate]).
    pose proof (maps_clear _ _ _ _ _ _ _ _ _ _ _ _ _ _ H) as CN.
    destruct (structure_layout orc fuel d cls ms attrs op bs off vals depth ext L H0 CN Hd) as (S & _).
    apply S in H. destruct (fields_reads _ _ _ _ _ _ _ _ _ _ _ _ _ _ H I C) as (o & w & y & k & M).
    eapply N; eauto.
  - apply maps_fst in H. cbn [mapbs] in H. unfold map_seq in H. destruct (max_depth <? depth); [discriminate|].
    unfold seq_bounds, has_data_size, has_terminator, has_number, eval_number in H.
    rewrite D1, D2, D3, D4 in H. cbn [is_some orb] in H. unfold truthy_Z in H.
    destruct (Z.eqb_spec n 0); [lia|]. unfold check_size in H. destruct (Z.ltb_spec n 0); [lia|].
    cbn [bind] in H.
    match type of H with context [seq_loop ?a ?b ?c' ?d ?e' ?f ?g ?h] =>
      destruct (seq_loop a b c' d e' f g h) eqn:E; try discriminate end.
    apply seq_loop_never in E; auto. subst s. cbn in H.
    destruct n; cbn in H; [lia|discriminate|lia].
  - apply maps_fst in H. cbn [mapbs] in H. unfold map_seq in H. destruct (max_depth <? depth); [discriminate|].
    unfold seq_bounds, has_data_size, has_terminator in H.
    rewrite D1, D2, D3 in H. cbn [is_some orb bind] in H.
    match type of H with context [seq_loop ?a ?b ?c' ?d ?e' ?f ?g ?h] =>
      destruct (seq_loop a b c' d e' f g h) eqn:E; try discriminate end.
    apply seq_loop_never in E; auto. subst s. cbn [q_last q_index q_doff opt_default] in H.
    destruct t; cbn in H; try discriminate. congruence.
Qed.

Lemma nested_bound orc fuel : extensional orc -> forall k m, nested k m ->
  forall bs off vals depth v n, 10 < depth + Z.of_nat k -> ~ maps orc fuel m bs off vals depth v n.
Proof.
  intros ext k m H. induction H as [m L|k m x C H IH]; intros bs off vals depth v n D M.
  - apply maps_fst in M. rewrite depth_bound in M; [discriminate|lia|exact L].
  - revert M. apply contains_never with (x := x); auto. intros bs' off' vals' v' n'. apply IH. lia.
Qed.
