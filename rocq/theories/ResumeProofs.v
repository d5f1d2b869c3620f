(** Interrupted mappings. *)
From Coq Require Import String List ZArith Bool Lia.
From Verif Require Import Base PyVal PyStruct DataTypes ClassFactory DataMaps.
From Verif Require Import BytesProofs ContainerProofs SpecPrim SpecMap SpecCreate SpecResume MapProofs ContextProofs StructProofs
  LayoutProofs CreateProofs SteadyProofs WindowProofs.
Import ListNotations.
Open Scope Z_scope.

(** *** The context of a structure in progress *)

Definition like (cls : string) (vals : env) (sub : ctx) (s : pyval) : Prop :=
  (exists a, s = VStruct cls a) /\
  same_values (c_values sub) (scope cls s vals) /\
  same_self (c_self sub) (if dict_mem cls vals then None else Some cls).

Lemma like_new cls vals a v' : same_values v' vals ->
  like cls vals (struct_subcontext (VStruct cls a) v') (VStruct cls a).
Proof.
  intros V. split; [eauto|]. split.
  - intros k Hk. unfold struct_subcontext. cbn [c_values type_name]. unfold scope.
    rewrite dict_get_update, dict_get_app. cbn. rewrite (V k Hk). destruct (dict_get k vals); auto.
  - cbn [struct_subcontext c_self type_name]. unfold dict_mem.
    destruct (String.eqb_spec cls "__builtins__") as [E|E].
    + rewrite E. right. destruct (dict_get _ v'), (dict_get _ vals); tauto.
    + rewrite (V _ E). apply same_self_refl.
Qed.

Lemma like_step cls vals sub s c' n v : like cls vals sub s -> keeps (Some sub) (Some c') ->
  like cls vals (alias_update (py_setattr s n v) c') (py_setattr s n v).
Proof.
  intros (E & V & F) K. destruct (setattr_struct cls s n v E) as [a Ha].
  apply keeps_same in K. destruct K as [KV KS].
  assert (SV : same_values (c_values c') (scope cls s vals)) by (eapply same_values_trans; eauto).
  split; [eauto|]. rewrite Ha. unfold alias_update. rewrite <- KS in F.
  assert (OUT : forall k, k <> cls -> dict_get k (scope cls (VStruct cls a) vals) = dict_get k (scope cls s vals)).
  { intros k Hk. unfold scope. rewrite !dict_get_app. cbn. destruct (String.eqb_spec k cls); congruence. }
  assert (HID : dict_mem cls vals = true -> forall k, dict_get k (scope cls (VStruct cls a) vals) = dict_get k (scope cls s vals)).
  { intros M k. destruct (string_dec k cls) as [->|N]; [|auto]. unfold scope. rewrite !dict_get_app.
    unfold dict_mem in M. destruct (dict_get cls vals); [auto|discriminate]. }
  destruct F as [F|[F1 F2]].
  - rewrite F. destruct (dict_mem cls vals) eqn:M.
    + split; [|rewrite F; now left]. intros k Hk. rewrite HID; auto.
    + split; [|cbn; rewrite F; now left]. intros k Hk. cbn [set_values c_values]. rewrite dict_get_set.
      destruct (String.eqb_spec k cls) as [->|N].
      * unfold scope. rewrite dict_get_app. apply dict_mem_false in M. rewrite M. cbn. now rewrite String.eqb_refl.
      * rewrite OUT by auto. auto.
  - assert (X : same_values (c_values c') (scope cls (VStruct cls a) vals)).
    { intros k Hk. rewrite (SV k Hk). destruct (dict_mem cls vals) eqn:M; [now rewrite HID|].
      destruct F2 as [F2|F2]; [discriminate|]. inversion F2; subst cls. now rewrite OUT. }
    destruct F1 as [F1|F1]; rewrite F1.
    + split; [auto|]. right. split; auto.
    + split; [|cbn; right; split; auto]. cbn. eapply same_values_trans; [apply same_values_set_builtins|auto].
Qed.

(** *** The member loop with such a context *)

Definition tail_outcome orc fuel cls vals bs depth (l : list field) i s off size (o : strout) : Prop :=
  match o with
  | RDone t => fields orc fuel cls vals bs depth l s off (t_vals t) (t_off t) /\
      t_size t - size = t_off t - off
  | RTooSmall j t =>
      exists before mem name x after e sub0,
        l = before ++ (mem, (name, Some x)) :: after /\
        fields orc fuel cls vals bs depth before s off (t_vals t) e /\
        condition_is orc mem (scope cls (t_vals t) vals) true /\
        j = i + len before /\ like cls vals sub0 (t_vals t) /\ c_state sub0 = st_empty /\
        mapbs orc fuel x bs e (Some sub0) (depth + 1) = (Raise ByteStreamTooSmallError, Some (t_sub t)) /\
        t_size t - size = e - off
  | RExc e _ => e = MappingError /\ first_defect orc fuel cls vals bs depth
      (member_bad orc fuel cls vals bs depth) l s off
  | RFuel => first_defect orc fuel cls vals bs depth (member_fuel orc fuel cls vals bs depth) l s off
  end.

Lemma tail_absent orc fuel cls vals bs depth d name x l i s off size o :
  condition_is orc d (scope cls s vals) false ->
  tail_outcome orc fuel cls vals bs depth l (i + 1) s off size o ->
  tail_outcome orc fuel cls vals bs depth ((d, (name, x)) :: l) i s off size o.
Proof.
  intros C H. destruct o; cbn in *.
  - destruct H. split; auto. now apply fields_absent.
  - destruct H as (b & m & nm & y & a & e & sub0 & -> & F & CC & J & L & Z & M & TS).
    exists ((d, (name, x)) :: b), m, nm, y, a, e, sub0. split; [reflexivity|]. split; [now apply fields_absent|].
    rewrite len_cons. repeat split; auto; try lia; apply L.
  - destruct H. split; auto. now apply first_defect_absent.
  - now apply first_defect_absent.
Qed.

Lemma tail_present orc fuel cls vals bs depth d name x l i s off size o v n :
  condition_is orc d (scope cls s vals) true ->
  maps orc fuel x bs off (scope cls s vals) (depth + 1) v n -> allowed d v ->
  tail_outcome orc fuel cls vals bs depth l (i + 1) (py_setattr s name v) (off + n) (size + n) o ->
  tail_outcome orc fuel cls vals bs depth ((d, (name, Some x)) :: l) i s off size o.
Proof.
  intros C M A H. destruct o; cbn in *.
  - destruct H. split; [|lia]. eapply fields_present; eauto.
  - destruct H as (b & m & nm & y & a & e & sub0 & -> & F & CC & J & L & Z & MM & TS).
    exists ((d, (name, Some x)) :: b), m, nm, y, a, e, sub0. split; [reflexivity|]. split; [eapply fields_present; eauto|].
    rewrite len_cons. repeat split; auto; try lia; apply L.
  - destruct H. split; auto. eapply first_defect_present; eauto.
  - eapply first_defect_present; eauto.
Qed.

Lemma tail_spec orc fuel cls vals bs depth l : extensional orc -> forall i s off size sub,
  like cls vals sub s -> c_state sub = st_empty ->
  tail_outcome orc fuel cls vals bs depth l i s off size
    (struct_loop orc (map (attr_of orc fuel) l) i bs depth (mkStr off size s sub)).
Proof.
  intros ext. induction l as [|[d [name x]] l IH]; intros i s off size sub I C.
  - cbn. split; [constructor|lia].
  - cbn [map struct_loop attr_of a_cond a_map a_name a_vals fst snd t_off t_size t_vals t_sub].
    pose proof I as (E & V & F).
    rewrite (condition_agrees orc ext (member_cond d) _ _ V).
    assert (CC := condition_cases orc d (scope cls s vals)).
    rewrite !condition_spec, condition_bad_spec in CC.
    destruct CC as [CC|[CC|CC]]; rewrite CC.
    + apply condition_spec in CC.
      destruct x as [x|].
      2:{ cbn. split; auto. apply first_defect_here. right. auto. }
      destruct (fresh orc fuel x bs off sub (depth + 1) _ ext C V) as [Hf Hs].
      pose proof (mapbs_keeps orc fuel x bs off (Some sub) (depth + 1)) as K.
      destruct (mapbs orc fuel x bs off (Some sub) (depth + 1)) as [r c'] eqn:M. cbn [fst snd] in Hf, Hs, K.
      destruct r as [v|e|].
      * destruct (Hs v eq_refl) as (n & c2 & Mp & -> & B & C2 & V2 & F2). cbn [opt_default].
        destruct (unsupported (member_values d) v) eqn:U.
        { cbn. split; auto. apply first_defect_here. right. split; auto. right. exists x. split; auto.
          right. exists v, n. split; auto. rewrite <- unsupported_spec. congruence. }
        apply unsupported_spec in U.
        assert (B' : c_byte_size (alias_update (py_setattr s name v) c2) = Some n).
        { unfold alias_update. destruct (c_self c2); exact B. }
        rewrite B'. eapply tail_present; eauto. apply IH.
        -- eapply like_step; eauto.
        -- unfold alias_update. destruct (c_self c2); exact C2.
      * destruct c' as [c'|]; [|cbn in K; tauto]. cbn [opt_default].
        assert (e = ByteStreamTooSmallError \/ e <> ByteStreamTooSmallError) as [->|Ne]
          by (destruct e; (left; reflexivity) || (right; discriminate)).
        { cbn. exists [], d, name, x, l, off, sub. split; [reflexivity|]. split; [constructor|].
          cbn [t_set_sub t_sub]. repeat split; auto. all: cbn; lia. }
        assert (W : first_defect orc fuel cls vals bs depth (member_bad orc fuel cls vals bs depth)
                      ((d, (name, Some x)) :: l) s off).
        { apply first_defect_here. right. split; auto. right. exists x. split; auto. left.
          exists e. split; auto. symmetry. exact Hf. }
        destruct e; try (cbn; split; auto); congruence.
      * cbn. apply first_defect_here. split; auto. exists x. auto.
    + apply condition_spec in CC. eapply tail_absent; eauto.
    + cbn. split; auto. apply first_defect_here. left. now apply condition_bad_spec.
Qed.

(** *** Suspended mappings *)

Definition leaf_state (orc : oracle) (m : dmap) (vals : env) (c : ctx) : Prop :=
  match m with
  | MPrim _ _ | MUUID _ | MPadding _ => c_state c = st_empty
  | MStream e ed _ | MString e ed _ =>
      s_number_of_elements (c_state c) = None /\
      (truthy_Z (s_elements_data_size (c_state c)) = None \/
       exists n, truthy_Z (s_elements_data_size (c_state c)) = Some n /\
         fst (calc_data_size orc e ed (Some (ctx_new vals))) = Ok (Some n))
  | _ => True
  end.

Inductive susp (orc : oracle) (fuel : nat) (bs : bytes) : dmap -> Z -> env -> Z -> Z -> ctx -> Prop :=
| susp_whole m off vals depth c :
    whole m -> fails orc fuel m bs off vals depth ByteStreamTooSmallError ->
    same_values (c_values c) vals -> leaf_state orc m vals c ->
    susp orc fuel bs m off vals depth off c
| susp_member d cls ms attrs op off vals depth before mem name x after s e p c sub :
    clear_names cls (map fst attrs) ->
    depth <= 10 ->
    combine ms attrs = before ++ (mem, (name, Some x)) :: after ->
    fields orc fuel cls vals bs depth before (blank cls attrs) off s e ->
    condition_is orc mem (scope cls s vals) true ->
    like cls vals sub s ->
    s_attribute_index (c_state c) = Some (len before) ->
    s_mapped_values (c_state c) = Some (MVStruct s) ->
    s_context (c_state c) = Some sub ->
    same_values (c_values c) vals ->
    susp orc fuel bs x e (scope cls s vals) (depth + 1) p sub ->
    susp orc fuel bs (MStructure false d cls ms attrs op) off vals depth p c.

Lemma susp_stalls orc fuel bs m off vals depth p c :
  susp orc fuel bs m off vals depth p c -> stalls orc fuel bs m off vals depth p.
Proof. induction 1; [now apply stalls_whole|eapply stalls_member; eauto]. Qed.

Lemma susp_values orc fuel bs m off vals depth p c :
  susp orc fuel bs m off vals depth p c -> same_values (c_values c) vals.
Proof. destruct 1; auto. Qed.

(** What is mapped as a whole is simply mapped again. *)
Lemma calc_leaf orc e ed vals c : extensional orc -> same_values (c_values c) vals ->
  s_number_of_elements (c_state c) = None ->
  (truthy_Z (s_elements_data_size (c_state c)) = None \/
   exists n, truthy_Z (s_elements_data_size (c_state c)) = Some n /\
     fst (calc_data_size orc e ed (Some (ctx_new vals))) = Ok (Some n)) ->
  fst (calc_data_size orc e ed (Some c)) = fst (calc_data_size orc e ed (Some (ctx_new vals))) /\
  exists c', snd (calc_data_size orc e ed (Some c)) = Some c' /\ c_state c' = c_state c.
Proof.
  intros X V N D. unfold calc_data_size at 1 3. cbn [ctx_state].
  destruct (truthy_Z (s_elements_data_size (c_state c))) as [n|] eqn:T.
  - destruct D as [D|(n' & D & ->)]; [discriminate|]. inversion D; subst. cbn. eauto.
  - unfold calc_data_size. cbn [ctx_state ctx_new c_state st_empty s_elements_data_size s_number_of_elements truthy_Z ctx_values c_values].
    rewrite N. destruct (has_data_size e).
    { rewrite (data_size_agrees orc X e _ _ V). split; [reflexivity|]. eexists. split; reflexivity. }
    destruct (has_number e); [|split; [reflexivity|]; eexists; split; reflexivity].
    destruct (get_byte_size ed); [|split; [reflexivity|]; eexists; split; reflexivity].
    pose proof (number_agrees orc X e (Some c) (Some (ctx_new vals)) V) as A.
    assert (S : exists c', snd (eval_number orc e (Some c)) = Some c' /\ c_state c' = c_state c).
    { unfold eval_number. destruct (truthy_Z (e_number e)); [eexists; split; reflexivity|]. destruct (truthy_str _); eexists; split; reflexivity. }
    destruct (eval_number orc e (Some c)), (eval_number orc e (Some (ctx_new vals))). cbn in *. subst. eauto.
Qed.

Lemma stream_again orc fuel e ed em bs off vals depth c : extensional orc ->
  same_values (c_values c) vals -> leaf_state orc (MStream e ed em) vals c ->
  fst (mapbs orc fuel (MStream e ed em) bs off (Some c) depth) =
  fst (mapbs orc fuel (MStream e ed em) bs off (Some (ctx_new vals)) depth) /\
  (fst (mapbs orc fuel (MStream e ed em) bs off (Some c) depth) = Raise ByteStreamTooSmallError ->
   exists c', snd (mapbs orc fuel (MStream e ed em) bs off (Some c) depth) = Some c' /\
     leaf_state orc (MStream e ed em) vals c') /\
  (forall v, fst (mapbs orc fuel (MStream e ed em) bs off (Some c) depth) = Ok v ->
   exists n c', snd (mapbs orc fuel (MStream e ed em) bs off (Some c) depth) = Some c' /\
     maps orc fuel (MStream e ed em) bs off vals depth v n /\ c_state c' = st_empty /\ c_byte_size c' = Some n).
Proof.
  intros X V [N D]. destruct (calc_leaf orc e ed vals c X V N D) as (Q & c' & Q2 & Q3).
  unfold maps. cbn [mapbs]. unfold map_stream.
  destruct (calc_data_size orc e ed (Some c)) as [r c1]. cbn [fst snd] in Q, Q2. subst c1.
  pose proof (keeps_calc orc e ed (Some (ctx_new vals))) as K.
  destruct (calc_data_size orc e ed (Some (ctx_new vals))) as [r2 c2] eqn:CD. cbn [fst snd] in Q, K. subst r2.
  destruct c2 as [c2|]; [|cbn in K; tauto].
  destruct r as [size|x|]; cbn [fst snd]; [|split; [auto|]; split; [|discriminate]|split; [auto|]; split; discriminate].
  2:{ intros _. exists c'. split; auto. split; rewrite Q3; auto. now rewrite CD. }
  cbn [option_map].
  destruct size as [n|].
  - destruct (_ <? _); cbn [fst snd on_state option_map ctx_done].
    + split; [auto|]. split; [|discriminate]. intros _. eexists. split; [reflexivity|]. unfold leaf_state. cbn [set_state c_state set_sizes upd_data_size upd_data_offset s_number_of_elements s_elements_data_size]. rewrite Q3.
      split; auto. destruct (Z.eq_dec n 0) as [->|NZ]; [now left|]. right. exists n.
      rewrite CD. split; auto. destruct n; auto; congruence.
    + split; [auto|]. split; [discriminate|]. intros v Hv. exists n. eexists. split; [reflexivity|].
      split; [|auto]. eexists. split; [rewrite Hv; reflexivity|reflexivity].
  - destruct (e_terminator e) as [t|]; cbn [fst snd]; [|split; [auto|]; split; discriminate].
    destruct (get_byte_size ed) as [b|] eqn:GB; cbn [fst snd]; [|split; [auto|]; split; discriminate].
    destruct (stream_scan _ _ _ _ _ _ _ _) as [[[found value] doff]|x|]; cbn [fst snd].
    + destruct (negb _); cbn [fst snd on_state option_map].
      * split; [auto|]. split; [|discriminate]. intros _. eexists. split; [reflexivity|]. unfold leaf_state. cbn [set_state c_state set_sizes upd_data_size upd_data_offset s_number_of_elements s_elements_data_size]. rewrite Q3.
        split; auto. now rewrite CD.
      * destruct found as [n|]; cbn [fst snd ctx_done option_map]; [|split; [auto|]; split; discriminate].
        split; [auto|]. split; [discriminate|]. intros v Hv. exists n. eexists. split; [reflexivity|].
        split; [|auto]. eexists. split; [rewrite Hv; reflexivity|reflexivity].
    + split; [auto|]. split; [|discriminate]. intros _. eexists. split; [reflexivity|]. unfold leaf_state. cbn [set_state c_state set_sizes upd_data_size upd_data_offset s_number_of_elements s_elements_data_size]. rewrite Q3.
      split; auto. now rewrite CD.
    + split; [auto|]. split; discriminate.
Qed.

Definition again (orc : oracle) (fuel : nat) (m : dmap) : Prop :=
  forall bs off vals depth c, same_values (c_values c) vals -> leaf_state orc m vals c ->
  fst (mapbs orc fuel m bs off (Some c) depth) = fst (mapbs orc fuel m bs off (Some (ctx_new vals)) depth) /\
  (fst (mapbs orc fuel m bs off (Some c) depth) = Raise ByteStreamTooSmallError ->
   exists c', snd (mapbs orc fuel m bs off (Some c) depth) = Some c' /\ leaf_state orc m vals c') /\
  (forall v, fst (mapbs orc fuel m bs off (Some c) depth) = Ok v ->
   exists n c', snd (mapbs orc fuel m bs off (Some c) depth) = Some c' /\
     maps orc fuel m bs off vals depth v n /\ c_state c' = st_empty /\ c_byte_size c' = Some n).

Lemma again_clean orc fuel m : extensional orc ->
  (forall vals c, leaf_state orc m vals c <-> c_state c = st_empty) ->
  (forall bs off depth c, fst (mapbs orc fuel m bs off (Some c) depth) = Raise ByteStreamTooSmallError ->
     exists c', snd (mapbs orc fuel m bs off (Some c) depth) = Some c' /\ c_state c' = c_state c) ->
  again orc fuel m.
Proof.
  intros X L S bs off vals depth c V C. apply L in C.
  destruct (fresh orc fuel m bs off c depth vals X C V) as [F G]. split; [exact F|]. split.
  - intros T. destruct (S _ _ _ _ T) as (c' & E & C'). exists c'. split; auto. apply L. congruence.
  - intros v T. destruct (G v T) as (n & c' & M & E & B & CC & _). exists n, c'. auto.
Qed.

Lemma whole_again orc fuel m : extensional orc -> whole m -> resumable m -> again orc fuel m.
Proof.
  intros X W R. destruct m; try contradiction.
  - apply again_clean; auto; [reflexivity|]. intros bs off depth c. cbn [mapbs]. unfold map_prim.
    destruct (get_byte_size d); [|discriminate]. destruct (_ <? _); [cbn; eauto|].
    destruct (match op with Some _ => _ | None => _ end); discriminate.
  - apply again_clean; auto; [reflexivity|]. intros bs off depth c. cbn [mapbs]. unfold map_uuid.
    destruct (get_byte_size d); [|discriminate]. destruct (_ <? _); [cbn; eauto|].
    destruct (match dt_byte_order d with Some _ => _ | None => _ end); discriminate.
  - apply again_clean; auto; [reflexivity|]. intros bs off depth c. cbn [mapbs]. unfold map_padding.
    destruct (match d with DPadding _ _ _ => _ | _ => _ end); [|discriminate]. destruct (_ =? _); [discriminate|].
    destruct (_ <? _); [|discriminate]. intros _. eexists. split; reflexivity.
  - destruct linear; [|contradiction]. intros bs off vals depth c V _. unfold maps. cbn [mapbs leaf_state]. unfold map_seq_linear.
    destruct (elems_byte_size e (get_byte_size ed)); cbn [fst snd]; [|split; [auto|]; split; discriminate].
    destruct (_ <? _); cbn [fst snd option_map on_state].
    { split; [auto|]. split; [|discriminate]. eexists. split; [reflexivity|exact I]. }
    destruct op; cbn [fst snd]; [|split; [auto|]; split; discriminate].
    destruct em as [[]|]; cbn [fst snd]; try (split; [now auto|]; split; discriminate).
    destruct (read_from _ _); cbn [fst snd]; [|split; [auto|]; split; discriminate..].
    split; [auto|]. split.
    + eexists. split; [reflexivity|exact I].
    + intros v ->. exists z. eexists. split; [reflexivity|]. split; [|auto]. eexists. split; reflexivity.
  - intros bs off vals depth c V L. apply stream_again; auto.
  - intros bs off vals depth c V L.
    destruct (stream_again orc fuel e ed em bs off vals depth c X V L) as (S1 & S2 & S3).
    unfold maps in *. cbn [mapbs] in *. unfold map_string.
    destruct (map_stream orc e ed bs off (Some c) depth) as [r c1].
    destruct (map_stream orc e ed bs off (Some (ctx_new vals)) depth) as [r2 c2].
    cbn [fst snd] in *. subst r2.
    destruct r as [v|x|]; cbn [fst snd].
    + destruct (S3 v eq_refl) as (n & c' & -> & (c'' & E & B) & C & B'). inversion E; subst c2.
      destruct v; cbn [fst snd]; try (split; [now auto|]; split; discriminate).
      destruct (match e_terminator e with Some _ => _ | None => _ end) as [b'|x|]; cbn [fst snd].
      * destruct (o_decode orc (e_encoding e) b'); cbn [fst snd]; [|split; [auto|]; split; discriminate].
        split; [auto|]. split; [discriminate|]. intros v Hv. exists n, c'. split; auto. split; [|auto].
        exists c''. split; auto. congruence.
      * split; [auto|]. split; [|discriminate]. intros Q. exists c'. split; auto. split; rewrite C; auto.
      * split; [auto|]. split; discriminate.
    + split; [auto|]. split; [|discriminate]. exact S2.
    + split; [auto|]. split; discriminate.
  - destruct linear; [|contradiction]. intros bs off vals depth c V _. unfold maps. cbn [mapbs leaf_state]. unfold map_struct_linear.
    destruct (get_byte_size d); cbn [fst snd]; [|split; [auto|]; split; discriminate].
    destruct (_ <? _); cbn [fst snd option_map on_state].
    { split; [auto|]. split; [|discriminate]. eexists. split; [reflexivity|exact I]. }
    destruct (match op with Some _ => _ | None => _ end) as [w|x|]; cbn [fst snd]; try (split; [now auto|]; split; discriminate).
    split; [auto|]. split; [discriminate|].
    intros v Hv. inversion Hv; subst. exists z. eexists. split; [reflexivity|]. split; [|auto]. eexists. split; reflexivity.
  - intros bs off vals depth c V _. cbn. split; [auto|]. split; discriminate.
  - intros bs off vals depth c V _. cbn. split; [auto|]. split; discriminate.
Qed.

(** *** Structures *)

Lemma resumable_attrs d cls ms attrs op : resumable (MStructure false d cls ms attrs op) <->
  Forall (fun a => on_opt resumable (snd a)) attrs.
Proof.
  cbn. induction attrs as [|[n [x|]] l IH]; split; intros H; auto.
  - destruct H. constructor; cbn; tauto.
  - inversion H; subst. cbn in *. tauto.
  - constructor; cbn; auto. tauto.
  - inversion H; tauto.
Qed.

Lemma blank_new cls (attrs : list (string * option dmap)) : new_struct cls (map fst attrs) [] = blank cls attrs.
Proof. unfold new_struct, blank. f_equal. induction attrs as [|[n a] l IH]; cbn; auto. now rewrite IH. Qed.

Lemma in_fields {ms : list dtype} {attrs : list (string * option dmap)} {P : dmap -> Prop} {before mem name x after} :
  combine ms attrs = before ++ (mem, (name, Some x)) :: after ->
  Forall (fun a => on_opt P (snd a)) attrs -> P x.
Proof.
  intros E F. rewrite Forall_forall in F. apply (F (name, Some x)).
  apply (in_combine_r ms attrs mem). rewrite E. apply in_or_app. right. now left.
Qed.

Lemma combine_nonempty {A B} (l : list A) (l' : list B) : List.length l = List.length l' -> l <> [] ->
  0 < len (combine l l').
Proof.
  intros L N. unfold len. rewrite combine_length. destruct l; [congruence|]. destruct l'; [discriminate|]. cbn. lia.
Qed.

Lemma leaf_clean orc m vals c : c_state c = st_empty -> leaf_state orc m vals c.
Proof. intros C. destruct m; cbn; rewrite ?C; auto. Qed.

Lemma susp_first_whole orc fuel m : extensional orc -> resumable m -> whole m ->
  forall bs off vals depth c0 c, c_state c0 = st_empty -> same_values (c_values c0) vals ->
  mapbs orc fuel m bs off (Some c0) depth = (Raise ByteStreamTooSmallError, Some c) ->
  exists p, susp orc fuel bs m off vals depth p c.
Proof.
  intros X R W bs off vals depth c0 c C V M.
  destruct (whole_again orc fuel m X W R bs off vals depth c0 V (leaf_clean _ _ _ _ C)) as (A1 & A2 & _).
  rewrite M in A1, A2. destruct (A2 eq_refl) as (c' & E & LS). inversion E; subst c'.
  exists off. apply susp_whole; [exact W|symmetry; exact A1| |exact LS].
  pose proof (mapbs_keeps orc fuel m bs off (Some c0) depth) as K. rewrite M in K. apply keeps_same in K.
  eapply same_values_trans; [apply K|exact V].
Qed.

Lemma susp_first orc fuel m : extensional orc -> resumable m -> all_maps steady m ->
  forall bs off vals depth c0 c, c_state c0 = st_empty -> same_values (c_values c0) vals ->
  mapbs orc fuel m bs off (Some c0) depth = (Raise ByteStreamTooSmallError, Some c) ->
  exists p, susp orc fuel bs m off vals depth p c.
Proof.
  intros X. induction m using dmap_rect'; intros R S bs off vals depth c0 c C V M;
    try (eapply susp_first_whole; [exact X|exact R|exact I|exact C|exact V|exact M]);
    try (exfalso; exact R).
  - destruct l; [|destruct R]. eapply susp_first_whole; [exact X|exact R|exact I|exact C|exact V|exact M].
  - destruct l; [eapply susp_first_whole; [exact X|exact R|exact I|exact C|exact V|exact M]|].
    pose proof (all_maps_here _ _ S) as [SL SN]. apply all_maps_attrs in S. destruct S as [_ S].
    apply resumable_attrs in R.
    cbn [mapbs] in M. unfold map_struct in M.
    destruct (Z.ltb_spec max_depth depth) as [D|D]; [discriminate|]. unfold max_depth in D.
    cbn [ctx_state] in M. rewrite C in M.
    destruct (clear_dec cls (map fst attrs)) as [CN|CN].
    2:{ unfold struct_values, instance in M. cbn [st_empty s_mapped_values] in M. rewrite CN in M.
        inversion M. now destruct (constructor_not_small cls (map fst attrs)). }
    rewrite (struct_values_new _ _ _ CN) in M by reflexivity.
    cbn [st_empty s_attribute_index s_mapped_values s_context opt_default ctx_values] in M.
    rewrite attrs_of_fields, blank_new in M.
    assert (LL : len (map (attr_of orc fuel) (combine ms attrs)) <=? 0 = false).
    { apply Z.leb_gt. rewrite len_map. now apply combine_nonempty. }
    rewrite LL in M. change (Z.to_nat 0) with O in M. cbn [skipn] in M.
    pose proof (tail_spec orc fuel cls vals bs depth (combine ms attrs) X 0 (blank cls attrs) off 0
      (struct_subcontext (blank cls attrs) (c_values c0)) (like_new _ _ _ _ V) eq_refl) as T.
    destruct (struct_loop _ _ _ _ _ _) as [t|j t|x t|]; try discriminate.
    + cbn in T. destruct T as (before & mem & name & x & after & e & sub0 & E & F & CC & J & L & Z & MM & TS).
      assert (K : keeps (Some sub0) (Some (t_sub t))).
      { pose proof (mapbs_keeps orc fuel x bs e (Some sub0) (depth + 1)) as K. now rewrite MM in K. }
      destruct (in_fields E H (in_fields E R) (in_fields E S) bs e _ _ _ _ Z (proj1 (proj2 L)) MM) as (p & P).
      exists p. cbn [on_state option_map] in M. inversion M; subst c.
      apply (susp_member _ _ _ d cls ms attrs op off vals depth before mem name x after (t_vals t) e p _ (t_sub t)); auto.
      * destruct L as (L1 & L2 & L3). apply keeps_same in K. destruct K as [K1 K2].
        split; auto. split; [eapply same_values_trans; eauto|]. now rewrite K2.
      * cbn. f_equal. lia.
    + cbn in T. destruct T as [-> _]. discriminate.
Qed.

Lemma defect_after orc fuel cls vals bs depth P before l s off s' e :
  fields orc fuel cls vals bs depth before s off s' e ->
  first_defect orc fuel cls vals bs depth P l s' e ->
  first_defect orc fuel cls vals bs depth P (before ++ l) s off.
Proof.
  intros F (b & d & n & x & a & s1 & o1 & -> & G & H).
  exists (before ++ b), d, n, x, a, s1, o1. split; [now rewrite app_assoc|]. split; [eapply fields_app; eauto|auto].
Qed.

Lemma struct_fuel orc fuel d cls ms attrs op bs off vals depth :
  extensional orc -> List.length ms = List.length attrs -> ms <> [] ->
  clear_names cls (map fst attrs) -> depth <= 10 ->
  first_defect orc fuel cls vals bs depth (member_fuel orc fuel cls vals bs depth) (combine ms attrs) (blank cls attrs) off ->
  fst (mapbs orc fuel (MStructure false d cls ms attrs op) bs off (Some (ctx_new vals)) depth) = OutOfFuel.
Proof.
  intros E L N CN D H.
  destruct (struct_runs orc fuel d cls ms attrs op bs off vals depth E L N CN D) as (O & -> & _).
  set (o := struct_loop _ _ _ _ _ _) in *.
  assert (BS := blocks_short orc fuel cls vals bs depth).
  assert (BB := blocks_bad orc fuel cls vals bs depth).
  assert (BF := blocks_fuel orc fuel cls vals bs depth).
  assert (FB := fuel_not_bad orc fuel cls vals bs depth).
  assert (FS := fuel_not_short orc fuel cls vals bs depth).
  destruct o as [t|i t|x t|]; cbn in O; auto; exfalso.
  - eapply defect_no_fields; [exact BF|exact H|exact (proj1 O)].
  - eapply defects_exclude; [exact BF|exact BS|exact FS|exact H|exact O].
  - eapply defects_exclude; [exact BF|exact BB|exact FB|exact H|exact (proj2 O)].
Qed.

Definition resumed orc fuel m bs s off vals depth p c : Prop :=
  fst (mapbs orc fuel m (bs ++ s) p (Some c) depth) =
    fst (mapbs orc fuel m (bs ++ s) off (Some (ctx_new vals)) depth) /\
  (fst (mapbs orc fuel m (bs ++ s) p (Some c) depth) = Raise ByteStreamTooSmallError ->
   exists p' c', snd (mapbs orc fuel m (bs ++ s) p (Some c) depth) = Some c' /\
     susp orc fuel (bs ++ s) m off vals depth p' c') /\
  (forall v, fst (mapbs orc fuel m (bs ++ s) p (Some c) depth) = Ok v ->
   exists n c', snd (mapbs orc fuel m (bs ++ s) p (Some c) depth) = Some c' /\
     maps orc fuel m (bs ++ s) off vals depth v n /\ c_state c' = st_empty /\ c_byte_size c' = Some (n - (p - off))).

Lemma susp_resume orc fuel bs m off vals depth p c : extensional orc ->
  susp orc fuel bs m off vals depth p c ->
  resumable m -> all_maps steady m -> 0 <= off <= len bs ->
  off <= p <= len bs /\ forall s, resumed orc fuel m bs s off vals depth p c.
Proof.
  intros X SU. induction SU as [m off vals depth c W F V L|d cls ms attrs op off vals depth before mem name x after st e p c sub
     CN D E F CC LK I1 I2 I3 V SU IH]; intros R S Ho.
  - split; [lia|]. intros s. destruct (whole_again orc fuel m X W R (bs ++ s) off vals depth c V L) as (A1 & A2 & A3).
    split; [exact A1|]. split.
    + intros T. destruct (A2 T) as (c' & H1 & H2). exists off, c'. split; auto. apply susp_whole; auto.
      * unfold fails. now rewrite <- A1.
      * pose proof (mapbs_keeps orc fuel m (bs ++ s) off (Some c) depth) as K. rewrite H1 in K. apply keeps_same in K.
        eapply same_values_trans; [apply K|exact V].
    + intros v T. destruct (A3 v T) as (n & c' & H1 & H2 & H3 & H4). exists n, c'. repeat split; auto.
      rewrite H4. f_equal. lia.
  - pose proof (all_maps_here _ _ S) as [SL SN]. pose proof S as S'. apply all_maps_attrs in S. destruct S as [_ S].
    apply resumable_attrs in R.
    assert (CT : Forall (fun f : field => on_opt (contained orc) (snd (snd f))) before).
    { assert (C0 : Forall (fun a : string * option dmap => on_opt (contained orc) (snd a)) attrs).
      { rewrite Forall_forall in *. intros a I. specialize (S a I). destruct (snd a); cbn in *; auto. now apply steady_contained. }
      apply (Forall_combine _ ms) in C0. rewrite E in C0. apply Forall_app in C0. exact (proj1 C0). }
    destruct (fields_monotone _ _ _ _ _ _ _ _ _ _ _ [] F CT Ho) as [Oe _].
    destruct (IH (in_fields E R) (in_fields E S) ltac:(lia)) as [Op RS]. split; [lia|]. intros s.
    destruct (fields_monotone _ _ _ _ _ _ _ _ _ _ _ s F CT Ho) as [_ F'].
    destruct (RS s) as (R1 & R2 & R3). clear RS.
    destruct (structure_layout orc fuel d cls ms attrs op (bs ++ s) off vals depth X SL SN CN D) as (L1 & L2 & L3 & L4).
    pose proof (struct_fuel orc fuel d cls ms attrs op (bs ++ s) off vals depth X SL SN CN D) as LF.
    set (FR := fst (mapbs orc fuel (MStructure false d cls ms attrs op) (bs ++ s) off (Some (ctx_new vals)) depth)) in *.
    unfold fails in L2, L3. fold FR in L2, L3.
    unfold resumed. fold FR.
    cbn [mapbs]. unfold map_struct.
    destruct (Z.ltb_spec max_depth depth) as [D'|D']; [unfold max_depth in D'; lia|].
    unfold struct_values. cbn [ctx_state]. rewrite I1, I2, I3. cbn [opt_default]. rewrite attrs_of_fields.
    assert (LL : len (map (attr_of orc fuel) (combine ms attrs)) <=? len before = false).
    { apply Z.leb_gt. rewrite len_map, E, len_app, len_cons. pose proof (len_nonneg after). unfold field in *. lia. }
    rewrite LL.
    assert (SK : skipn (Z.to_nat (len before)) (map (attr_of orc fuel) (combine ms attrs)) =
                 attr_of orc fuel (mem, (name, Some x)) :: map (attr_of orc fuel) after).
    { rewrite E, map_app. unfold len. rewrite Nat2Z.id. rewrite skipn_app, map_length, Nat.sub_diag.
      rewrite skipn_all2 by (rewrite map_length; lia). reflexivity. }
    rewrite SK. cbn [struct_loop attr_of a_cond a_map a_name a_vals fst snd t_off t_size t_vals t_sub].
    destruct LK as (K1 & K2 & K3).
    rewrite (condition_agrees orc X (member_cond mem) _ _ K2).
    pose proof CC as CC'. apply condition_spec in CC'. rewrite CC'.
    pose proof (mapbs_keeps orc fuel x (bs ++ s) p (Some sub) (depth + 1)) as K.
    destruct (mapbs orc fuel x (bs ++ s) p (Some sub) (depth + 1)) as [r c'] eqn:M. cbn [fst snd] in R1, R2, R3, K.
    destruct c' as [c'|]; [|cbn in K; tauto]. cbn [opt_default].
    destruct r as [v|ex|].
    + destruct (R3 v eq_refl) as (n & c2 & Q & MP & C2 & B2). inversion Q; subst c2. clear Q R2 R3.
      assert (MP' := MP). 
      destruct (unsupported (member_values mem) v) eqn:U.
      { assert (B : FR = Raise MappingError).
        { apply L3. rewrite E. eapply defect_after; [exact F'|]. apply first_defect_here. right. split; auto. right.
          exists x. split; auto. right. exists v, n. split; auto. rewrite <- unsupported_spec. congruence. }
        cbn [fst snd]. split; [auto|]. split; discriminate. }
      apply unsupported_spec in U.
      assert (B' : c_byte_size (alias_update (py_setattr st name v) c') = Some (n - (p - e))).
      { unfold alias_update. destruct (c_self c'); exact B2. }
      rewrite B'.
      pose proof (tail_spec orc fuel cls vals (bs ++ s) depth after X (len before + 1) (py_setattr st name v) (p + (n - (p - e))) (0 + (n - (p - e)))
        (alias_update (py_setattr st name v) c') (like_step _ _ _ _ _ name v (conj K1 (conj K2 K3)) K)) as T.
      assert (CA : c_state (alias_update (py_setattr st name v) c') = st_empty)
        by (unfold alias_update; destruct (c_self c'); exact C2).
      specialize (T CA).
      replace (p + (n - (p - e))) with (e + n) in * by lia.
      assert (GO : forall l s2 e2, fields orc fuel cls vals (bs ++ s) depth l (py_setattr st name v) (e + n) s2 e2 ->
         fields orc fuel cls vals (bs ++ s) depth (before ++ (mem, (name, Some x)) :: l) (blank cls attrs) off s2 e2).
      { intros l s2 e2 G. eapply fields_app; [exact F'|]. eapply fields_present; eauto. }
      assert (GD : forall P, first_defect orc fuel cls vals (bs ++ s) depth P after (py_setattr st name v) (e + n) ->
         first_defect orc fuel cls vals (bs ++ s) depth P (combine ms attrs) (blank cls attrs) off).
      { intros P G. rewrite E. eapply defect_after; [exact F'|]. eapply first_defect_present; eauto. }
      destruct (struct_loop _ _ _ _ _ _) as [t|j t|ex t|]; cbn [tail_outcome] in T.
      * destruct T as [T1 T2]. apply GO in T1. rewrite <- E in T1.
        replace (t_off t) with (off + (t_off t - off)) in T1 by lia. apply L1 in T1.
        pose proof (maps_fst _ _ _ _ _ _ _ _ _ T1) as T3. fold FR in T3.
        cbn [fst snd]. split; [congruence|]. split; [discriminate|].
        intros w Hw. inversion Hw; subst w. exists (t_off t - off). eexists. split; [reflexivity|].
        split; [exact T1|]. split; [reflexivity|].
        change (Some (t_size t) = Some (t_off t - off - (p - off))). f_equal. lia.
      * destruct T as (b & m & nm & y & a & e2 & sub0 & -> & T1 & T2 & J & T4 & T5 & T6 & _).
        assert (FS : FR = Raise ByteStreamTooSmallError).
        { apply L2. apply GD. exists b, m, nm, (Some y), a, (t_vals t), e2. split; auto. split; auto.
          split; auto. exists y. split; auto. unfold fails.
          rewrite <- (proj1 (fresh orc fuel y (bs ++ s) e2 sub0 (depth + 1) _ X T5 (proj1 (proj2 T4)))). now rewrite T6. }
        cbn [fst snd]. split; [auto|]. split; [|discriminate]. intros _.
        assert (E2 : combine ms attrs = (before ++ (mem, (name, Some x)) :: b) ++ (m, (nm, Some y)) :: a)
          by (rewrite E, <- app_assoc; reflexivity).
        assert (K' : keeps (Some sub0) (Some (t_sub t))).
        { pose proof (mapbs_keeps orc fuel y (bs ++ s) e2 (Some sub0) (depth + 1)) as K'. now rewrite T6 in K'. }
        destruct (susp_first orc fuel y X (in_fields E2 R) (in_fields E2 S) _ _ _ _ _ _ T5 (proj1 (proj2 T4)) T6) as (p2 & P2).
        exists p2. eexists. split; [reflexivity|].
        apply (susp_member _ _ _ d cls ms attrs op off vals depth (before ++ (mem, (name, Some x)) :: b) m nm y a (t_vals t) e2 p2 _ (t_sub t)); auto.
        -- destruct T4 as (X1 & X2 & X3). apply keeps_same in K'. destruct K' as [Y1 Y2].
           split; auto. split; [eapply same_values_trans; eauto|]. now rewrite Y2.
        -- cbn. f_equal. rewrite len_app, len_cons. lia.
      * destruct T as [-> T]. apply GD in T. apply L3 in T. cbn [fst snd]. split; [auto|]. split; discriminate.
      * apply GD in T. apply LF in T. cbn [fst snd]. split; [auto|]. split; discriminate.
    + assert (ex = ByteStreamTooSmallError \/ ex <> ByteStreamTooSmallError) as [->|Ne]
        by (destruct ex; (left; reflexivity) || (right; discriminate)).
      * destruct (R2 eq_refl) as (p' & c2 & Q & SU'). inversion Q; subst c2.
        assert (FS : FR = Raise ByteStreamTooSmallError).
        { apply L2. rewrite E. eapply defect_after; [exact F'|]. apply first_defect_here. split; auto.
          exists x. split; auto. symmetry. exact R1. }
        cbn [fst snd]. split; [auto|]. split; [|discriminate]. intros _. exists p'. eexists. split; [reflexivity|].
        apply (susp_member _ _ _ d cls ms attrs op off vals depth before mem name x after st e p' _ c'); auto.
        apply keeps_same in K. destruct K as [Y1 Y2].
        split; auto. split; [eapply same_values_trans; eauto|]. now rewrite Y2.
      * assert (B : FR = Raise MappingError).
        { apply L3. rewrite E. eapply defect_after; [exact F'|]. apply first_defect_here. right. split; auto. right.
          exists x. split; auto. left. exists ex. split; auto. symmetry. exact R1. }
        destruct ex; try congruence; cbn [fst snd]; (split; [auto|]; split; discriminate).
    + assert (B : FR = OutOfFuel).
      { apply LF. rewrite E. eapply defect_after; [exact F'|]. apply first_defect_here. split; auto. exists x. auto. }
      cbn [fst snd]. split; [auto|]. split; discriminate.
Qed.

(** An interrupted mapping stalls at one offset only. *)
Lemma stalls_not_maps orc fuel bs m off vals depth p : extensional orc ->
  stalls orc fuel bs m off vals depth p -> all_maps steady m -> resumable m ->
  forall v n, ~ maps orc fuel m bs off vals depth v n.
Proof.
  intros X H. induction H as [m off vals depth W F|d cls ms attrs op off vals depth before mem name x after s e p E F C H IH
    |e t x op off vals depth vs p|e t x op off vals depth vs o p|d i x df es off vals depth p|d i b df es off vals depth id y p];
    intros S R v n M; [| |destruct R..].
  - apply maps_fst in M. unfold fails in F. congruence.
  - apply resumable_attrs in R. pose proof (all_maps_here _ _ S) as [SL SN]. apply all_maps_attrs in S. destruct S as [_ S].
    destruct (Z.lt_ge_cases 10 depth) as [D|D].
    { apply maps_fst in M. rewrite too_deep in M by (cbn; auto). discriminate. }
    pose proof (maps_clear _ _ _ _ _ _ _ _ _ _ _ _ _ _ M) as CN.
    apply (structure_layout orc fuel d cls ms attrs op bs off vals depth X SL SN CN D) in M.
    rewrite E in M. apply (fields_prefix_det orc fuel cls vals bs depth _ _ _ _ _ _ _ _ F) in M.
    inversion M; subst.
    + eapply (IH (in_fields E S) (in_fields E R)); eauto.
    + match goal with H' : condition_is _ _ _ false |- _ => pose proof (condition_det _ _ _ _ _ C H'); discriminate end.
Qed.

Lemma stalls_det orc fuel bs m off vals depth p q : extensional orc -> all_maps steady m -> resumable m ->
  stalls orc fuel bs m off vals depth p -> stalls orc fuel bs m off vals depth q -> p = q.
Proof.
  intros X S R H. revert q S R. induction H as [m off vals depth W F|d cls ms attrs op off vals depth before mem name x after s e p E F C H IH
    |e t x op off vals depth vs p|e t x op off vals depth vs o p|d i x df es off vals depth p|d i b df es off vals depth id y p];
    intros q S R Q; [| |destruct R..].
  - inversion Q; subst; auto; contradiction.
  - apply resumable_attrs in R. pose proof S as S0. apply all_maps_attrs in S. destruct S as [_ S].
    inversion Q as [? ? ? ? W|? ? ? ? ? ? ? ? before' mem' name' x' after' s' e' ? E' F' C' H'| | | |]; subst; [contradiction|].
    rewrite E in E'.
    assert (NB : forall (b1 : list field) m1 n1 y1 r1 s1 o1 b2 s2 o2 q1, combine ms attrs = b1 ++ (m1, (n1, Some y1)) :: r1 ->
      fields orc fuel cls vals bs depth b1 (blank cls attrs) off s1 o1 -> condition_is orc m1 (scope cls s1 vals) true ->
      stalls orc fuel bs y1 o1 (scope cls s1 vals) (depth + 1) q1 ->
      fields orc fuel cls vals bs depth (b1 ++ (m1, (n1, Some y1)) :: b2) (blank cls attrs) off s2 o2 -> False).
    { intros b1 m1 n1 y1 r1 s1 o1 b2 s2 o2 q1 E1 F1 C1 S1 F2.
      apply (fields_prefix_det orc fuel cls vals bs depth _ _ _ _ _ _ _ _ F1) in F2. inversion F2; subst.
      - eapply (stalls_not_maps orc fuel bs y1); eauto; [exact (in_fields E1 S)|exact (in_fields E1 R)].
      - match goal with H' : condition_is _ _ _ false |- _ => pose proof (condition_det _ _ _ _ _ C1 H'); discriminate end. }
    destruct (list_split _ _ _ _ _ _ E') as [(-> & EQ & _)|[[t ->]|[t ->]]].
    + inversion EQ; subst. destruct (fields_det _ _ _ _ _ _ _ _ _ _ _ _ _ F F'); subst. apply IH; auto; [exact (in_fields E S)|exact (in_fields E R)].
    + exfalso. eapply NB; eauto.
    + exfalso. rewrite E' in E. eapply NB; eauto.
Qed.

Lemma interrupted_susp orc fuel m off vals depth bs c : extensional orc -> resumable m -> all_maps steady m ->
  interrupted orc fuel m off vals depth bs c ->
  0 <= off <= len bs /\ exists p, susp orc fuel bs m off vals depth p c.
Proof.
  intros X R S H. induction H as [bs c Ho M|bs c s p c' H IH ST M].
  - split; auto. eapply susp_first; eauto; [reflexivity|apply same_values_refl].
  - destruct IH as (Ho & q & SU). split; [rewrite len_app; pose proof (len_nonneg s); lia|].
    pose proof (susp_stalls _ _ _ _ _ _ _ _ _ SU) as SQ. pose proof (stalls_det _ _ _ _ _ _ _ _ _ X S R ST SQ). subst q.
    destruct (susp_resume orc fuel bs m off vals depth p c X SU R S Ho) as [_ RS].
    destruct (RS s) as (_ & R2 & _). rewrite M in R2. destruct (R2 eq_refl) as (p' & c2 & E & SU'). inversion E; subst. eauto.
Qed.

(** C29 *)
Lemma resume orc fuel d m off vals depth bs c :
  extensional orc -> everywhere sound d -> create orc d None = Ok (Some m) -> resumable m ->
  interrupted orc fuel m off vals depth bs c ->
  exists p, off <= p <= len bs /\ stalls orc fuel bs m off vals depth p /\
    (forall q, stalls orc fuel bs m off vals depth q -> q = p) /\
    forall s,
      let r := mapbs orc fuel m (bs ++ s) p (Some c) depth in
      fst r = fst (mapbs orc fuel m (bs ++ s) off (Some (ctx_new vals)) depth) /\
      forall v n, maps orc fuel m (bs ++ s) off vals depth v n ->
        exists c', r = (Ok v, Some c') /\ c_state c' = st_empty /\ c_byte_size c' = Some (off + n - p).
Proof.
  intros X E C R I. pose proof (all_steady _ _ _ E C) as S.
  destruct (interrupted_susp _ _ _ _ _ _ _ _ X R S I) as (Ho & p & SU). exists p.
  destruct (susp_resume orc fuel bs m off vals depth p c X SU R S Ho) as [Op RS]. split; auto.
  split; [eapply susp_stalls; eauto|]. split.
  - intros q Q. eapply stalls_det; eauto. eapply susp_stalls; eauto.
  - intros s. destruct (RS s) as (R1 & _ & R3). cbn zeta. split; [exact R1|].
    intros v n M. pose proof (maps_fst _ _ _ _ _ _ _ _ _ M) as MF. rewrite <- R1 in MF.
    destruct (R3 v MF) as (n' & c' & H1 & H2 & H3 & H4). destruct (maps_det _ _ _ _ _ _ _ _ _ _ _ M H2) as [_ <-].
    exists c'. split; [|split; auto].
    + destruct (mapbs orc fuel m (bs ++ s) p (Some c) depth). cbn in *. congruence.
    + rewrite H4. f_equal. lia.
Qed.
