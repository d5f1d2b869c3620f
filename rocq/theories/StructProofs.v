(** Composite structures: the member loop is the layout relation [fields]. *)
From Coq Require Import String List ZArith Bool Lia.
From Verif Require Import Base PyVal PyStruct DataTypes ClassFactory DataMaps.
From Verif Require Import BytesProofs ContainerProofs SpecPrim SpecMap MapProofs ContextProofs.
Import ListNotations.
Open Scope Z_scope.

(** Any clean context with the same values gives the outcome of a fresh one. *)
Lemma fresh orc fuel m bs off c depth vals : extensional orc ->
  c_state c = st_empty -> same_values (c_values c) vals ->
  fst (mapbs orc fuel m bs off (Some c) depth) =
  fst (mapbs orc fuel m bs off (Some (ctx_new vals)) depth) /\
  forall v, fst (mapbs orc fuel m bs off (Some c) depth) = Ok v ->
    exists n c', maps orc fuel m bs off vals depth v n /\
      snd (mapbs orc fuel m bs off (Some c) depth) = Some c' /\
      c_byte_size c' = Some n /\ c_state c' = st_empty /\
      (c_values c' = c_values c \/ c_values c' = ns (c_values c)) /\ c_self c' = c_self c.
Proof.
  intros E C V.
  destruct (mapbs_agrees orc E fuel m bs off depth (Some c) (Some (ctx_new vals)) C eq_refl V) as [A B].
  split; [exact A|]. intros v Hv.
  pose proof (mapbs_keeps orc fuel m bs off (Some c) depth) as K1.
  pose proof (mapbs_keeps orc fuel m bs off (Some (ctx_new vals)) depth) as K2.
  destruct (B v Hv) as (C1 & C2 & n & R1 & R2). rewrite A in Hv. unfold maps.
  destruct (mapbs orc fuel m bs off (Some c) depth) as [r1 [c1|]]; [|cbn in K1; tauto].
  destruct (mapbs orc fuel m bs off (Some (ctx_new vals)) depth) as [r2 [c2|]]; [|cbn in K2; tauto].
  cbn in *. subst r2. rewrite Hv. destruct K1. exists n, c1. split; [exists c2; auto|]. repeat split; auto.
Qed.

Lemma maps_det orc fuel m bs off vals depth v n v' n' :
  maps orc fuel m bs off vals depth v n -> maps orc fuel m bs off vals depth v' n' ->
  v = v' /\ n = n'.
Proof.
  intros (c & E & H) (c' & E' & H'). rewrite E in E'. inversion E'; subst. split; congruence.
Qed.

Lemma maps_fst orc fuel m bs off vals depth v n :
  maps orc fuel m bs off vals depth v n ->
  fst (mapbs orc fuel m bs off (Some (ctx_new vals)) depth) = Ok v.
Proof. intros (c & E & _). now rewrite E. Qed.

Lemma maps_ok orc fuel m bs off vals depth v : extensional orc ->
  fst (mapbs orc fuel m bs off (Some (ctx_new vals)) depth) = Ok v ->
  exists n, maps orc fuel m bs off vals depth v n.
Proof.
  intros E H. destruct (fresh orc fuel m bs off (ctx_new vals) depth vals E eq_refl (same_values_refl _)) as [_ F].
  destruct (F v H) as (n & c' & M & _). eauto.
Qed.

Section WithOracle.
Variable orc : oracle.
Hypothesis ext : extensional orc.
Variables (fuel : nat) (cls : string) (vals : env) (bs : bytes) (depth : Z).

(** The attribute of the member loop for a field. *)
Definition attr_of (f : field) : attr :=
  mkAttr (fst (snd f))
    (match snd (snd f) with Some y => Some (mapbs orc fuel y) | None => None end)
    (member_cond (fst f)) (member_values (fst f)).

Lemma attrs_of_fields ms attrs :
  attrs_of ms (map (fun x => (fst x, match snd x with Some y => Some (mapbs orc fuel y) | None => None end)) attrs)
  = map attr_of (combine ms attrs).
Proof.
  unfold attrs_of. revert attrs. induction ms as [|m ms IH]; intros [|[n a] attrs]; cbn; auto.
  now rewrite IH.
Qed.

(** The subcontext while the structure read so far is [s]. *)
Definition sub_inv (sub : ctx) (s : pyval) : Prop :=
  type_name s = cls /\ (exists a, s = VStruct cls a) /\
  c_state sub = st_empty /\ same_values (c_values sub) (scope cls s vals) /\
  c_self sub = (if dict_mem cls vals then None else Some cls).

Lemma sub_inv_new a : sub_inv (struct_subcontext (VStruct cls a) vals) (VStruct cls a).
Proof.
  unfold struct_subcontext. repeat split; cbn [type_name c_state c_values c_self]; eauto.
  intros k Hk. unfold scope. rewrite dict_get_update, dict_get_app. cbn.
  destruct (dict_get k vals); auto.
Qed.

Lemma setattr_struct s n v : (exists a, s = VStruct cls a) -> exists a, py_setattr s n v = VStruct cls a.
Proof. intros [a ->]. cbn. eauto. Qed.

Lemma sub_inv_step sub s c' n v :
  sub_inv sub s -> c_state c' = st_empty ->
  (c_values c' = c_values sub \/ c_values c' = ns (c_values sub)) -> c_self c' = c_self sub ->
  sub_inv (alias_update (py_setattr s n v) c') (py_setattr s n v).
Proof.
  intros (T & E & C & V & F) C' V' F'. destruct (setattr_struct s n v E) as [a Ha].
  rewrite Ha. split; [reflexivity|]. split; [eauto|].
  assert (SV : same_values (c_values c') (scope cls s vals)).
  { destruct V' as [->| ->]; auto. eapply same_values_trans; [apply same_values_ns|auto]. }
  unfold alias_update. rewrite F', F. destruct (dict_mem cls vals) eqn:M.
  - split; [exact C'|]. split; [|rewrite F', F; reflexivity].
    intros k Hk. rewrite (SV k Hk). unfold scope. rewrite !dict_get_app. cbn.
    destruct (dict_get k vals) eqn:G; auto.
    destruct (String.eqb_spec k cls); auto. subst. unfold dict_mem in M. now rewrite G in M.
  - split; [exact C'|]. split; [|cbn; rewrite F', F; reflexivity].
    intros k Hk. cbn [set_values c_values]. rewrite dict_get_set. unfold scope. rewrite dict_get_app. cbn.
    destruct (String.eqb_spec k cls).
    + subst. apply dict_mem_false in M. now rewrite M.
    + rewrite (SV k Hk). unfold scope. rewrite dict_get_app. cbn.
      destruct (String.eqb_spec k cls); congruence.
Qed.

Lemma condition_spec d e b : condition_is orc d e b <-> eval_condition orc (member_cond d) e = Ok b.
Proof.
  unfold condition_is, eval_condition. destruct (truthy_str (member_cond d)).
  - destruct (o_eval orc s (ns e)); split; congruence.
  - split; congruence.
Qed.

Lemma condition_bad_spec d e : condition_bad orc d e <-> eval_condition orc (member_cond d) e = Raise MappingError.
Proof.
  unfold condition_bad, eval_condition. destruct (truthy_str (member_cond d)).
  - destruct (o_eval orc s (ns e)); split; try congruence. intros H. exfalso. eapply H. reflexivity.
  - split; [tauto|discriminate].
Qed.

Lemma condition_cases d e :
  condition_is orc d e true \/ condition_is orc d e false \/ condition_bad orc d e.
Proof.
  rewrite !condition_spec, condition_bad_spec. unfold eval_condition.
  destruct (truthy_str (member_cond d)); auto.
  destruct (o_eval orc s (ns e)); auto. destruct b; auto.
Qed.

Lemma unsupported_spec d v : unsupported (member_values d) v = false <-> allowed d v.
Proof.
  unfold unsupported, allowed. destruct (member_values d) as [[|x r]|]; try tauto.
  rewrite negb_false_iff. unfold py_in. rewrite existsb_exists. tauto.
Qed.

Definition member_fuel (d : dtype) (x : option dmap) (s : pyval) (off : Z) : Prop :=
  condition_is orc d (scope cls s vals) true /\ exists y, x = Some y /\
  fst (mapbs orc fuel y bs off (Some (ctx_new (scope cls s vals))) (depth + 1)) = OutOfFuel.

Definition loop_outcome (l : list field) (s : pyval) (off : Z) (size : Z) (o : strout) : Prop :=
  match o with
  | RDone t => fields orc fuel cls vals bs depth l s off (t_vals t) (t_off t) /\
      t_size t - size = t_off t - off
  | RTooSmall _ _ => first_defect orc fuel cls vals bs depth
      (member_short orc fuel cls vals bs depth) l s off
  | RExc e _ => e = MappingError /\ first_defect orc fuel cls vals bs depth
      (member_bad orc fuel cls vals bs depth) l s off
  | RFuel => first_defect orc fuel cls vals bs depth member_fuel l s off
  end.

Lemma first_defect_absent P d n x l s off :
  condition_is orc d (scope cls s vals) false ->
  first_defect orc fuel cls vals bs depth P l s off ->
  first_defect orc fuel cls vals bs depth P ((d, (n, x)) :: l) s off.
Proof.
  intros C (b & d' & n' & x' & a & s' & o' & -> & F & H).
  exists ((d, (n, x)) :: b), d', n', x', a, s', o'. repeat split; auto. now apply fields_absent.
Qed.

Lemma first_defect_present P d name x l s off v n :
  condition_is orc d (scope cls s vals) true ->
  maps orc fuel x bs off (scope cls s vals) (depth + 1) v n -> allowed d v ->
  first_defect orc fuel cls vals bs depth P l (py_setattr s name v) (off + n) ->
  first_defect orc fuel cls vals bs depth P ((d, (name, Some x)) :: l) s off.
Proof.
  intros C M A (b & d' & n' & x' & a & s' & o' & -> & F & H).
  exists ((d, (name, Some x)) :: b), d', n', x', a, s', o'. repeat split; auto.
  eapply fields_present; eauto.
Qed.

Lemma first_defect_here (P : dtype -> option dmap -> pyval -> Z -> Prop) d name x l s off : P d x s off ->
  first_defect orc fuel cls vals bs depth P ((d, (name, x)) :: l) s off.
Proof. intros H. exists [], d, name, x, l, s, off. repeat split; auto. constructor. Qed.

Lemma loop_spec l : forall i s off size sub, sub_inv sub s ->
  loop_outcome l s off size (struct_loop orc (map attr_of l) i bs depth (mkStr off size s sub)).
Proof.
  induction l as [|[d [name x]] l IH]; intros i s off size sub I.
  - cbn. split; [constructor|lia].
  - cbn [map struct_loop attr_of a_cond a_map a_name a_vals fst snd t_off t_size t_vals t_sub].
    destruct I as (T & E & C & V & F).
    rewrite (condition_agrees orc ext (member_cond d) _ _ V).
    assert (CC := condition_cases d (scope cls s vals)).
    rewrite !condition_spec, condition_bad_spec in CC.
    destruct CC as [CC|[CC|CC]]; rewrite CC.
    + apply condition_spec in CC.
      destruct x as [x|].
      2:{ cbn. split; auto. apply first_defect_here. right. auto. }
      destruct (fresh orc fuel x bs off sub (depth + 1) _ ext C V) as [Hf Hs].
      destruct (mapbs orc fuel x bs off (Some sub) (depth + 1)) as [r c'] eqn:M. cbn [fst snd] in Hf, Hs.
      destruct r as [v|e|].
      * destruct (Hs v eq_refl) as (n & c2 & Mp & -> & B & C2 & V2 & F2). cbn [opt_default].
        destruct (unsupported (member_values d) v) eqn:U.
        { cbn. split; auto. apply first_defect_here. right. split; auto. right. exists x. split; auto.
          right. exists v, n. split; auto. rewrite <- unsupported_spec. congruence. }
        apply unsupported_spec in U.
        assert (B' : c_byte_size (alias_update (py_setattr s name v) c2) = Some n).
        { unfold alias_update. destruct (c_self c2); exact B. }
        rewrite B'.
        assert (I' := sub_inv_step sub s c2 name v (conj T (conj E (conj C (conj V F)))) C2 V2 F2).
        specialize (IH (i + 1) (py_setattr s name v) (off + n) (size + n) _ I').
        destruct (struct_loop _ _ _ _ _ _); cbn in *.
        -- destruct IH as [IH1 IH2]. split; [|lia]. eapply fields_present; eauto.
        -- eapply first_defect_present; eauto.
        -- destruct IH as [IH1 IH2]. split; auto. eapply first_defect_present; eauto.
        -- eapply first_defect_present; eauto.
      * assert (e = ByteStreamTooSmallError \/ e <> ByteStreamTooSmallError) as [->|Ne]
          by (destruct e; (left; reflexivity) || (right; discriminate)).
        { cbn. apply first_defect_here. split; auto. exists x. split; auto. symmetry. exact Hf. }
        assert (W : first_defect orc fuel cls vals bs depth (member_bad orc fuel cls vals bs depth)
                      ((d, (name, Some x)) :: l) s off).
        { apply first_defect_here. right. split; auto. right. exists x. split; auto. left.
          exists e. split; auto. symmetry. exact Hf. }
        destruct e; try (cbn; split; auto); congruence.
      * cbn. apply first_defect_here. split; auto. exists x. auto.
    + apply condition_spec in CC.
      specialize (IH (i + 1) s off size sub (conj T (conj E (conj C (conj V F))))).
      destruct (struct_loop _ _ _ _ _ _); cbn in *.
      * destruct IH. split; auto. now apply fields_absent.
      * now apply first_defect_absent.
      * destruct IH. split; auto. now apply first_defect_absent.
      * now apply first_defect_absent.
    + cbn. split; auto. apply first_defect_here. left. now apply condition_bad_spec.
Qed.

(** The relation is deterministic, and excludes defects. *)
Lemma condition_det d e b b' : condition_is orc d e b -> condition_is orc d e b' -> b = b'.
Proof. rewrite !condition_spec. congruence. Qed.

Lemma condition_bad_not d e b : condition_is orc d e b -> ~ condition_bad orc d e.
Proof. rewrite condition_spec, condition_bad_spec. congruence. Qed.

Lemma fields_prefix_det l1 : forall l2 s off s1 e1 s2 e2,
  fields orc fuel cls vals bs depth l1 s off s1 e1 ->
  fields orc fuel cls vals bs depth (l1 ++ l2) s off s2 e2 ->
  fields orc fuel cls vals bs depth l2 s1 e1 s2 e2.
Proof.
  induction l1 as [|[d [name x]] l1 IH]; intros l2 s off s1 e1 s2 e2 F1 F2; cbn in F2.
  - inversion F1; subst. exact F2.
  - inversion F1; subst; inversion F2; subst;
      try (exfalso; match goal with H : condition_is _ ?d ?e true, H' : condition_is _ ?d ?e false |- _ =>
        pose proof (condition_det _ _ _ _ H H'); discriminate end).
    + match goal with H : maps _ _ _ _ _ _ _ ?v ?n, H' : maps _ _ _ _ _ _ _ ?v' ?n' |- _ =>
        destruct (maps_det _ _ _ _ _ _ _ _ _ _ _ H H'); subst end. eauto.
    + eauto.
Qed.

Lemma fields_det l s off s1 e1 s2 e2 :
  fields orc fuel cls vals bs depth l s off s1 e1 ->
  fields orc fuel cls vals bs depth l s off s2 e2 -> s1 = s2 /\ e1 = e2.
Proof.
  intros F1 F2. rewrite <- (app_nil_r l) in F2.
  pose proof (fields_prefix_det _ _ _ _ _ _ _ _ F1 F2) as H. inversion H; auto.
Qed.

Lemma fuel_not_bad d x s off : member_fuel d x s off -> ~ member_bad orc fuel cls vals bs depth d x s off.
Proof.
  intros (C & y & -> & F) [B|(_ & [B|(y' & E & B)])].
  - eapply condition_bad_not; eauto.
  - discriminate.
  - inversion E; subst y'. destruct B as [(e & Ne & F')|(v & n & M & _)].
    + unfold fails in *. congruence.
    + apply maps_fst in M. congruence.
Qed.

Lemma fuel_not_short d x s off : member_fuel d x s off -> ~ member_short orc fuel cls vals bs depth d x s off.
Proof. intros (C & y & -> & F) (_ & y' & E & G). inversion E; subst. unfold fails in G. congruence. Qed.

Lemma short_not_bad d x s off :
  member_short orc fuel cls vals bs depth d x s off -> ~ member_bad orc fuel cls vals bs depth d x s off.
Proof.
  intros (C & y & -> & F) [B|(_ & [B|(y' & E & B)])].
  - eapply condition_bad_not; eauto.
  - discriminate.
  - inversion E; subst y'. destruct B as [(e & Ne & F')|(v & n & M & _)].
    + unfold fails in *. congruence.
    + apply maps_fst in M. unfold fails in *. congruence.
Qed.

(** A member with a defect, and one that runs out of fuel, cannot be passed. *)
Lemma defect_not_fields d name x r s off s' e :
  member_short orc fuel cls vals bs depth d x s off \/ member_bad orc fuel cls vals bs depth d x s off \/
  member_fuel d x s off ->
  ~ fields orc fuel cls vals bs depth ((d, (name, x)) :: r) s off s' e.
Proof.
  intros H F. inversion F; subst.
  - match goal with M : maps _ _ _ _ _ _ _ _ _ |- _ => pose proof (maps_fst _ _ _ _ _ _ _ _ _ M) as MF end.
    destruct H as [(C & y & E & G)|[[B|(_ & [B|(y & E & B)])]|(C & y & E & G)]].
    + inversion E; subst. unfold fails in G. congruence.
    + eapply condition_bad_not; eauto.
    + discriminate.
    + inversion E; subst. destruct B as [(e0 & Ne & G)|(v' & n' & M & A)].
      * unfold fails in G. congruence.
      * match goal with M' : maps _ _ _ _ _ _ _ v _ |- _ => destruct (maps_det _ _ _ _ _ _ _ _ _ _ _ M M'); subst end. auto.
    + inversion E; subst. congruence.
  - destruct H as [(C & _)|[[B|(C & _)]|(C & _)]].
    + match goal with H' : condition_is _ _ _ false |- _ => pose proof (condition_det _ _ _ _ C H'); discriminate end.
    + eapply condition_bad_not; eauto.
    + match goal with H' : condition_is _ _ _ false |- _ => pose proof (condition_det _ _ _ _ C H'); discriminate end.
    + match goal with H' : condition_is _ _ _ false |- _ => pose proof (condition_det _ _ _ _ C H'); discriminate end.
Qed.

Lemma list_split {A} (l1 l2 r1 r2 : list A) x y : l1 ++ x :: r1 = l2 ++ y :: r2 ->
  (l1 = l2 /\ x = y /\ r1 = r2) \/ (exists t, l2 = l1 ++ x :: t) \/ (exists t, l1 = l2 ++ y :: t).
Proof.
  revert l2. induction l1 as [|a l1 IH]; intros [|b l2] H; cbn in H; inversion H; subst.
  - auto.
  - right. left. exists l2. reflexivity.
  - right. right. exists l1. reflexivity.
  - destruct (IH _ H2) as [(-> & -> & ->)|[[t ->]|[t ->]]]; auto.
    + right. left. exists t. reflexivity.
    + right. right. exists t. reflexivity.
Qed.

Definition blocks (P : dtype -> option dmap -> pyval -> Z -> Prop) : Prop :=
  forall d name x r s off s' e, P d x s off -> ~ fields orc fuel cls vals bs depth ((d, (name, x)) :: r) s off s' e.

Lemma blocks_short : blocks (member_short orc fuel cls vals bs depth).
Proof. intros d name x r s off s' e H. apply defect_not_fields. auto. Qed.
Lemma blocks_bad : blocks (member_bad orc fuel cls vals bs depth).
Proof. intros d name x r s off s' e H. apply defect_not_fields. auto. Qed.
Lemma blocks_fuel : blocks member_fuel.
Proof. intros d name x r s off s' e H. apply defect_not_fields. auto. Qed.

Lemma defect_no_fields P l s off s' e : blocks P ->
  first_defect orc fuel cls vals bs depth P l s off ->
  ~ fields orc fuel cls vals bs depth l s off s' e.
Proof.
  intros B (b & d & n & x & a & s1 & o1 & -> & F & H) G.
  pose proof (fields_prefix_det _ _ _ _ _ _ _ _ F G) as K. eapply B; eauto.
Qed.

Lemma defects_exclude P Q l s off : blocks P -> blocks Q ->
  (forall d x s off, P d x s off -> ~ Q d x s off) ->
  first_defect orc fuel cls vals bs depth P l s off ->
  ~ first_defect orc fuel cls vals bs depth Q l s off.
Proof.
  intros BP BQ X (b & d & n & x & a & s1 & o1 & E1 & F & H) (b' & d' & n' & x' & a' & s2 & o2 & E2 & F' & H').
  subst l. destruct (list_split _ _ _ _ _ _ E2) as [(-> & E & _)|[[t ->]|[t ->]]].
  - inversion E; subst. destruct (fields_det _ _ _ _ _ _ _ F F'); subst. eapply X; eauto.
  - pose proof (fields_prefix_det _ _ _ _ _ _ _ _ F F') as K. eapply BP; eauto.
  - pose proof (fields_prefix_det _ _ _ _ _ _ _ _ F' F) as K. eapply BQ; eauto.
Qed.

End WithOracle.

(** ** The shape of created structure maps *)

Lemma bind_ok {A B} (r : res A) (k : A -> res B) b : bind r k = Ok b -> exists a, r = Ok a /\ k a = Ok b.
Proof. destruct r; cbn; try discriminate. eauto. Qed.

Lemma member_maps_names sname sbo ms : forall cache attrs,
  member_maps sname sbo ms cache = Ok attrs -> map fst attrs = map dt_name (map fst ms).
Proof.
  induction ms as [|[m mk] ms IH]; intros cache attrs H; cbn in H.
  - inversion H; reflexivity.
  - apply bind_ok in H. destruct H as (ov & _ & H).
    destruct (dict_get _ cache).
    + apply bind_ok in H. destruct H as (rest & R & H). inversion H. cbn. f_equal. eauto.
    + apply bind_ok in H. destruct H as (mp & _ & H).
      apply bind_ok in H. destruct H as (rest & R & H). inversion H. cbn. f_equal. eauto.
Qed.

Lemma map_fst_pair' {A B} (f : A -> B) (l : list A) : map fst (map (fun d => (d, f d)) l) = l.
Proof. rewrite map_map. cbn. apply map_id. Qed.

Lemma create_class_shape name ms cls : create_class name ms = Ok cls ->
  cls = name /\ ms <> [] /\ NoDup (map dt_name ms).
Proof.
  unfold create_class. intros H. apply bind_ok in H. destruct H as (u & V & H).
  apply bind_ok in H. destruct H as (u' & _ & H).
  destruct (str_nodup _) eqn:N; [|discriminate]. cbn [andb] in H. destruct (negb _); [|discriminate].
  inversion H; subst. split; auto. split.
  - intros ->. unfold validate_class in V. destruct (negb _); [discriminate|]. destruct (is_keyword _); discriminate.
  - apply str_nodup_spec in N. now inversion N.
Qed.

Lemma create_structure_inv orc name bo d ms m :
  create_structure orc name bo d ms = Ok m ->
  exists attrs, member_maps name bo ms [] = Ok attrs /\
    map fst ms <> [] /\ NoDup (map dt_name (map fst ms)) /\
    map fst attrs = map dt_name (map fst ms) /\
    ((check_linear bo (map fst ms) = Ok true /\
      exists op, struct_op orc bo attrs = Ok op /\ m = MStructure true d name (map fst ms) attrs op) \/
     (check_linear bo (map fst ms) = Ok false /\ m = MStructure false d name (map fst ms) attrs None)).
Proof.
  unfold create_structure. intros H. apply bind_ok in H. destruct H as (cls & C & H).
  apply create_class_shape in C. destruct C as (-> & N & D).
  apply bind_ok in H. destruct H as (attrs & A & H). exists attrs. split; auto.
  apply bind_ok in H. destruct H as (lin & L & H).
  repeat split; auto. { eapply member_maps_names; eauto. }
  destruct lin.
  - apply bind_ok in H. destruct H as (op & O & H). left. split; auto. exists op. split; auto. congruence.
  - right. split; auto. congruence.
Qed.

Definition inner_maker orc (m : dtype) : maker :=
  match m with DMember _ _ _ _ _ i => create orc i | _ => create orc m end.

Lemma created_structure orc mt bo ms ov m :
  create orc (DStructure mt bo ms) ov = Ok (Some m) ->
  create_structure orc (ov_name ov (m_name mt)) (ov_bo ov bo) (apply_ov ov (DStructure mt bo ms))
    (map (fun m => (m, inner_maker orc m)) ms) = Ok m.
Proof.
  cbn [create]. intros H. apply bind_ok in H. destruct H as (s & H & E). inversion E; subst. exact H.
Qed.

(** ** Structures *)

(** Only structures with clear names can be mapped. *)
Lemma maps_clear orc fuel lin d cls ms attrs op bs off vals depth v n :
  maps orc fuel (MStructure lin d cls ms attrs op) bs off vals depth v n ->
  clear_names cls (map fst attrs).
Proof.
  intros (c & M & _). apply constructible_spec. cbn [mapbs] in M.
  destruct (constructible cls (map fst attrs)) eqn:E; auto. exfalso.
  assert (I : forall args, instance cls (map fst attrs) args = Raise (constructor_error cls (map fst attrs)))
    by (intros args; unfold instance; now rewrite E).
  destruct lin.
  - unfold map_struct_linear in M. destruct (get_byte_size d); [|discriminate].
    destruct (_ <? _); [discriminate|]. destruct op; [|discriminate].
    destruct (read_from _ _); cbn [bind] in M; try discriminate.
    destruct (linear_values _ _ _); cbn [bind] in M; try discriminate.
    rewrite I in M. discriminate.
  - unfold map_struct in M. destruct (_ <? _); [discriminate|].
    unfold struct_values in M. cbn in M. rewrite I in M. discriminate.
Qed.

Lemma clear_dec cls names : clear_names cls names \/ constructible cls names = false.
Proof. destruct (constructible cls names) eqn:E; auto. left. now apply constructible_spec. Qed.

(** Mapping a structure with other names member by member always fails. *)
Lemma unclear_run orc fuel d cls ms attrs op bs off vals depth :
  constructible cls (map fst attrs) = false -> depth <= 10 ->
  mapbs orc fuel (MStructure false d cls ms attrs op) bs off (Some (ctx_new vals)) depth =
    (Raise (constructor_error cls (map fst attrs)), Some (ctx_new vals)).
Proof.
  intros E D. cbn [mapbs]. unfold map_struct.
  replace (max_depth <? depth) with false by (symmetry; apply Z.ltb_ge; unfold max_depth; lia).
  unfold struct_values, instance. cbn [ctx_state c_state ctx_new st_empty s_mapped_values].
  rewrite E. reflexivity.
Qed.

Lemma struct_runs orc fuel d cls ms attrs op bs off vals depth :
  extensional orc -> List.length ms = List.length attrs -> ms <> [] ->
  clear_names cls (map fst attrs) -> depth <= 10 ->
  let o := struct_loop orc (map (attr_of orc fuel) (combine ms attrs)) 0 bs depth
     (mkStr off 0 (blank cls attrs) (struct_subcontext (blank cls attrs) vals)) in
  loop_outcome orc fuel cls vals bs depth (combine ms attrs) (blank cls attrs) off 0 o /\
  fst (mapbs orc fuel (MStructure false d cls ms attrs op) bs off (Some (ctx_new vals)) depth) =
    match o with
    | RFuel => OutOfFuel
    | RTooSmall _ _ => Raise ByteStreamTooSmallError
    | RExc e _ => Raise e
    | RDone t => Ok (t_vals t)
    end /\
  (forall t, o = RDone t ->
    maps orc fuel (MStructure false d cls ms attrs op) bs off vals depth (t_vals t) (t_size t)).
Proof.
  intros E L N CN D o. split.
  { apply (loop_spec orc E). apply sub_inv_new. }
  cbn [mapbs]. unfold map_struct, maps. cbn [mapbs]. unfold map_struct.
  replace (max_depth <? depth) with false by (symmetry; apply Z.ltb_ge; unfold max_depth; lia).
  cbn [ctx_state c_state ctx_new st_empty s_attribute_index s_mapped_values s_context opt_default ctx_values c_values].
  rewrite attrs_of_fields, (struct_values_new _ _ _ CN) by reflexivity.
  assert (B : new_struct cls (map fst attrs) [] = blank cls attrs).
  { unfold new_struct, blank. f_equal. clear. induction attrs as [|[n a] l IH]; cbn; auto. now rewrite IH. }
  rewrite B.
  assert (LL : len (map (attr_of orc fuel) (combine ms attrs)) <=? 0 = false).
  { apply Z.leb_gt. destruct ms as [|m0 ms]; [congruence|]. destruct attrs as [|a0 attrs]; [discriminate|].
    cbn [combine map]. rewrite len_cons. match goal with |- context [len ?z] => pose proof (len_nonneg z) end. lia. }
  rewrite LL. change (Z.to_nat 0) with O. cbn [skipn].
  change (struct_loop orc (map (attr_of orc fuel) (combine ms attrs)) 0 bs depth
       (mkStr off 0 (blank cls attrs) (struct_subcontext (blank cls attrs) vals))) with o.
  split; [destruct o; reflexivity|].
  intros t ->. eexists. split; [reflexivity|]. reflexivity.
Qed.

Lemma structure_layout orc fuel d cls ms attrs op bs off vals depth :
  extensional orc -> List.length ms = List.length attrs -> ms <> [] ->
  clear_names cls (map fst attrs) -> depth <= 10 ->
  let m := MStructure false d cls ms attrs op in
  (forall v n, maps orc fuel m bs off vals depth v n <->
     fields orc fuel cls vals bs depth (combine ms attrs) (blank cls attrs) off v (off + n)) /\
  (fails orc fuel m bs off vals depth ByteStreamTooSmallError <->
     first_defect orc fuel cls vals bs depth (member_short orc fuel cls vals bs depth)
       (combine ms attrs) (blank cls attrs) off) /\
  (fails orc fuel m bs off vals depth MappingError <->
     first_defect orc fuel cls vals bs depth (member_bad orc fuel cls vals bs depth)
       (combine ms attrs) (blank cls attrs) off) /\
  (forall e, fails orc fuel m bs off vals depth e -> e = ByteStreamTooSmallError \/ e = MappingError).
Proof.
  intros E L N CN D m. subst m.
  destruct (struct_runs orc fuel d cls ms attrs op bs off vals depth E L N CN D) as (O & F & M).
  set (o := struct_loop _ _ _ _ _ _) in *. set (l := combine ms attrs) in *. set (s := blank cls attrs) in *.
  unfold fails. rewrite F.
  assert (BS := blocks_short orc fuel cls vals bs depth).
  assert (BB := blocks_bad orc fuel cls vals bs depth).
  assert (BF := blocks_fuel orc fuel cls vals bs depth).
  assert (SB := short_not_bad orc fuel cls vals bs depth).
  assert (FB := fuel_not_bad orc fuel cls vals bs depth).
  assert (FS := fuel_not_short orc fuel cls vals bs depth).
  split; [|split; [|split]].
  - intros v n. split.
    + intros H. pose proof (maps_fst _ _ _ _ _ _ _ _ _ H) as H1. rewrite F in H1.
      destruct o as [t| | |]; try discriminate. cbn in O. destruct O as [O1 O2].
      destruct (maps_det _ _ _ _ _ _ _ _ _ _ _ H (M t eq_refl)) as [-> ->].
      replace (off + t_size t) with (t_off t) by lia. exact O1.
    + intros H. destruct o as [t|i t|x t|]; cbn in O.
      * destruct O as [O1 O2]. destruct (fields_det _ _ _ _ _ _ _ _ _ _ _ _ _ H O1) as [-> E2].
        replace n with (t_size t) by lia. apply M. reflexivity.
      * exfalso. eapply defect_no_fields; [exact BS|exact O|exact H].
      * exfalso. eapply defect_no_fields; [exact BB|exact (proj2 O)|exact H].
      * exfalso. eapply defect_no_fields; [exact BF|exact O|exact H].
  - split.
    + destruct o as [t|i t|x t|]; cbn in O; try discriminate; auto.
      intros H. destruct O as [-> O]. discriminate.
    + intros H. destruct o as [t|i t|x t|]; cbn in O; auto; exfalso.
      * eapply defect_no_fields; [exact BS|exact H|exact (proj1 O)].
      * eapply defects_exclude; [exact BS|exact BB|exact SB|exact H|exact (proj2 O)].
      * eapply defects_exclude; [exact BF|exact BS|exact FS|exact O|exact H].
  - split.
    + destruct o as [t|i t|x t|]; cbn in O; try discriminate. intros _. tauto.
    + intros H. destruct o as [t|i t|x t|]; cbn in O; try (exfalso; fail).
      * exfalso. eapply defect_no_fields; [exact BB|exact H|exact (proj1 O)].
      * exfalso. eapply defects_exclude; [exact BS|exact BB|exact SB|exact O|exact H].
      * destruct O as [-> _]. reflexivity.
      * exfalso. eapply defects_exclude; [exact BF|exact BB|exact FB|exact O|exact H].
  - intros e. destruct o as [t|i t|x t|]; cbn in O; try discriminate; intros H; inversion H; auto.
    destruct O as [-> _]. auto.
Qed.
