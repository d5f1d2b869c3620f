(** Size hints after a mapping that succeeded and before anything is mapped. *)
From Coq Require Import String List ZArith Bool Lia.
From Verif Require Import Base PyVal PyStruct DataTypes ClassFactory DataMaps
  BytesProofs SpecPrim PrimProofs SpecMap SpecCreate MapProofs ContextProofs StructProofs CreateProofs
  ContainerProofs SeqProofs LinearProofs StreamProofs FixedProofs SteadyProofs WindowProofs SpecFold FoldProofs
  SpecResume ResumeProofs SeqResumeProofs FuelProofs GroupProofs PaddingProofs SizeProofs SpecHint HintProofs NestHintProofs.
Import ListNotations.
Open Scope Z_scope.
Arguments Z.pow : simpl never.
Arguments Z.mul : simpl never.
Arguments Z.div : simpl never.
Arguments Z.modulo : simpl never.

(** After a mapping that succeeded the hint is the size that was consumed. *)
Lemma done_hint orc fuel m b off vals depth v c n off' :
  mapbs orc fuel m b off (Some (ctx_new vals)) depth = (Ok v, Some c) -> c_byte_size c = Some n ->
  fst (hint orc m off' (Some c)) = Ok (Some n).
Proof.
  intros M N. destruct m; cbn [hint fst];
    try (unfold hint_padding, hint_elems, hint_struct, hint_group; cbn [opt_bind]; rewrite N; reflexivity).
  - cbn [mapbs] in M. unfold map_prim in M. destruct (get_byte_size d); [|discriminate].
    destruct (_ <? _); [discriminate|]. destruct (match op with Some _ => _ | None => _ end); inversion M; subst. cbn in N. congruence.
  - cbn [mapbs] in M. unfold map_uuid in M. destruct (get_byte_size d); [|discriminate].
    destruct (_ <? _); [discriminate|].
    destruct (dt_byte_order d) as [[]|]; try destruct (_ =? _); inversion M; subst; cbn in N; congruence.
  - cbn [mapbs] in M. discriminate.
  - cbn [mapbs] in M. discriminate.
Qed.

Definition hints_to (orc : oracle) (m : dmap) (n : Z) : Prop :=
  forall off c, untouched c -> fst (hint orc m off c) = Ok (Some n).

Lemma untouched_parts c : untouched c -> opt_bind c c_byte_size = None /\ ctx_state c = st_empty.
Proof. intros [-> |(vals & ->)]; auto. Qed.

(** Element sequences. *)
Lemma elems_hint orc e ed h n off c : untouched c ->
  (has_data_size e = false \/ has_number e = false) ->
  (forall n, e_data_size e = Some n -> 0 < n) -> (forall n, e_number e = Some n -> 0 < n) ->
  (e_number e = None \/ e_terminator e = None) ->
  elems_byte_size e (get_byte_size ed) = Some n ->
  fst (hint_elems orc e ed h off c) = Ok (Some n).
Proof.
  intros U S1 S2 S3 T Z. destruct (untouched_parts _ U) as [U1 U2]. unfold hint_elems. rewrite U1, U2.
  cbn [st_empty s_elements_data_size truthy_Z s_elements_data_offset s_number_of_elements opt_default].
  destruct (has_data_size e) eqn:HD.
  { rewrite Z. reflexivity. }
  assert (DS : truthy_Z (e_data_size e) = None) by (unfold has_data_size in HD; destruct (e_data_size e); [discriminate|reflexivity]).
  unfold elems_byte_size in Z. rewrite DS in Z.
  destruct (truthy_Z (e_number e)) as [k|] eqn:K; [|discriminate]. apply truthy_Z_some in K. destruct K as [K KN].
  destruct (truthy_Z (get_byte_size ed)) as [b|] eqn:B; [|discriminate].
  destruct T as [T|T]; [congruence|]. unfold has_terminator. rewrite T. cbn [is_some].
  assert (HN : has_number e = true) by (unfold has_number; now rewrite K). rewrite HN.
  pose proof (eval_number_spec orc e c) as (A & _ & _).
  assert (fst (eval_number orc e c) = Ok k) as EV.
  { apply A. left. rewrite K. specialize (S3 k K). repeat split; auto; lia. }
  destruct (eval_number orc e c) as [r c1]. cbn [fst] in EV. subst r. cbn [fst]. inversion Z; subst. do 2 f_equal. lia.
Qed.

(** The members of a structure. *)
Lemma loop_hint orc : forall ms attrs acc t sub,
  Forall2 (fun m a => exists y, snd a = Some y /\
     forall o o', struct_size_step o (pad_align m) (get_byte_size m) = Some o' ->
     forall c, untouched c -> exists k, fst (hint orc y o c) = Ok (Some k) /\ o + k = o') ms attrs ->
  (exists w, sub = ctx_new w) ->
  struct_size_loop ms acc = Some t -> hint_loop (hints orc attrs) acc sub = Ok t.
Proof.
  intros ms attrs acc t sub F. revert acc sub.
  induction F as [|m a ms attrs (y & Y & H) F IH]; intros acc sub (w & ->) Z.
  - cbn in Z |- *. congruence.
  - cbn [struct_size_loop] in Z. destruct (struct_size_step acc _ _) as [acc'|] eqn:S; [|discriminate].
    destruct (H _ _ S (Some (ctx_new w)) ltac:(right; eauto)) as (k & K & <-).
    unfold hints. cbn [map hint_loop]. rewrite Y, K. fold (hints orc attrs). apply IH; eauto.
Qed.

Lemma known_hints orc : forall d ov m n,
  everywhere sound d -> everywhere counted_or_ended d -> create orc d ov = Ok (Some m) -> all_maps whole m ->
  get_byte_size d = Some n -> hints_to orc m n.
Proof.
  intros d. induction d as [d IH] using dtype_ind_type. intros ov m n E Q C W S off c U.
  destruct d; try discriminate.
  - cbn [create] in C. destruct false_value, true_value; try discriminate;
      (apply bind_ok in C; destruct C as (o & O & C); inversion C; subst; cbn [hint fst]; now rewrite apply_ov_size, S).
  - cbn [create] in C. apply bind_ok in C; destruct C as (o & O & C); inversion C; subst; cbn [hint fst]; now rewrite apply_ov_size, S.
  - cbn [create] in C. apply bind_ok in C; destruct C as (o & O & C); inversion C; subst; cbn [hint fst]; now rewrite apply_ov_size, S.
  - cbn [create] in C. apply bind_ok in C; destruct C as (o & O & C); inversion C; subst; cbn [hint fst]; now rewrite apply_ov_size, S.
  - cbn [create] in C. inversion C; subst. cbn [hint fst]. now rewrite apply_ov_size, S.
  - pose proof E as [[(S1 & S2 & S3 & S4) _] Ed]. destruct Q as [Q _]. cbn [counted_or_ended] in Q.
    apply create_elems in C. destruct C as (eov & em & O & Ce & _ & C).
    assert (T : e_terminator (elems_of ov e) = e_terminator e /\ e_data_size (elems_of ov e) = e_data_size e /\
                e_number (elems_of ov e) = e_number e /\ has_data_size (elems_of ov e) = has_data_size e /\
                has_number (elems_of ov e) = has_number e) by (destruct ov as [[nm b]|]; repeat split).
    destruct T as (T1 & T2 & T3 & T4 & T5).
    assert (TS : elems_byte_size (elems_of ov e) = elems_byte_size e) by (unfold elems_byte_size; now rewrite T2, T3).
    assert (G : forall h, fst (hint_elems orc (elems_of ov e) (apply_ov eov d) h off c) = Ok (Some n)).
    { intros h. apply elems_hint; auto; rewrite ?T1, ?T2, ?T3, ?T4, ?T5, ?TS, ?apply_ov_size; auto. }
    destruct k.
    + destruct (sequence_is_linear _ _); [destruct C as (o & _ & ->)|subst m]; cbn [hint]; apply G.
    + destruct C as [_ ->]; cbn [hint]; apply G.
    + destruct C as [_ ->]; cbn [hint]; apply G.
  - rename m0 into mt, members into ms. rewrite create_apply in C.
    set (d := apply_ov ov (DStructure mt bo ms)) in *.
    assert (G : exists mt' bo', d = DStructure mt' bo' ms) by (subst d; destruct ov as [[nm b]|]; cbn; eauto).
    destruct G as (mt' & bo' & G). assert (SZ : get_byte_size d = get_byte_size (DStructure mt bo ms)) by (subst d; apply apply_ov_size).
    clearbody d. subst d.
    assert (E' : everywhere sound (DStructure mt' bo' ms)) by exact E.
    assert (ST : exists lin d cls attrs op, m = MStructure lin d cls ms attrs op).
    { assert (C' := C). apply created_structure in C'. apply create_structure_inv in C'.
      destruct C' as (attrs & MM & NE & ND & A & X). rewrite map_map in X. cbn [fst] in X. rewrite map_id in X. destruct X as [(L & op & OP & ->)|(L & ->)]; do 5 eexists; reflexivity. }
    destruct ST as (lin & d & cls & attrs & op & ->).
    pose proof (everywhere_here _ _ E') as [_ WN].
    assert (DT : distinct_types (m_name mt') bo' ms) by (eapply well_named_distinct; exact WN).
    pose proof (structure_own_maps _ _ _ _ _ _ _ _ _ _ C DT) as OM.
    destruct (untouched_parts _ U) as [U1 U2].
    pose proof (all_maps_here _ _ W) as [CN MA]. apply all_maps_attrs in W. destruct W as [_ W].
    cbn [hint]. unfold hint_struct. rewrite U1, U2. cbn [st_empty s_attribute_index s_members_data_size s_context opt_default].
    rewrite (struct_values_new _ _ _ CN) by reflexivity. change (Z.to_nat 0) with O. cbn [skipn]. rewrite blank_new.
    fold (hints orc attrs). cbn [fst]. rewrite structure_size in S.
    assert (HL : hint_loop (hints orc attrs) 0 (ctx_new [(type_name (blank cls attrs), blank cls attrs)]) = Ok n).
    { apply (loop_hint orc ms); [|eauto|destruct ms; [discriminate|exact S]].
      destruct E as [_ E]. destruct Q as [_ Q]. apply everywhere_list in E. apply everywhere_list in Q.
      clear - OM E Q IH W MA.
      induction OM as [|x a ms attrs (N & Cd) OM IHm]; [constructor|].
      inversion E; subst. inversion Q; subst. inversion W; subst. inversion IH; subst.
      constructor; [|apply IHm; auto; intros; apply MA; now right].
      destruct (snd a) as [y|] eqn:Y; [|exfalso; apply (MA a); [now left|exact Y]].
      exists y. split; [reflexivity|]. intros o o' St c U.
      destruct (pad_align x) as [al|] eqn:PA.
      - destruct x; try discriminate. cbn in PA. cbn in St. apply truthy_Z_some in PA. destruct PA as [-> NZ].
        assert (G : exists mt1 bo1, used_type (m_name mt') bo' (DPadding m bo (Some al)) = DPadding mt1 bo1 (Some al)).
        { unfold used_type. cbn. destruct bo', bo; cbn; eauto. }
        destruct G as (mt1 & bo1 & G). rewrite G in Cd. cbn [create] in Cd. inversion Cd; subst y.
        cbn [hint]. unfold hint_padding. destruct (untouched_parts _ U) as [U1 _]. rewrite U1. cbn [apply_ov fst].
        destruct (Z.eqb_spec al 0); [lia|]. exists (padding_size al o). split; [reflexivity|]. cbn in St. congruence.
      - destruct (step_size x o o' PA) as (z & Z1 & Z2 & -> & TC); [now rewrite PA|].
        destruct (used_as_ov (m_name mt') bo' x) as [ov' Us]. destruct (Us orc) as [Us1 _]. rewrite Us1 in Cd.
        exists z. split; [|reflexivity].
        match goal with Hx : forall ov m n, everywhere sound (type_of x) -> _ |- _ =>
          apply (Hx ov' y z); auto; apply everywhere_type; auto end. }
    unfold ctx_new in HL |- *. rewrite HL. reflexivity.
Qed.

(** C30 *)
Lemma known_hint orc d m n off c :
  everywhere sound d -> everywhere counted_or_ended d -> create orc d None = Ok (Some m) -> all_maps whole m ->
  get_byte_size d = Some n -> untouched c -> fst (hint orc m off c) = Ok (Some n).
Proof. intros E Q C W S U. exact (known_hints orc d None m n E Q C W S off c U). Qed.
