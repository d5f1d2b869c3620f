(** Which exceptions mapping can raise. *)
From Coq Require Import String List ZArith Bool Lia.
From Verif Require Import Base PyVal PyStruct DataTypes ClassFactory DataMaps SpecPrim SpecMap SpecCreate
  MapProofs StructProofs LayoutProofs CreateProofs LinearProofs SeqProofs StreamProofs GroupProofs SteadyProofs WindowProofs SeqKindProofs.
Import ListNotations.
Open Scope Z_scope.

Definition plain (e : exc) : Prop := e = ByteStreamTooSmallError \/ e = MappingError.

Lemma check_size_plain r e : check_size r = Raise e -> e = MappingError.
Proof. destruct r; cbn; try congruence. destruct (_ <? _); congruence. Qed.

Lemma eval_data_size_plain orc el values e : eval_data_size orc el values = Raise e -> e = MappingError.
Proof.
  unfold eval_data_size. destruct (truthy_Z _); [apply check_size_plain|].
  destruct (truthy_str _); [apply check_size_plain|congruence].
Qed.

Lemma eval_number_plain orc el c e : fst (eval_number orc el c) = Raise e -> e = MappingError.
Proof.
  unfold eval_number. destruct (truthy_Z _); [apply check_size_plain|].
  destruct (truthy_str _); cbn [fst]; [apply check_size_plain|congruence].
Qed.

Lemma seq_bounds_plain orc e ed c x :
  (has_data_size e = true ->
     (exists b, get_byte_size ed = Some b /\ b <> 0) \/
     (get_byte_size ed = None /\ exists k e' el', ed = DElems k e' el')) ->
  fst (seq_bounds orc e ed c) = Raise x -> x = MappingError.
Proof.
  intros T. unfold seq_bounds. destruct (has_data_size e).
  - destruct (eval_data_size _ _ _) eqn:E; cbn [fst bind].
    2: { intros H. inversion H; subst. eapply eval_data_size_plain; eauto. }
    2: discriminate.
    destruct (T eq_refl) as [(b & -> & B)|(-> & k & e' & el' & ->)].
    + apply Z.eqb_neq in B. rewrite B. discriminate.
    + cbn [element_terminator bind]. destruct (e_terminator e'); congruence.
  - destruct (has_terminator e); [destruct (e_terminator e); cbn; congruence|].
    destruct (has_number e); [|cbn; congruence].
    destruct (eval_number orc e c) as [r c'] eqn:E. cbn [fst].
    pose proof (eval_number_plain orc e c x) as P. rewrite E in P. cbn [fst] in P.
    destruct r; cbn [bind]; [discriminate|intros H; inversion H; subst; now apply P|discriminate].
Qed.

Lemma map_seq_plain orc fuel e ed f bs off c depth x :
  (has_data_size e = true ->
     (exists b, get_byte_size ed = Some b /\ b <> 0) \/
     (get_byte_size ed = None /\ exists k e' el', ed = DElems k e' el')) ->
  fst (map_seq orc fuel e ed f bs off c depth) = Raise x -> plain x.
Proof.
  intros T. unfold map_seq, plain. destruct (_ <? _); cbn [fst]; [intros H; inversion H; auto|].
  pose proof (seq_bounds_plain orc e ed c) as B. specialize (fun x => B x T).
  destruct (seq_bounds orc e ed c) as [[[[number size] term]|y|] c1]; cbn [fst] in *.
  2: { intros H. inversion H; subst. right. now apply B. }
  2: discriminate.
  destruct (seq_loop _ _ _ _ _ _ _ _); cbn [fst]; try (intros H; inversion H; auto; fail).
  destruct (match number with Some n => _ | None => _ end); cbn [fst]; [intros H; inversion H; auto|].
  destruct (_ && _); cbn [fst]; [intros H; inversion H; auto|discriminate].
Qed.

Lemma map_values_plain d vs : match d with DBoolean _ _ _ | DCharacter _ => False | _ => True end ->
  map_values d vs = Ok vs.
Proof.
  intros H. induction vs as [|v vs IH]; auto. cbn [map_values].
  assert (E : map_value d v = Ok v) by (destruct d; cbn; tauto || reflexivity). rewrite E, IH. reflexivity.
Qed.

Lemma map_seq_linear_plain e ed em op bs off c depth x :
  elems_byte_size e (get_byte_size ed) <> None ->
  (forall d o, em = Some (MPrim d o) -> match d with DBoolean _ _ _ | DCharacter _ => False | _ => True end) ->
  fst (map_seq_linear e ed em op bs off c depth) = Raise x -> plain x.
Proof.
  intros S N. unfold map_seq_linear, plain. destruct (elems_byte_size _ _) as [n|]; [|congruence].
  destruct (_ <? _); cbn [fst]; [intros H; inversion H; auto|].
  destruct op as [o|]; cbn [fst]; [|intros H; inversion H; auto].
  destruct em as [[]|]; cbn [fst]; try (intros H; inversion H; auto; fail).
  specialize (N _ _ eq_refl).
  destruct (read_from _ _); cbn [fst]; try (intros H; inversion H; auto; fail).
  rewrite map_values_plain by auto. discriminate.
Qed.

Lemma map_struct_linear_plain d cls ms attrs op bs off c depth x :
  get_byte_size d <> None ->
  fst (map_struct_linear d cls ms attrs op bs off c depth) = Raise x -> plain x.
Proof.
  intros S. unfold map_struct_linear, plain. destruct (get_byte_size d) as [n|]; [|congruence].
  destruct (_ <? _); cbn [fst]; [intros H; inversion H; auto|].
  destruct op as [o|]; cbn [fst]; [|intros H; inversion H; auto].
  match goal with |- fst (match ?r with Ok _ => _ | Raise _ => _ | OutOfFuel => _ end) = _ -> _ => destruct r end;
    cbn [fst]; intros H; inversion H; auto.
Qed.

Lemma map_prim_plain d op bs off c depth x :
  get_byte_size d <> None -> fst (map_prim d op bs off c depth) = Raise x -> plain x.
Proof.
  intros S. unfold map_prim, plain. destruct (get_byte_size d) as [n|]; [|congruence].
  destruct (_ <? _); cbn [fst]; [intros H; inversion H; auto|].
  match goal with |- fst (match ?r with Ok _ => _ | Raise _ => _ | OutOfFuel => _ end) = _ -> _ => destruct r end;
    cbn [fst]; intros H; inversion H; auto.
Qed.

Lemma map_uuid_plain d bs off c depth x :
  get_byte_size d <> None -> fst (map_uuid d bs off c depth) = Raise x -> plain x.
Proof.
  intros S. unfold map_uuid, plain. destruct (get_byte_size d) as [n|]; [|congruence].
  destruct (_ <? _); cbn [fst]; [intros H; inversion H; auto|].
  match goal with |- fst (match ?r with Ok _ => _ | Raise _ => _ | OutOfFuel => _ end) = _ -> _ => destruct r end;
    cbn [fst]; intros H; inversion H; auto.
Qed.

Lemma stream_plain orc fuel e ed em bs off vals depth x : 0 <= off ->
  (forall b, get_byte_size ed = Some b -> 0 <= b) ->
  (forall t, e_terminator e = Some t -> exists b, t = VBytes b /\ get_byte_size ed = Some (len b) /\ 0 < len b) ->
  fails orc fuel (MStream e ed em) bs off vals depth x -> plain x.
Proof.
  intros O P T F.
  assert (D : unsized_stream e ed \/ ~ unsized_stream e ed).
  { unfold unsized_stream. destruct (has_data_size e); [right; intuition congruence|].
    destruct (has_number e); [|auto]. destruct (get_byte_size ed); [right|auto]. intuition congruence. }
  destruct D as [U|U].
  - destruct (e_terminator e) as [t|] eqn:E.
    + destruct (T _ eq_refl) as (b & -> & B & L).
      destruct (stream_terminated orc fuel e ed em b bs off vals depth O U E B L) as (_ & _ & Q).
      left. apply Q. exact F.
    + unfold fails in F. cbn [mapbs] in F. unfold map_stream in F.
      destruct (calc_spec orc e ed vals) as (_ & B & _ & _). apply B in U.
      destruct (calc_data_size orc e ed (Some (ctx_new vals))) as [r c1]. cbn [fst] in U. subst r.
      rewrite E in F. cbn [fst] in F. inversion F. now right.
  - destruct (stream_sized orc fuel e ed em bs off vals depth O P U) as (_ & _ & _ & Q). apply Q. exact F.
Qed.

Lemma element_type_elems e k e' el : element_type e (DElems k e' el) = DElems k e' el.
Proof. unfold element_type. destruct (e_bo e); auto; cbn [dt_byte_order]; destruct (e_bo e'); auto. Qed.

Lemma element_type_number e el :
  match el with DBoolean _ _ _ | DCharacter _ => False | _ => True end ->
  match element_type e el with DBoolean _ _ _ | DCharacter _ => False | _ => True end.
Proof.
  unfold element_type. destruct (e_bo e); auto; destruct (dt_byte_order el) as [[]|]; auto;
    destruct (is_composite el) eqn:C; auto; destruct el; auto.
Qed.

Lemma structure_plain orc fuel mt bo ms m bs off vals depth e :
  extensional orc -> create orc (DStructure mt bo ms) None = Ok (Some m) -> level m ->
  clear_names (m_name mt) (map dt_name ms) ->
  fails orc fuel m bs off vals depth e -> e = ByteStreamTooSmallError \/ e = MappingError.
Proof.
  intros X C L CN F. destruct (Z_le_gt_dec depth 10) as [D|D].
  - destruct m; cbn in L; try tauto; destruct linear; try tauto.
    + apply created_structure, create_structure_inv in C.
      destruct C as (attrs' & _ & _ & _ & _ & [(_ & op' & _ & E)|(_ & E)]); inversion E.
    + pose proof (created_composite _ _ _ _ _ _ _ _ _ _ C) as (Hc & -> & Ha & N & _ & LL).
      cbn [ov_name] in Hc. rewrite <- Ha, <- Hc in CN.
      destruct (structure_layout orc fuel d cls ms attrs op bs off vals depth X LL N CN D) as (_ & _ & _ & Q).
      apply Q. exact F.
  - unfold fails in F. rewrite too_deep in F by (auto; lia). cbn in F. inversion F. auto.
Qed.

Lemma errors_contained orc fuel d m bs off vals depth e :
  extensional orc -> everywhere sound d -> create orc d None = Ok (Some m) -> tame d m -> 0 <= off ->
  fails orc fuel m bs off vals depth e -> e = ByteStreamTooSmallError \/ e = MappingError.
Proof.
  intros X E C T O F.
  destruct d; try discriminate.
  - cbn [create] in C. destruct false_value, true_value; try discriminate;
      (apply bind_ok in C; destruct C as (o & _ & C); inversion C; subst; eapply map_prim_plain; [|exact F]; exact T).
  - cbn [create] in C. apply bind_ok in C; destruct C as (o & _ & C); inversion C; subst; eapply map_prim_plain; [|exact F]; exact T.
  - cbn [create] in C. apply bind_ok in C; destruct C as (o & _ & C); inversion C; subst; eapply map_prim_plain; [|exact F]; exact T.
  - cbn [create] in C. apply bind_ok in C; destruct C as (o & _ & C); inversion C; subst; eapply map_prim_plain; [|exact F]; exact T.
  - cbn [create] in C. inversion C; subst. eapply map_uuid_plain; [|exact F]; exact T.
  - (* padding *)
    cbn [create] in C. inversion C; subst. pose proof (everywhere_here _ _ E) as [(a & -> & A) _].
    unfold fails in F. cbn [mapbs] in F. unfold map_padding in F. cbn in F.
    destruct (a =? 0) eqn:Z; [apply Z.eqb_eq in Z; lia|].
    destruct (_ <? _); cbn in F; inversion F; auto.
  - (* element sequences *)
    pose proof (everywhere_here _ _ E) as [(S1 & S2 & S3 & S4) _].
    pose proof (created_elems _ _ _ _ _ C) as (em & CE & M).
    assert (P : forall b, get_byte_size (element_type e0 d) = Some b -> 0 <= b).
    { intros b B. rewrite element_type_size in B. eapply sound_size; [|exact B]. exact (proj2 E). }
    destruct k.
    + destruct T as [T1 T2]. rewrite <- (element_type_size e0) in T1.
      destruct (sequence_is_linear e0 (element_type e0 d)) eqn:LIN.
      * destruct M as (o & _ & ->). destruct T2 as [[]|[T2 T3]].
        eapply map_seq_linear_plain; [| |exact F].
        -- rewrite element_type_size. exact T2.
        -- intros d' o' ->. apply created_prim in CE. destruct CE as [-> _]. now apply element_type_number.
      * subst m. eapply map_seq_plain; [|exact F]. intros H. destruct (T1 H) as [H1|(H1 & k & e' & el' & ->)]; auto.
        right. split; auto. rewrite element_type_elems. eauto.
    + subst m. eapply stream_plain; [exact O|exact P| |exact F]. rewrite element_type_size. exact S4.
    + subst m.
      assert (BT : byte_terminator (e_terminator e0)).
      { destruct (e_terminator e0) as [t|]; cbn; auto. destruct (S4 _ eq_refl) as (b & -> & _ & L). eauto. }
      destruct (string_layout orc fuel e0 (element_type e0 d) em bs off vals depth BT) as (_ & Q).
      apply Q in F. destruct F as [F|[-> _]]; auto.
      eapply stream_plain; [exact O|exact P| |exact F]. rewrite element_type_size. exact S4.
  - (* structures *)
    destruct T as [CN [T|T]]; [eapply structure_plain; eauto|].
    destruct m; try (apply created_structure, create_structure_inv in C;
      destruct C as (attrs' & _ & _ & _ & _ & [(_ & op' & _ & Q)|(_ & Q)]); discriminate).
    destruct linear; [|exact (structure_plain orc fuel _ _ _ _ bs off vals depth e X C I (CN I) F)].
    pose proof (created_shape _ _ _ _ _ _ _ _ _ _ _ C) as (_ & _ & -> & _).
    eapply map_struct_linear_plain; [|exact F]. exact T.
  - cbn in C. inversion C; subst. unfold fails in F. cbn in F. inversion F; auto.
  - cbn in C. inversion C; subst. unfold fails in F. cbn in F. inversion F; auto.
  - cbn in C. inversion C; subst. unfold fails in F. cbn in F. inversion F; auto.
  - cbn [create] in C. apply bind_ok in C. destruct C as (df & _ & C). apply bind_ok in C. destruct C as (b & _ & C).
    destruct members; [discriminate|]. apply bind_ok in C. destruct C as (en & _ & C). inversion C; subst.
    match type of F with fails _ _ (MGroup ?a ?i ?b ?f ?n) _ _ _ _ _ =>
      destruct (group_layout orc fuel a i b f n bs off vals depth X) as (_ & _ & _ & Q) end.
    apply Q. exact F.
Qed.
