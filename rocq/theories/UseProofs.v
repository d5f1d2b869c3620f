(** Contexts across calls: a context left by a successful mapping is as good as a
    fresh one, and mapping and size hints leave the values of the caller alone. *)
From Coq Require Import String List ZArith Bool Lia.
From Verif Require Import Base PyVal PyStruct DataTypes ClassFactory DataMaps.
From Verif Require Import BytesProofs ContainerProofs SpecPrim SpecMap MapProofs ContextProofs.
Import ListNotations.
Open Scope Z_scope.

Lemma usable_facts orc vals c : extensional orc -> usable orc vals c ->
  clean c /\ same_values (ctx_values c) vals.
Proof.
  intros ext U. induction U.
  - split; cbn; auto. intros k _. reflexivity.
  - split; cbn; auto. intros k _. reflexivity.
  - destruct IHU as [C V].
    pose proof (mapbs_agrees orc ext fuel m bs off depth c c C C ltac:(intros k _; reflexivity)) as [_ A].
    rewrite H in A. cbn [fst snd] in A. destruct (A v eq_refl) as (A1 & _). split; auto.
    pose proof (mapbs_keeps orc fuel m bs off c depth) as K. rewrite H in K. cbn [snd] in K.
    destruct c as [c|], c' as [c'|]; cbn in *; try tauto.
    destruct K as [[K|K] _]; rewrite K; auto. intros k Hk. rewrite <- (V k Hk).
    apply (same_values_ns (c_values c) k Hk).
Qed.

Lemma usable_run orc vals c fuel m bs off depth v : usable orc vals c ->
  fst (mapbs orc fuel m bs off c depth) = Ok v ->
  usable orc vals (snd (mapbs orc fuel m bs off c depth)).
Proof.
  intros U H. apply (usable_after orc vals c fuel m bs off depth v); auto.
  destruct (mapbs orc fuel m bs off c depth). cbn in H. now subst.
Qed.

Lemma context_independence orc : extensional orc -> forall vals c, usable orc vals c ->
  forall fuel m bs off depth,
  fst (mapbs orc fuel m bs off c depth) = fst (mapbs orc fuel m bs off (Some (ctx_new vals)) depth) /\
  (forall v c', mapbs orc fuel m bs off c depth = (Ok v, c') ->
     (c = None -> c' = None) /\
     (c <> None -> exists x n, c' = Some x /\ c_state x = st_empty /\ c_byte_size x = Some n /\
        maps orc fuel m bs off vals depth v n)).
Proof.
  intros ext vals c U fuel m bs off depth. destruct (usable_facts orc vals c ext U) as [C V].
  pose proof (mapbs_agrees orc ext fuel m bs off depth c (Some (ctx_new vals)) C eq_refl V) as [A1 A2].
  split; auto. intros v c' E. rewrite E in A1, A2. cbn [fst snd] in A1, A2.
  destruct (A2 v eq_refl) as (B1 & B2 & n & B3 & B4).
  pose proof (mapbs_keeps orc fuel m bs off c depth) as K. rewrite E in K. cbn [snd] in K.
  split.
  - intros ->. destruct c'; cbn in K; tauto.
  - intros Hc. destruct c as [c|]; [|congruence]. destruct c' as [c'|]; cbn in K; [|tauto].
    exists c', n. cbn in B1, B3. split; [auto|]. split; [auto|]. split; [auto|].
    unfold maps. destruct (mapbs orc fuel m bs off (Some (ctx_new vals)) depth) as [r c2] eqn:E2.
    cbn [fst snd] in *. subst r.
    pose proof (mapbs_keeps orc fuel m bs off (Some (ctx_new vals)) depth) as K2. rewrite E2 in K2.
    cbn [snd] in K2. destruct c2 as [c2|]; cbn in K2; [|tauto]. exists c2. split; auto.
Qed.

(** ** Values of the caller *)

Lemma alters_same m c : alters m c c.
Proof. destruct c; cbn; auto. Qed.

Lemma alters_number orc e ed em k c c' :
  (k = MStream e ed em \/ k = MString e ed em \/ exists l op, k = MSequence l e ed em op) ->
  ctx_values (snd (eval_number orc e c)) = ctx_values c' ->
  (c = None <-> c' = None) -> alters k c c'.
Proof.
  intros Hk. unfold eval_number. destruct c as [c|], c' as [c'|]; cbn [alters];
    try (intros _ [H1 H2]; first [now auto | discriminate (H1 eq_refl) | discriminate (H2 eq_refl)]).
  intros H _. destruct (truthy_Z (e_number e)) eqn:E1; cbn in H; auto.
  destruct (truthy_str (e_number_expr e)) eqn:E2; cbn in H; auto.
  right. split; auto.
  destruct Hk as [->|[->|(l & op & ->)]]; cbn; rewrite E2; discriminate.
Qed.

Lemma ctx_none_keeps c c' : keeps c c' -> (c = None <-> c' = None).
Proof. destruct c, c'; cbn; try tauto; split; congruence. Qed.

Lemma values_on_state f c : ctx_values (on_state f c) = ctx_values c.
Proof. destruct c; auto. Qed.
Lemma values_sizes a b c : ctx_values (option_map (set_sizes a b) c) = ctx_values c.
Proof. destruct c; auto. Qed.
Lemma values_size a c : ctx_values (option_map (set_byte_size a) c) = ctx_values c.
Proof. destruct c; auto. Qed.
Lemma values_done a c : ctx_values (ctx_done a c) = ctx_values c.
Proof. destruct c; auto. Qed.

Definition counted_values orc (e : elems) (c c' : option ctx) : Prop :=
  ctx_values c' = ctx_values c \/ ctx_values c' = ctx_values (snd (eval_number orc e c)).

Lemma calc_values orc e ed c : counted_values orc e c (snd (calc_data_size orc e ed c)).
Proof.
  unfold counted_values, calc_data_size. destruct (truthy_Z _); [auto|].
  destruct (has_data_size e); [auto|].
  destruct (has_number e); [|auto].
  destruct (get_byte_size ed); [|auto].
  destruct (s_number_of_elements _); [auto|].
  destruct (eval_number orc e c). auto.
Qed.

Lemma bounds_values orc e ed c : counted_values orc e c (snd (seq_bounds orc e ed c)).
Proof.
  unfold counted_values, seq_bounds. destruct (has_data_size e); [auto|].
  destruct (has_terminator e); [auto|].
  destruct (has_number e); [|auto].
  destruct (eval_number orc e c). auto.
Qed.

Ltac vals := repeat (first [rewrite values_on_state | rewrite values_sizes | rewrite values_size | rewrite values_done]).

Lemma stream_values orc e ed bs off c depth :
  counted_values orc e c (snd (map_stream orc e ed bs off c depth)).
Proof.
  pose proof (calc_values orc e ed c) as H. unfold map_stream, counted_values in *.
  destruct (calc_data_size orc e ed c) as [[[n|]|x|] c1]; cbn [snd] in *; auto.
  - destruct (_ <? _); cbn [snd]; vals; auto.
  - destruct (e_terminator e); cbn [snd]; [|vals; auto].
    destruct (get_byte_size ed); cbn [snd]; [|vals; auto].
    destruct (stream_scan _ _ _ _ _ _ _ _) as [[[found value] doff]| |]; cbn [snd]; [|vals; auto|vals; auto].
    destruct (negb _); cbn [snd]; [vals; auto|].
    destruct found; cbn [snd]; [vals; auto|]. destruct c1; cbn in *; auto.
Qed.

Lemma string_values orc e ed bs off c depth :
  counted_values orc e c (snd (map_string orc e ed bs off c depth)).
Proof.
  pose proof (stream_values orc e ed bs off c depth) as H. unfold map_string.
  destruct (map_stream orc e ed bs off c depth) as [[v|x|] c1]; cbn [snd] in *; auto.
  destruct v; cbn [snd]; auto.
  destruct (match e_terminator e with Some _ => _ | None => _ end); cbn [snd]; auto.
  destruct (o_decode orc _ _); cbn [snd]; auto.
Qed.

Lemma seq_values orc fuel e ed f bs off c depth :
  counted_values orc e c (snd (map_seq orc fuel e ed f bs off c depth)).
Proof.
  pose proof (bounds_values orc e ed c) as H. unfold map_seq, counted_values in *.
  destruct (max_depth <? depth); cbn [snd]; auto.
  destruct (seq_bounds orc e ed c) as [[[[nu ds] tm]|x|] c1]; cbn [snd] in *; auto.
  destruct (seq_loop _ _ _ _ _ _ _ _); cbn [snd]; try (vals; now auto).
  destruct (match nu with Some _ => _ | None => _ end); cbn [snd]; [vals; now auto|].
  destruct (_ && _); cbn [snd]; vals; auto.
Qed.

Lemma alters_plain m c c' : keeps c c' -> ctx_values c' = ctx_values c -> alters m c c'.
Proof. destruct c, c'; cbn; intuition. Qed.

Lemma alters_counted orc e ed em k c c' :
  (k = MStream e ed em \/ k = MString e ed em \/ exists l op, k = MSequence l e ed em op) ->
  keeps c c' -> counted_values orc e c c' -> alters k c c'.
Proof.
  intros Hk K [H|H]; [now apply alters_plain|].
  eapply alters_number; eauto. now apply ctx_none_keeps.
Qed.

Lemma group_member_values df maps ident bs off c depth :
  ctx_values (snd (map_group_member df maps ident bs off c depth)) = ctx_values c.
Proof.
  unfold map_group_member.
  destruct (match val_get ident maps with Some _ => _ | None => _ end); cbn [snd]; auto.
  destruct (m _ _ _ _) as [[v|x|] c1]; cbn [snd]; [destruct c; auto|destruct x|]; cbn [snd]; vals; auto.
Qed.

Lemma map_alters orc fuel m bs off c depth : alters m c (snd (mapbs orc fuel m bs off c depth)).
Proof.
  pose proof (mapbs_keeps orc fuel m bs off c depth) as K.
  destruct m; cbn [mapbs] in K |- *.
  - apply alters_plain; auto. unfold map_prim. destruct (get_byte_size d); cbn [snd]; auto.
    destruct (_ <? _); cbn [snd]; auto. destruct (match op with Some _ => _ | None => _ end); cbn [snd]; vals; auto.
  - apply alters_plain; auto. unfold map_uuid. destruct (get_byte_size d); cbn [snd]; auto.
    destruct (_ <? _); cbn [snd]; auto. destruct (match dt_byte_order d with Some _ => _ | None => _ end); cbn [snd]; vals; auto.
  - apply alters_plain; auto. unfold map_padding.
    destruct (match d with DPadding _ _ a => a | _ => None end); cbn [snd]; auto.
    destruct (_ =? _); cbn [snd]; auto. destruct (_ <? _); cbn [snd]; vals; auto.
  - destruct linear.
    + apply alters_plain; auto. unfold map_seq_linear.
      destruct (elems_byte_size _ _); cbn [snd]; [|vals; auto].
      destruct (_ <? _); cbn [snd]; [vals; auto|].
      destruct op; cbn [snd]; [|vals; auto].
      destruct em as [[]|]; cbn [snd]; try (vals; now auto).
      destruct (read_from _ _); cbn [snd]; vals; auto.
    + eapply (alters_counted orc e ed em); eauto using seq_values.
  - eapply (alters_counted orc e ed em); eauto using stream_values.
  - eapply (alters_counted orc e ed em); eauto using string_values.
  - apply alters_plain; auto. destruct linear.
    + unfold map_struct_linear. destruct (get_byte_size d); cbn [snd]; [|vals; auto].
      destruct (_ <? _); cbn [snd]; [vals; auto|].
      destruct (match op with Some _ => _ | None => _ end); cbn [snd]; vals; auto.
    + unfold map_struct. destruct (max_depth <? depth); cbn [snd]; auto.
      destruct (struct_values _ _ _); cbn [snd]; auto.
      destruct (_ <=? _); cbn [snd]; [vals; auto|].
      destruct (struct_loop _ _ _ _ _ _); cbn [snd]; vals; auto.
  - apply alters_same.
  - apply alters_same.
  - apply alters_plain; auto. unfold map_group.
    destruct (s_member_identifier _); [apply group_member_values|].
    destruct (match base with Some x => _ | None => _ end); cbn [snd]; auto.
    destruct (m _ _ _ _) as [[v|x|] c1]; cbn [snd]; [|destruct x; cbn [snd]; vals; auto|auto].
    destruct (py_getattr v identifier); cbn [snd]; vals; auto; rewrite group_member_values; vals; auto.
Qed.

Lemma hint_elems_values orc e ed h off c :
  counted_values orc e c (snd (hint_elems orc e ed h off c)).
Proof.
  unfold counted_values, hint_elems. destruct (opt_bind c c_byte_size); cbn [snd]; auto.
  destruct (truthy_Z _); cbn [snd]; auto.
  destruct (has_data_size e).
  - destruct (elems_byte_size _ _); cbn [snd]; auto.
  - destruct (has_terminator e).
    + destruct (get_byte_size ed); cbn [snd]; auto. unfold hint_element.
      destruct h; cbn [snd]; auto. destruct (h 0 _); cbn [snd]. vals. auto.
    + destruct (has_number e); cbn [snd]; auto.
      destruct (match s_number_of_elements (ctx_state c) with Some n => (Ok n, c) | None => eval_number orc e c end)
        as [r c1] eqn:E.
      assert (V : ctx_values c1 = ctx_values c \/ ctx_values c1 = ctx_values (snd (eval_number orc e c))).
      { destruct (s_number_of_elements (ctx_state c)).
        - injection E as <- <-. auto.
        - rewrite E. auto. }
      destruct r as [n|x|]; cbn [snd]; auto.
      * destruct (truthy_Z (get_byte_size ed)); cbn [snd]; auto. unfold hint_element.
        destruct h; cbn [snd]; auto. destruct (h 0 _); cbn [snd]. vals. auto.
      * destruct x; cbn [snd]; auto.
Qed.

Lemma ctx_none_hint_elems orc e ed h off c : c = None <-> snd (hint_elems orc e ed h off c) = None.
Proof.
  unfold hint_elems. destruct c as [c|].
  - split; [discriminate|]. destruct (opt_bind (Some c) c_byte_size); cbn [snd]; [discriminate|].
    destruct (truthy_Z _); cbn [snd]; [discriminate|].
    destruct (has_data_size e); [destruct (elems_byte_size _ _); cbn [snd]; discriminate|].
    destruct (has_terminator e).
    + destruct (get_byte_size ed); cbn [snd]; [discriminate|]. unfold hint_element.
      destruct h; cbn [snd]; [|discriminate]. destruct (h 0 _); cbn [snd]. discriminate.
    + destruct (has_number e); cbn [snd]; [|discriminate].
      destruct (match s_number_of_elements (ctx_state (Some c)) with Some n => (Ok n, Some c) | None => eval_number orc e (Some c) end)
        as [r c1] eqn:E.
      assert (c1 <> None).
      { destruct (s_number_of_elements (ctx_state (Some c))).
        - injection E as <- <-. discriminate.
        - unfold eval_number in E. destruct (truthy_Z (e_number e)), (truthy_str (e_number_expr e)); injection E as <- <-; cbn; discriminate. }
      destruct r as [n|x|]; cbn [snd]; try (intros ->; congruence).
      * destruct (truthy_Z (get_byte_size ed)); cbn [snd]; [congruence|]. unfold hint_element.
        destruct h; cbn [snd]; [|congruence]. destruct (h 0 _); cbn [snd]. destruct c1; cbn; congruence.
      * destruct x; cbn [snd]; congruence.
  - split; auto. intros _. cbn. destruct (has_data_size e); [destruct (elems_byte_size _ _); auto|].
    destruct (has_terminator e).
    + destruct (get_byte_size ed); cbn [snd]; auto.
      destruct h; cbn [hint_element snd]; auto. destruct (h 0 _); cbn [snd]; auto.
    + destruct (has_number e); cbn [snd]; auto.
      destruct (eval_number orc e None) as [r c1] eqn:E.
      assert (c1 = None) as ->.
      { unfold eval_number in E. destruct (truthy_Z (e_number e)), (truthy_str (e_number_expr e)); injection E as <- <-; auto. }
      destruct r as [n|x|]; cbn [snd]; auto.
      * destruct (truthy_Z (get_byte_size ed)); cbn [snd]; auto.
        destruct h; cbn [hint_element snd]; auto. destruct (h 0 _); cbn [snd]; auto.
      * destruct x; auto.
Qed.

Lemma alters_state m f c : alters m c (on_state f c).
Proof. destruct c; cbn; auto. Qed.

Lemma hint_alters orc m off c : alters m c (snd (hint orc m off c)).
Proof.
  destruct m; cbn [hint snd]; try apply alters_same.
  - unfold hint_padding. destruct (opt_bind c c_byte_size); apply alters_same.
  - destruct (hint_elems_values orc e ed (match em with Some x => Some (hint orc x) | None => None end) off c) as [H|H].
    + pose proof (ctx_none_hint_elems orc e ed (match em with Some x => Some (hint orc x) | None => None end) off c) as N.
      destruct c, (snd _); cbn in *; try tauto; intuition congruence.
    + eapply (alters_number orc e ed em); [right; right; eauto|symmetry; exact H|apply ctx_none_hint_elems].
  - destruct (hint_elems_values orc e ed (match em with Some x => Some (hint orc x) | None => None end) off c) as [H|H].
    + pose proof (ctx_none_hint_elems orc e ed (match em with Some x => Some (hint orc x) | None => None end) off c) as N.
      destruct c, (snd _); cbn in *; try tauto; intuition congruence.
    + eapply (alters_number orc e ed em); [left; eauto|symmetry; exact H|apply ctx_none_hint_elems].
  - destruct (hint_elems_values orc e ed (match em with Some x => Some (hint orc x) | None => None end) off c) as [H|H].
    + pose proof (ctx_none_hint_elems orc e ed (match em with Some x => Some (hint orc x) | None => None end) off c) as N.
      destruct c, (snd _); cbn in *; try tauto; intuition congruence.
    + eapply (alters_number orc e ed em); [right; left; eauto|symmetry; exact H|apply ctx_none_hint_elems].
  - unfold hint_struct. destruct (opt_bind c c_byte_size); [apply alters_same|].
    destruct (struct_values _ _ _); cbn [snd]; try apply alters_same.
    destruct (s_context _); [|apply alters_same].
    destruct (skipn _ _) as [|[]]; try apply alters_same. apply alters_state.
  - unfold hint_group. destruct (opt_bind c c_byte_size); [apply alters_same|].
    destruct (match val_get _ _ with Some _ => _ | None => _ end); [|apply alters_same].
    destruct (h off _); cbn [snd]. apply alters_state.
Qed.

Lemma values_kept orc fuel m bs off c depth :
  alters m c (snd (mapbs orc fuel m bs off c depth)) /\ alters m c (snd (hint orc m off c)).
Proof. split; [apply map_alters|apply hint_alters]. Qed.
