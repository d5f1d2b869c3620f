(** Definitions of a fixed size: lack of bytes. *)
From Coq Require Import String List ZArith Bool Lia.
From Verif Require Import Base PyVal PyStruct DataTypes ClassFactory DataMaps.
From Verif Require Import BytesProofs ContainerProofs SpecPrim PrimProofs SpecMap SpecCreate MapProofs ContextProofs
  StructProofs CreateProofs StreamProofs.
Import ListNotations.
Open Scope Z_scope.
Arguments Z.pow : simpl never.
Arguments Z.mul : simpl never.

Lemma map_values_never d t : map_values d t <> Raise ByteStreamTooSmallError.
Proof.
  induction t as [|v t IH]; cbn; [discriminate|].
  destruct (map_value d v) as [x|e|] eqn:E; cbn; try discriminate.
  - destruct (map_values d t); cbn; congruence.
  - intros H. inversion H. subst e. clear -E. destruct d, v; cbn in E; try discriminate.
    + unfold boolean_map_value in E. repeat match type of E with context [match ?x with _ => _ end] => destruct x end; discriminate.
    + destruct (_ && _); discriminate.
Qed.

Lemma string_cut_never fuel b t n o : string_cut fuel b t n o <> Raise ByteStreamTooSmallError.
Proof.
  revert o. induction fuel as [|fuel IH]; intros o; cbn; [discriminate|].
  repeat match goal with |- context [match ?x with _ => _ end] => destruct x end; try discriminate; auto.
Qed.

Lemma fixed_stream orc fuel e ed em n bs off vals depth :
  (has_data_size e = false \/ has_number e = false) ->
  (forall k, e_data_size e = Some k -> 0 < k) -> (forall k, e_number e = Some k -> 0 < k) ->
  elems_byte_size e (get_byte_size ed) = Some n -> 0 <= off ->
  (fails orc fuel (MStream e ed em) bs off vals depth ByteStreamTooSmallError <-> len bs - off < n) /\
  (fails orc fuel (MString e ed em) bs off vals depth ByteStreamTooSmallError <-> len bs - off < n).
Proof.
  intros X P1 P2 S Ho.
  assert (A : fst (calc_data_size orc e ed (Some (ctx_new vals))) = Ok (Some n)).
  { unfold elems_byte_size in S. apply calc_spec. unfold stream_size, measure.
    destruct (truthy_Z (e_data_size e)) as [k|] eqn:D.
    - apply truthy_Z_some in D. destruct D as [D N]. inversion S; subst k. left.
      split; [unfold has_data_size; now rewrite D|]. left. rewrite D. specialize (P1 _ D). repeat split; auto; lia.
    - destruct (truthy_Z (e_number e)) as [k|] eqn:K; [|discriminate]. apply truthy_Z_some in K. destruct K as [K N].
      destruct (truthy_Z (get_byte_size ed)) as [b|] eqn:B; [|discriminate]. apply truthy_Z_some in B. destruct B as [B Nb].
      inversion S; subst n. right. split.
      + destruct X as [X|X]; auto. unfold has_number in X. rewrite K in X. discriminate.
      + exists k, b. split; auto. split; [|lia]. left. rewrite K. specialize (P2 _ K). repeat split; auto; lia. }
  assert (St : fst (map_stream orc e ed bs off (Some (ctx_new vals)) depth) = Raise ByteStreamTooSmallError <-> len bs - off < n).
  { unfold map_stream. destruct (calc_data_size orc e ed (Some (ctx_new vals))) as [r c1]. cbn [fst] in A. subst r.
    destruct (Z.ltb_spec (len bs - off) n); cbn [fst]; split; intros; try discriminate; auto; lia. }
  split; [exact St|]. unfold fails. cbn [mapbs]. rewrite <- St. unfold map_string.
  destruct (map_stream orc e ed bs off (Some (ctx_new vals)) depth) as [[v|x|] c1]; cbn [fst]; [|reflexivity|split; discriminate].
  split; [|discriminate]. destruct v; cbn [fst]; try discriminate.
  destruct (e_terminator e) as [t|]; [|destruct (o_decode _ _ _); discriminate].
  destruct (py_len t) as [k|y|] eqn:L; cbn [bind].
  - pose proof (string_cut_never (Datatypes.S (List.length b)) b t k 0) as NC.
    destruct (string_cut _ _ _ _ _); cbn [bind fst]; try discriminate; [|congruence].
    destruct (o_decode _ _ _); discriminate.
  - destruct t; cbn in L; try discriminate; inversion L; discriminate.
  - discriminate.
Qed.

(** C08 *)
Lemma fixed_too_small orc fuel d m n bs off vals depth :
  everywhere sound d -> create orc d None = Ok (Some m) -> flat m ->
  get_byte_size d = Some n -> 0 <= off ->
  (fails orc fuel m bs off vals depth ByteStreamTooSmallError <-> len bs - off < n).
Proof.
  intros W C F S Ho. apply everywhere_here in W.
  assert (P : forall x o, get_byte_size x = Some n ->
            (fst (map_prim x o bs off (Some (ctx_new vals)) depth) = Raise ByteStreamTooSmallError <-> len bs - off < n)).
  { intros x o Hx. unfold map_prim. rewrite Hx. destruct (Z.ltb_spec (len bs - off) n); cbn [fst].
    - split; auto.
    - split; [|lia]. destruct (match o with Some _ => _ | None => _ end); discriminate. }
  destruct d; try discriminate.
  - cbn in C. destruct false_value, true_value; try discriminate;
      (apply bind_ok in C; destruct C as (o & _ & C); inversion C; subst; apply P; exact S).
  - cbn in C. apply bind_ok in C; destruct C as (o & _ & C); inversion C; subst; apply P; exact S.
  - cbn in C. apply bind_ok in C; destruct C as (o & _ & C); inversion C; subst; apply P; exact S.
  - cbn in C. apply bind_ok in C; destruct C as (o & _ & C); inversion C; subst; apply P; exact S.
  - cbn in C. inversion C; subst. unfold fails. cbn [mapbs apply_ov]. unfold map_uuid. rewrite S.
    destruct (Z.ltb_spec (len bs - off) n); cbn [fst].
    + split; auto.
    + split; [|lia].
      destruct (dt_byte_order (DUUID f)) as [[]|]; cbn [fst]; try discriminate; destruct (_ =? _); discriminate.
  - apply create_elems in C. destruct C as (eov & em & O & Ce & _ & C). cbn [elems_of apply_ov] in *.
    destruct W as [(W1 & W2 & W3 & W4) _]. cbn [get_byte_size] in S. rewrite <- (apply_ov_size eov) in S.
    destruct k.
    + destruct (sequence_is_linear _ _); [|subst m; destruct F]. destruct C as (o & Op & ->).
      unfold fails. cbn [mapbs]. unfold map_seq_linear. rewrite S.
      destruct (Z.ltb_spec (len bs - off) n); cbn [fst].
      * split; auto.
      * split; [|lia]. destruct o as [o|]; [|discriminate]. destruct em as [em|]; [|discriminate].
        destruct em; try discriminate. destruct (read_from _ _) as [t| |]; cbn [fst]; try discriminate.
        pose proof (map_values_never d0 t). destruct (map_values d0 t); cbn; congruence.
    + destruct C as [_ ->]. eapply fixed_stream; eauto.
    + destruct C as [_ ->]. eapply fixed_stream; eauto.
  - apply created_structure in C. apply create_structure_inv in C.
    destruct C as (attrs & _ & _ & _ & _ & [(_ & op & _ & ->)|(_ & ->)]); [|destruct F].
    unfold fails. cbn [mapbs]. unfold map_struct_linear. rewrite apply_ov_size, S.
    destruct (Z.ltb_spec (len bs - off) n); cbn [fst].
    + split; auto.
    + split; [|lia]. destruct (match op with Some _ => _ | None => _ end); discriminate.
Qed.
