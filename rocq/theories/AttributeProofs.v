(** The properties of sequences, streams and members in terms of the attributes of
    their definitions. *)
From Coq Require Import String Ascii List ZArith Bool Lia.
From Verif Require Import Base Ieee PyVal PyStruct DataTypes ClassFactory DataMaps SpecPrim SpecMap SpecCreate SpecAttributes
  SeqKindProofs SizeProofs StreamProofs LayoutProofs LinearProofs NestProofs.
Import ListNotations.
Open Scope string_scope.
Open Scope list_scope.
Open Scope Z_scope.

(** ** The words *)

Lemma size_given_true e : has_data_size e = true <-> size_given e.
Proof.
  unfold has_data_size, size_given. destruct (e_data_size e), (e_data_size_expr e); cbn;
    intuition (congruence || discriminate).
Qed.

Lemma size_given_false e : has_data_size e = false <-> ~ size_given e.
Proof.
  rewrite <- size_given_true. destruct (has_data_size e); split; intros H; try congruence; now destruct H.
Qed.

Lemma number_given_false e : has_number e = false <-> ~ number_given e.
Proof.
  unfold has_number, number_given. destruct (e_number e), (e_number_expr e); cbn;
    split; intros H; try discriminate; try (exfalso; apply H; (now left) || (now right)); auto.
  intros [Q|Q]; now apply Q.
Qed.

Lemma stream_extent_size orc e ed vals n : stream_size orc e ed vals n <-> stream_extent orc e ed vals n.
Proof. unfold stream_size, stream_extent. now rewrite size_given_true, size_given_false. Qed.

Lemma open_ended_unsized e ed : unsized_stream e ed <-> open_ended e ed.
Proof. unfold unsized_stream, open_ended. now rewrite size_given_false, number_given_false. Qed.

Lemma composite_true d : is_composite d = true <-> composite d.
Proof.
  induction d; cbn; split; intros H; try discriminate; try (now constructor); try (now inversion H); auto.
  - apply orb_prop in H. destruct H as [H|H].
    + destruct condition as [[|a r]|]; try discriminate H. apply composite_condition. discriminate.
    + apply composite_member. now apply IHd.
  - apply orb_true_iff. inversion H; subst.
    + left. destruct x; [congruence|reflexivity].
    + right. now apply IHd.
Qed.

Lemma in_one_go_linear e el : sequence_is_linear e (element_type e el) = true <-> in_one_go e el.
Proof.
  assert (C : is_composite (element_type e el) = is_composite el).
  { unfold element_type. destruct (e_bo e), (dt_byte_order el) as [[]|]; auto;
      destruct (is_composite el) eqn:B; auto; destruct el; auto; discriminate B. }
  unfold sequence_is_linear, in_one_go. rewrite C, <- composite_true.
  destruct (is_composite el), (e_data_size_expr e), (e_terminator e), (e_number_expr e); cbn;
    intuition (congruence || discriminate).
Qed.

Lemma decides_condition orc mt bo c t vs d e b :
  condition_is orc (DMember mt bo c t vs d) e b <-> decides orc c e b.
Proof.
  unfold condition_is, decides. cbn. destruct c as [[|a r]|]; cbn.
  - split; [intros ->; left; auto|]. intros [[_ ->]|(x & Q & N & _)]; [reflexivity|]. congruence.
  - split; [intros H; right; eexists; repeat split; [discriminate|exact H]|].
    intros [[[Q|Q] _]|(x & Q & _ & H)]; try discriminate. now injection Q as <-.
  - split; [intros ->; left; auto|]. intros [[_ ->]|(x & Q & N & _)]; [reflexivity|]. congruence.
Qed.

Lemma undecided_condition orc mt bo c t vs d e :
  condition_bad orc (DMember mt bo c t vs d) e <-> undecided orc c e.
Proof.
  unfold condition_bad, undecided. cbn. destruct c as [[|a r]|]; cbn.
  - split; [tauto|]. intros (x & Q & N & _). congruence.
  - split; [intros H; eexists; repeat split; [discriminate|exact H]|].
    intros (x & Q & _ & H). now injection Q as <-.
  - split; [tauto|]. intros (x & Q & N & _). congruence.
Qed.

Lemma supports_allowed mt bo c t vs d v : allowed (DMember mt bo c t vs d) v <-> supports vs v.
Proof.
  unfold allowed, supports. cbn. destruct vs as [[|x r]|].
  - tauto.
  - split; [intros (w & I & E); right; right; eauto|].
    intros [Q|[Q|(l & w & Q & I & E)]]; try discriminate. injection Q as <-. eauto.
  - tauto.
Qed.

(** ** Sequences *)

Lemma counted orc fuel e el m x bs off vals depth :
  extensional orc -> everywhere sound (DElems KSequence e el) ->
  create orc (DElems KSequence e el) None = Ok (Some m) ->
  create orc (element_type e el) None = Ok (Some x) ->
  ~ size_given e -> e_terminator e = None -> 0 <= off <= len bs ->
  (forall v n, maps orc fuel m bs off vals depth v n ->
     exists k vs, measure orc (e_number e) (e_number_expr e) vals k /\ v = VTuple vs /\ len vs = k /\
       elements orc fuel x bs depth off vs (off + n)) /\
  (forall k vs n, measure orc (e_number e) (e_number_expr e) vals k -> len vs = k ->
     elements orc fuel x bs depth off vs (off + n) ->
     depth <= 10 -> (Z.to_nat k < fuel)%nat ->
     maps orc fuel m bs off vals depth (VTuple vs) n).
Proof. rewrite <- size_given_false. intros. now apply (counted_sequence orc fuel e el m x). Qed.

Lemma terminated orc fuel e el m x t bs off vals depth :
  extensional orc -> everywhere sound (DElems KSequence e el) ->
  create orc (DElems KSequence e el) None = Ok (Some m) ->
  create orc (element_type e el) None = Ok (Some x) ->
  ~ size_given e -> e_terminator e = Some t -> 0 <= off <= len bs -> depth <= 10 ->
  (forall v n, maps orc fuel m bs off vals depth v n <->
     exists vs w, v = VTuple (vs ++ [w]) /\ py_eq w t = true /\ Forall (fun u => py_eq u t = false) vs /\
       elements orc fuel x bs depth off (vs ++ [w]) (off + n) /\ (List.length vs < fuel)%nat) /\
  (fails orc fuel m bs off vals depth ByteStreamTooSmallError <->
     exists vs n, Forall (fun u => py_eq u t = false) vs /\ elements orc fuel x bs depth off vs (off + n) /\
       (len bs <= off + n \/ fails orc fuel x bs (off + n) [] (depth + 1) ByteStreamTooSmallError) /\
       (List.length vs < fuel)%nat).
Proof. rewrite <- size_given_false. intros. now apply (terminated_sequence orc fuel e el m x t). Qed.

Lemma filled orc fuel e el m x b bs off vals depth v n :
  extensional orc -> everywhere sound (DElems KSequence e el) ->
  create orc (DElems KSequence e el) None = Ok (Some m) ->
  create orc (element_type e el) None = Ok (Some x) ->
  size_given e -> get_byte_size el = Some b -> 0 <= off <= len bs ->
  maps orc fuel m bs off vals depth v n ->
  exists s vs k, measure orc (e_data_size e) (e_data_size_expr e) vals s /\ v = VTuple vs /\
    len vs = s / b /\ elements orc fuel x bs depth off vs (off + k) /\
    (in_one_go e el -> n = s /\ k = s / b * b) /\ (~ in_one_go e el -> n = k).
Proof.
  rewrite <- size_given_true. intros X E C Cx D B Ho M.
  destruct (sized_sequence orc fuel e el m x b bs off vals depth v n X E C Cx D B Ho M) as (s & vs & k & MS & V & L & W & F).
  exists s, vs, k. repeat (split; [assumption|]). rewrite <- in_one_go_linear. destruct (sequence_is_linear e (element_type e el)).
  - split; [auto|congruence].
  - split; [discriminate|auto].
Qed.

Lemma filled_variable orc fuel e el m x bs off vals depth v n :
  extensional orc -> everywhere sound (DElems KSequence e el) ->
  create orc (DElems KSequence e el) None = Ok (Some m) ->
  create orc (element_type e el) None = Ok (Some x) ->
  size_given e -> get_byte_size el = None -> 0 <= off <= len bs ->
  maps orc fuel m bs off vals depth v n ->
  exists s k e' el' t vs, measure orc (e_data_size e) (e_data_size_expr e) vals s /\
    el = DElems k e' el' /\ e_terminator e' = Some t /\ v = VTuple vs /\
    elements orc fuel x bs depth off vs (off + n) /\
    (s <= n \/ (vs <> [] /\ py_eq (last vs VNone) t = true)) /\
    forall before after j, vs = before ++ after -> after <> [] ->
      elements orc fuel x bs depth off before (off + j) ->
      j < s /\ (before <> [] -> py_eq (last before VNone) t = false).
Proof.
  rewrite <- size_given_true. intros X E C Cx D B Ho M.
  destruct (sized_sequence_variable orc fuel e el m x bs off vals depth v n X E C Cx D B Ho M)
    as (s & t & vs & MS & T & V & W & F & G).
  destruct el as [| | | | | |k e' el'| | | | | | | |]; cbn in T; try discriminate. injection T as T.
  exists s, k, e', el', t, vs. repeat (split; [assumption || reflexivity|]). exact G.
Qed.

Lemma filled_size orc fuel e el m x b bs off vals depth v n :
  extensional orc -> everywhere sound (DElems KSequence e el) -> everywhere exact el ->
  create orc (DElems KSequence e el) None = Ok (Some m) ->
  create orc (element_type e el) None = Ok (Some x) ->
  size_given e -> get_byte_size el = Some b -> 0 <= off <= len bs ->
  maps orc fuel m bs off vals depth v n ->
  exists s, measure orc (e_data_size e) (e_data_size_expr e) vals s /\
    (in_one_go e el -> n = s) /\ (~ in_one_go e el -> n = s / b * b).
Proof.
  rewrite <- size_given_true. intros X E Ex C Cx D B Ho M.
  destruct (sized_sequence_size orc fuel e el m x b bs off vals depth v n X E Ex C Cx D B Ho M) as (s & MS & F).
  exists s. split; [assumption|]. rewrite <- in_one_go_linear. destruct (sequence_is_linear e (element_type e el)).
  - split; [auto|congruence].
  - split; [discriminate|auto].
Qed.

(** ** Streams *)

Lemma stream_given orc fuel e ed em bs off vals depth :
  0 <= off -> (forall b, get_byte_size ed = Some b -> 0 <= b) ->
  ~ open_ended e ed ->
  let m := MStream e ed em in
  (forall v n, maps orc fuel m bs off vals depth v n <->
     stream_extent orc e ed vals n /\ off + n <= len bs /\ v = VBytes (window bs off n)) /\
  (fails orc fuel m bs off vals depth ByteStreamTooSmallError <->
     exists n, stream_extent orc e ed vals n /\ len bs < off + n) /\
  (fails orc fuel m bs off vals depth MappingError <-> forall n, ~ stream_extent orc e ed vals n) /\
  (forall x, fails orc fuel m bs off vals depth x -> x = ByteStreamTooSmallError \/ x = MappingError).
Proof.
  rewrite <- open_ended_unsized. intros Ho Hb U m.
  destruct (stream_sized orc fuel e ed em bs off vals depth Ho Hb U) as (A & B & C & D). fold m in A, B, C, D.
  split; [|split; [|split; [|exact D]]].
  - intros v n. rewrite A, stream_extent_size. reflexivity.
  - rewrite B. split; intros (n & S & L); exists n; split; auto; now apply stream_extent_size.
  - rewrite C. split; intros H n S; apply (H n); now apply stream_extent_size.
Qed.

Lemma stream_until orc fuel e ed em t bs off vals depth :
  0 <= off -> open_ended e ed -> e_terminator e = Some (VBytes t) ->
  get_byte_size ed = Some (len t) -> 0 < len t ->
  let m := MStream e ed em in
  (forall v n, maps orc fuel m bs off vals depth v n <->
     exists k, first_at t bs off k /\ n = (k + 1) * len t /\ v = VBytes (window bs off n)) /\
  (fails orc fuel m bs off vals depth ByteStreamTooSmallError <-> forall k, ~ first_at t bs off k) /\
  (forall x, fails orc fuel m bs off vals depth x -> x = ByteStreamTooSmallError).
Proof. rewrite <- open_ended_unsized. intros. now apply stream_terminated. Qed.

Lemma stream_fold_given orc e ed em vals b :
  ~ open_ended e ed ->
  let m := MStream e ed em in
  (forall r, folds orc m (VBytes b) vals r <-> stream_extent orc e ed vals (len b) /\ r = b) /\
  (fold_fails orc m (VBytes b) vals FoldingError <-> exists n, stream_extent orc e ed vals n /\ n <> len b).
Proof.
  rewrite <- open_ended_unsized. intros U m.
  destruct (stream_fold_sized orc e ed em vals b U) as (A & B). fold m in A, B. split.
  - intros r. rewrite A, stream_extent_size. reflexivity.
  - rewrite B. split; intros (n & S & L); exists n; split; auto; now apply stream_extent_size.
Qed.

(** ** Members *)

Lemma member_condition orc fuel mt bo ms ov d cls ms' attrs op bs off vals depth :
  extensional orc ->
  create orc (DStructure mt bo ms) ov = Ok (Some (MStructure false d cls ms' attrs op)) ->
  clear_names cls (map dt_name ms) -> depth <= 10 ->
  let m := MStructure false d cls ms' attrs op in
  forall before mm mbo cond t values i name x after s off',
  combine ms attrs = before ++ (DMember mm mbo cond t values i, (name, x)) :: after ->
  fields orc fuel cls vals bs depth before (blank cls attrs) off s off' ->
  (undecided orc cond (scope cls s vals) -> fails orc fuel m bs off vals depth MappingError) /\
  (decides orc cond (scope cls s vals) false -> forall v n,
     maps orc fuel m bs off vals depth v n <->
     fields orc fuel cls vals bs depth after s off' v (off + n)) /\
  (decides orc cond (scope cls s vals) true -> forall v n,
     maps orc fuel m bs off vals depth v n <->
     exists y w k, x = Some y /\
       maps orc fuel y bs off' (scope cls s vals) (depth + 1) w k /\ supports values w /\
       fields orc fuel cls vals bs depth after (py_setattr s name w) (off' + k) v (off + n)).
Proof.
  intros X C N D m before mm mbo cond t values i name x after s off' Q F.
  destruct (structure_condition orc fuel mt bo ms ov d cls ms' attrs op bs off vals depth X C N D
              before _ name x after s off' Q F) as (A & B & E). fold m in A, B, E.
  rewrite undecided_condition in A. rewrite decides_condition in B, E.
  split; [exact A|]. split; [exact B|]. intros T v n. rewrite (E T v n).
  split; intros (y & w & k & Hx & M & P & R); exists y, w, k; repeat (split; [assumption|]); (split; [|exact R]);
    now apply (supports_allowed mm mbo cond t values i).
Qed.

Lemma member_supported orc fuel mt bo ms lin d cls ms' attrs op bs off vals depth v n :
  extensional orc ->
  create orc (DStructure mt bo ms) None = Ok (Some (MStructure lin d cls ms' attrs op)) ->
  distinct_types (m_name mt) bo ms -> 0 <= off ->
  maps orc fuel (MStructure lin d cls ms' attrs op) bs off vals depth v n ->
  forall mm mbo cond t values i, In (DMember mm mbo cond t values i) ms ->
    supports values (py_getattr v (m_name mm)) \/
    (py_getattr v (m_name mm) = VNone /\ cond <> None /\ cond <> Some EmptyString).
Proof.
  intros X C T Ho M mm mbo cond t values i I.
  destruct (supported_values orc fuel mt bo ms lin d cls ms' attrs op bs off vals depth v n X C T Ho M _ I) as [A|[V N]].
  - left. now apply supports_allowed in A.
  - right. split; [exact V|]. cbn in N. destruct cond as [[|a r]|]; cbn in N; split; congruence.
Qed.

Lemma member_unsupported orc fuel mt bo ms ov d cls ms' attrs op bs off vals depth :
  extensional orc ->
  create orc (DStructure mt bo ms) ov = Ok (Some (MStructure false d cls ms' attrs op)) ->
  clear_names cls (map dt_name ms) -> depth <= 10 ->
  forall before mm mbo cond t values i name x after s off' v n,
  combine ms attrs = before ++ (DMember mm mbo cond t values i, (name, Some x)) :: after ->
  fields orc fuel cls vals bs depth before (blank cls attrs) off s off' ->
  decides orc cond (scope cls s vals) true ->
  maps orc fuel x bs off' (scope cls s vals) (depth + 1) v n ->
  ~ supports values v ->
  fails orc fuel (MStructure false d cls ms' attrs op) bs off vals depth MappingError.
Proof.
  intros X C N D before mm mbo cond t values i name x after s off' v n Q F T M U.
  eapply (unsupported_composite orc fuel mt bo ms ov d cls ms' attrs op bs off vals depth X C N D); eauto.
  - now apply decides_condition.
  - now rewrite supports_allowed.
Qed.

Lemma member_unsupported_fast orc fuel mt bo ms d cls ms' attrs op n bs off vals depth xs :
  extensional orc ->
  create orc (DStructure mt bo ms) None = Ok (Some (MStructure true d cls ms' attrs op)) ->
  distinct_types (m_name mt) bo ms -> clear_names (m_name mt) (map dt_name ms) ->
  get_byte_size (DStructure mt bo ms) = Some n -> 0 <= off ->
  Forall2 (fun m x => create orc (set_name_bo (dt_name (type_of m)) bo (type_of m)) None = Ok x) ms xs ->
  forall before mm mbo cond t values i name x after s off' v k,
  combine ms (combine (map dt_name ms) xs) = before ++ (DMember mm mbo cond t values i, (name, Some x)) :: after ->
  fields orc fuel cls vals bs depth before (blank cls attrs) off s off' ->
  maps orc fuel x bs off' (scope cls s vals) (depth + 1) v k ->
  ~ supports values v ->
  fails orc fuel (MStructure true d cls ms' attrs op) bs off vals depth
    (if len bs - off <? n then ByteStreamTooSmallError else MappingError).
Proof.
  intros X C T N S Ho XS before mm mbo cond t values i name x after s off' v k Q F M U.
  eapply (unsupported_linear orc fuel mt bo ms d cls ms' attrs op n bs off vals depth xs X C T N S Ho XS); eauto.
  now rewrite supports_allowed.
Qed.

(** ** Byte orders of elements *)

Lemma element_orders orc k e el m :
  create orc (DElems k e el) None = Ok (Some m) ->
  exists own em t,
    dt_byte_order el = Some own /\ create orc t None = Ok em /\
    (t = el \/ exists n, t = set_name_bo n (e_bo e) el) /\
    (composite el -> dt_byte_order t = Some own) /\
    (~ composite el -> dt_byte_order t = Some (inherited (e_bo e) own)) /\
    match m with
    | MSequence _ e' ed em' _ | MStream e' ed em' | MString e' ed em' => e' = e /\ ed = t /\ em' = em
    | _ => False
    end.
Proof.
  intros C. destruct (sequence_orders orc k e el m C) as (own & em & t & A & B & D & E & F).
  exists own, em, t. repeat (split; [assumption|]). rewrite <- composite_true.
  destruct (is_composite el); repeat split; auto; congruence.
Qed.
