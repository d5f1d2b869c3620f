(** Mapping reports too few bytes exactly where the reference reading lacks
    them. *)
From Coq Require Import String Ascii List ZArith Bool Lia.
From Verif Require Import Base PyVal PyStruct DataTypes ClassFactory DataMaps.
From Verif Require Import BytesProofs ContainerProofs SpecPrim PrimProofs SpecMap SpecCreate SpecReads SpecShort
  MapProofs ContextProofs StructProofs LayoutProofs CreateProofs LinearProofs SeqProofs StreamProofs GroupProofs
  PaddingProofs SteadyProofs WindowProofs SeqKindProofs FixedProofs FuelProofs SeqResumeProofs ReadsProofs ErrorProofs.
Import ListNotations.
Open Scope Z_scope.
#[local] Arguments Z.pow : simpl never.
#[local] Arguments Z.mul : simpl never.
#[local] Arguments Z.div : simpl never.
#[local] Arguments Z.add : simpl never.

Definition stops_short (orc : oracle) (d : dtype) : Prop :=
  everywhere regular d -> forall m, create orc d None = Ok (Some m) -> forall bs off, 0 <= off <= len bs ->
  (forall fuel vals depth, fails orc fuel m bs off vals depth ByteStreamTooSmallError -> lacks orc bs d off vals) /\
  (forall vals depth, lacks orc bs d off vals -> depth + levels d <= 11 ->
     exists f0, forall fuel, (f0 <= fuel)%nat -> fails orc fuel m bs off vals depth ByteStreamTooSmallError).

Lemma lacks_mapped orc d bs off vals : lacks orc bs d off vals ->
  match d with DUnion _ _ _ | DFamily _ _ _ | DMember _ _ _ _ _ _ => False | _ => True end.
Proof. destruct 1; try exact I. destruct d; try exact I; match goal with H : at_once _ |- _ => destruct H end. Qed.

(** ** Values that are taken at once *)

Lemma unknown_size orc fuel d m bs off vals depth :
  at_once d -> create orc d None = Ok (Some m) -> flat m -> get_byte_size d = None ->
  ~ fails orc fuel m bs off vals depth ByteStreamTooSmallError.
Proof.
  intros A C F S H. unfold fails in H.
  assert (P : forall x o, get_byte_size x = None ->
            fst (map_prim x o bs off (Some (ctx_new vals)) depth) <> Raise ByteStreamTooSmallError).
  { intros x o Hx. unfold map_prim. rewrite Hx. discriminate. }
  destruct d; try destruct A; try discriminate.
  - cbn in C. destruct false_value, true_value; try discriminate;
      (apply bind_ok in C; destruct C as (o & _ & C); inversion C; subst; revert H; apply P; exact S).
  - cbn in C. apply bind_ok in C; destruct C as (o & _ & C); inversion C; subst; revert H; apply P; exact S.
  - cbn in C. apply bind_ok in C; destruct C as (o & _ & C); inversion C; subst; revert H; apply P; exact S.
  - cbn in C. apply bind_ok in C; destruct C as (o & _ & C); inversion C; subst; revert H; apply P; exact S.
  - cbn in C. inversion C; subst. cbn [mapbs apply_ov] in H. unfold map_uuid in H. rewrite S in H. discriminate.
  - destruct k; try contradiction.
    apply created_elems in C. destruct C as (em & Ce & C). destruct (sequence_is_linear _ _).
    + destruct C as (o & Op & ->). cbn [mapbs] in H. unfold map_seq_linear in H. cbn [get_byte_size] in S.
      rewrite element_type_size, S in H. discriminate.
    + subst m. destruct F.
  - apply created_structure in C. apply create_structure_inv in C.
    destruct C as (attrs & _ & _ & _ & _ & [(_ & op & _ & ->)|(_ & ->)]); [|destruct F].
    cbn [mapbs] in H. unfold map_struct_linear in H. rewrite apply_ov_size, S in H. discriminate.
Qed.

Lemma at_once_short orc d m : at_once d -> everywhere regular d -> create orc d None = Ok (Some m) -> flat m ->
  forall bs off, 0 <= off <= len bs ->
  (forall fuel vals depth, fails orc fuel m bs off vals depth ByteStreamTooSmallError -> lacks orc bs d off vals) /\
  (forall vals depth, lacks orc bs d off vals ->
     exists f0, forall fuel, (f0 <= fuel)%nat -> fails orc fuel m bs off vals depth ByteStreamTooSmallError).
Proof.
  intros A Er C F bs off Ho. pose proof (regular_sound _ Er) as Sd. split.
  - intros fuel vals depth H. destruct (get_byte_size d) as [n|] eqn:S.
    + apply LackBytes with (n := n); auto. apply (fixed_too_small orc fuel d m n) in H; auto; lia.
    + exfalso. eapply unknown_size; eauto.
  - intros vals depth L. exists 0%nat. intros fuel _.
    assert (G : exists n, get_byte_size d = Some n /\ len bs < off + n).
    { inversion L; subst; eauto; try contradiction. }
    destruct G as (n & S & B). apply (fixed_too_small orc fuel d m n); auto; lia.
Qed.

(** ** Streams and strings *)

Lemma stream_short orc fuel e el em bs off vals depth :
  sound (DElems KStream e el) -> everywhere sound el -> 0 <= off ->
  (fails orc fuel (MStream e (element_type e el) em) bs off vals depth ByteStreamTooSmallError <->
   lacks orc bs (DElems KStream e el) off vals).
Proof.
  intros [(_ & _ & _ & T) _] Se Ho.
  destruct (sized_or_not e el) as [U|U].
  - destruct (e_terminator e) as [t|] eqn:Et.
    + destruct (T _ eq_refl) as (b & -> & B & BP).
      destruct (stream_terminated orc fuel e (element_type e el) em b bs off vals depth) as [_ [M _]]; auto.
      { now apply unsized_element. } { now rewrite element_type_size. }
      rewrite M. split.
      * intros F. eapply LackTerminator; eauto.
      * intros R. inversion R; subst; [contradiction|contradiction|]. assert (t = b) by congruence. subst t. auto.
    + split.
      * intros E. unfold fails in E. cbn [mapbs] in E. unfold map_stream in E. exfalso.
        destruct (calc_spec orc e (element_type e el) vals) as (_ & B & _).
        apply unsized_element in U. apply B in U.
        destruct (calc_data_size orc e (element_type e el) (Some (ctx_new vals))) as [[[k|]|x|] c1]; try discriminate.
        rewrite Et in E. discriminate.
      * intros R. inversion R; subst; [contradiction|contradiction|congruence].
  - destruct (stream_sized orc fuel e (element_type e el) em bs off vals depth) as [_ [M _]]; auto.
    { rewrite element_type_size. apply sound_size. exact Se. } { now rewrite unsized_element. }
    rewrite M. split.
    + intros (n & S & L). rewrite stream_size_element in S. eapply LackStream; eauto.
    + intros R. inversion R; subst; [contradiction| |contradiction]. exists n. rewrite stream_size_element. auto.
Qed.

Lemma string_short orc fuel e el em bs off vals depth :
  sound (DElems KString e el) -> everywhere sound el -> 0 <= off ->
  (fails orc fuel (MString e (element_type e el) em) bs off vals depth ByteStreamTooSmallError <->
   lacks orc bs (DElems KString e el) off vals).
Proof.
  intros So Se Ho.
  destruct (string_layout orc fuel e (element_type e el) em bs off vals depth) as [_ M].
  { destruct So as [(_ & _ & _ & T) _]. destruct (e_terminator e) as [t|]; cbn; auto. destruct (T _ eq_refl) as (b & -> & _ & B). eauto. }
  rewrite M. rewrite (stream_short orc fuel e el em bs off vals depth); auto. split.
  - intros [L|[Q _]]; [now apply LackString|discriminate].
  - intros L. left. inversion L; subst; auto. contradiction.
Qed.

(** ** Sequences *)

Lemma governed_bounds orc e el vals number size term :
  governed orc e el vals number size term <->
  fst (seq_bounds orc e (element_type e el) (Some (ctx_new vals))) = Ok (number, size, term).
Proof.
  destruct (has_data_size e) eqn:D.
  - rewrite (bounds_sized orc e (element_type e el) vals D). rewrite element_type_size, element_terminator_type. split.
    + intros G. inversion G; subst; try congruence.
      * exists s. split; auto. left. eauto.
      * exists s. split; auto. right. exists t. cbn [element_terminator]. split; auto. split; [congruence|auto].
    + intros (s & M & [(b & B & NZ & Q)|(t & B & T & Q)]); inversion Q; subst.
      * now apply BySize.
      * destruct el; try discriminate. cbn [element_terminator] in T. assert (e_terminator e0 = Some t) by congruence. eapply BySizeVariable; eauto.
  - destruct (e_terminator e) as [t|] eqn:T.
    + rewrite (bounds_terminated orc e (element_type e el) vals t D T). split.
      * intros G. inversion G; subst; congruence.
      * intros Q. inversion Q; subst. now apply ByTerminator.
    + rewrite (bounds_counted orc e (element_type e el) vals D T). split.
      * intros G. inversion G; subst; try congruence. eauto.
      * intros (k & M & Q). inversion Q; subst. now apply ByNumber.
Qed.

Lemma at_once_linear e el : at_once (DElems KSequence e el) <-> sequence_is_linear e (element_type e el) = true.
Proof.
  cbn [at_once]. unfold sequence_is_linear. rewrite element_type_composite.
  destruct (is_composite el), (e_data_size_expr e), (e_terminator e), (e_number_expr e); cbn; split; intros H; try discriminate;
    try (destruct H as (? & ? & ? & ?); discriminate); auto.
Qed.

Lemma elements_forward orc fuel x bs depth : nonnegative orc x ->
  forall vs off e, 0 <= off -> elements orc fuel x bs depth off vs e -> off <= e.
Proof.
  intros NN. induction vs as [|v vs IH]; intros off e Ho H; inversion H; subst; [lia|].
  match goal with Q : maps _ _ _ _ _ _ _ _ _ |- _ => apply NN in Q; [|lia] end.
  match goal with Q : elements _ _ _ _ _ _ _ _ |- _ => apply IH in Q; lia end.
Qed.

Lemma sequence_short orc e el : extensional orc -> stops_short orc (element_type e el) -> stops_short orc (DElems KSequence e el).
Proof.
  intros X A Er m C bs off Ho. destruct (element_map _ _ _ _ Er C) as (x & Cx).
  pose proof (regular_sound _ Er) as Sd. pose proof (regular_element _ _ _ Er) as Et.
  destruct (seq_parts _ _ _ _ _ X Sd C Cx) as (K & T1 & T2 & SH).
  pose proof (contained_nonneg _ _ K) as NN.
  destruct (sequence_is_linear e (element_type e el)) eqn:LI.
  { assert (AO : at_once (DElems KSequence e el)) by now apply at_once_linear.
    assert (FL : flat m).
    { destruct SH as [(op & ->)| ->]; [exact I|]. apply created_elems in C. destruct C as (em & _ & C). rewrite LI in C.
      destruct C as (o & _ & C). discriminate. }
    destruct (at_once_short orc _ _ AO Er C FL bs off Ho) as [P1 P2]. split; eauto. }
  assert (NA : ~ at_once (DElems KSequence e el)) by (rewrite at_once_linear; congruence).
  assert (Em : m = MSequence false e (element_type e el) (Some x) None).
  { destruct SH as [(op & ->)|Em]; auto. apply linear_created in C. destruct C as (_ & _ & L & _). congruence. }
  subst m. clear SH.
  assert (TN : forall number size term vals, fst (seq_bounds orc e (element_type e el) (Some (ctx_new vals))) = Ok (number, size, term) -> term <> Some VNone).
  { intros number size term vals B Q. subst term. apply governed_bounds in B. inversion B; subst; try congruence.
    apply T2. rewrite element_terminator_type. cbn [element_terminator]. congruence. }
  assert (Ag : agrees orc (element_type e el)) by now apply all_agree.
  split.
  - intros fuel vals depth H.
    assert (Hd : depth <= 10).
    { destruct (Z.lt_ge_cases 10 depth) as [D|D]; [|lia]. unfold fails in H. rewrite too_deep in H by (cbn; auto). discriminate. }
    destruct (fst (seq_bounds orc e (element_type e el) (Some (ctx_new vals)))) as [[[number size] term]|ex|] eqn:B.
    + pose proof (TN _ _ _ _ B) as TN'.
      destruct (sequence_layout orc fuel x bs depth number size term off e (element_type e el) None vals X ltac:(lia) NN TN' B Hd) as (_ & SL & _).
      apply SL in H. destruct H as (vs & n & [W W'] & NAc & _ & FIN).
      destruct (elements_reads _ _ _ _ _ _ X Et Cx Ag _ _ _ Ho W) as (rs & <- & R & SP & PF).
      assert (n = span rs) by lia. subst n.
      eapply LackElement; eauto.
      * now apply governed_bounds.
      * intros before after Q NE. apply (W' (map fst before) (map fst after)).
        -- rewrite Q. apply map_app.
        -- destruct after; [congruence|discriminate].
        -- eapply PF; eauto.
      * destruct FIN as [F|[F|F]]; auto. right.
        destruct (Z.le_gt_cases (len bs) (off + span rs)) as [G|G]; [left; lia|].
        right. assert (IN : 0 <= off + span rs <= len bs).
        { pose proof (elements_forward _ _ _ _ _ NN _ _ _ (proj1 Ho) W). lia. }
        eapply (proj1 (A Et x Cx bs _ IN)); eauto.
    + exfalso. unfold fails in H. cbn [mapbs] in H. unfold map_seq in H.
      destruct (max_depth <? depth); [discriminate|].
      destruct (seq_bounds orc e (element_type e el) (Some (ctx_new vals))) as [r c1] eqn:Q. cbn [fst] in B. subst r.
      cbn in H. inversion H; subst. apply (bounds_not_short orc e (element_type e el) (Some (ctx_new vals))). now rewrite Q.
    + exfalso. unfold fails in H. cbn [mapbs] in H. unfold map_seq in H.
      destruct (max_depth <? depth); [discriminate|].
      destruct (seq_bounds orc e (element_type e el) (Some (ctx_new vals))) as [r c1] eqn:Q. cbn [fst] in B. subst r. discriminate.
  - intros vals depth L D. cbn [levels] in D. rewrite <- (levels_element e) in D.
    pose proof (levels_nonneg (element_type e el)) as LN. assert (Hd : depth <= 10) by lia.
    inversion L; subst; [contradiction|].
    match goal with Q : governed _ _ _ _ _ _ _ |- _ => apply governed_bounds in Q; rename Q into B end.
    match goal with Q : reads_elements _ _ _ _ _ |- _ => rename Q into RE end.
    match goal with Q : forall before after, _ |- _ => rename Q into PS end.
    match goal with Q : ~ SpecMap.accepted _ _ _ _ _ |- _ => rename Q into NAc end.
    match goal with Q : _ \/ _ \/ _ |- _ => rename Q into FIN end.
    pose proof (TN _ _ _ _ B) as TN'.
    destruct (reads_elements_maps orc _ x bs depth X Et Cx Ag ltac:(lia) rs off Ho RE) as (f1 & F1).
    assert (G : exists f2, forall fuel, (f2 <= fuel)%nat -> complete number size term (map fst rs) (span rs) \/ len bs <= off + span rs \/
       fails orc fuel x bs (off + span rs) [] (depth + 1) ByteStreamTooSmallError).
    { destruct FIN as [F|[F|F]]; [exists 0%nat; auto|exists 0%nat; auto|].
      destruct (Z.le_gt_cases (len bs) (off + span rs)) as [G|G]; [exists 0%nat; auto|].
      assert (IN : 0 <= off + span rs <= len bs).
      { specialize (F1 f1 (le_n _) rs []). rewrite app_nil_r in F1.
        pose proof (elements_forward _ _ _ _ _ NN _ _ _ (proj1 Ho) (F1 eq_refl)). lia. }
      destruct (proj2 (A Et x Cx bs _ IN) [] (depth + 1) F) as (f2 & F2); [lia|]. exists f2. intros fuel Hf. right. right. auto. }
    destruct G as (f2 & F2). exists (Nat.max (Nat.max f1 f2) (S (List.length rs))). intros fuel Hf.
    specialize (F1 fuel ltac:(lia)). specialize (F2 fuel ltac:(lia)).
    destruct (sequence_layout orc fuel x bs depth number size term off e (element_type e el) None vals X ltac:(lia) NN TN' B Hd) as (_ & SL & _).
    apply SL.
    exists (map fst rs), (span rs). split; [|split; [auto|split; [rewrite map_length; lia|auto]]].
    split; [apply (F1 rs []); now rewrite app_nil_r|].
    intros vb va k Q NE EB CQ.
    destruct (elements_at orc fuel x bs depth off rs ltac:(lia) F1 vb va k Q EB) as (b1 & a1 & Q1 & -> & -> & ->).
    apply (PS b1 a1); auto. destruct a1; [cbn in NE; congruence|discriminate].
Qed.

(** ** Structures *)

Section Members.
Variables (orc : oracle) (cls : string) (bo : byte_order) (vals : env) (bs : bytes) (depth : Z) (names : list string).
Hypothesis X : extensional orc.
Hypothesis ND : NoDup names.

Let fine (m : dtype) : Prop := agrees orc (used_type cls bo m) /\ everywhere regular (used_type cls bo m).

Lemma fields_read fuel : forall ms attrs pn pre o s e rest,
  names = pn ++ map dt_name ms ++ rest -> List.length pre = List.length pn ->
  map fst attrs = map dt_name ms -> Forall fine ms ->
  Forall2 (fun m x => create orc (used_type cls bo m) None = Ok x) ms (map snd attrs) ->
  0 <= o <= len bs ->
  fields orc fuel cls vals bs depth (combine ms attrs) (partly cls names pre) o s e ->
  exists rs, reads_members orc bs cls bo names vals pre ms o rs /\ s = partly cls names (pre ++ rs) /\
    e = o + total rs /\ 0 <= e <= len bs.
Proof.
  induction ms as [|m ms IH]; intros attrs pn pre o s e rest Hn Hl Ha A C Ho F.
  - inversion F; subst. exists []. rewrite app_nil_r. repeat split; try constructor; cbn; lia.
  - destruct attrs as [|[an ax] attrs]; [discriminate|]. cbn in Ha. inversion Ha as [[Hn1 Hn2]]. subst an.
    cbn [combine] in F. cbn [map snd] in C.
    assert (Hnth : nth_error names (List.length pre) = Some (dt_name m)).
    { rewrite Hn, Hl, nth_error_app2, Nat.sub_diag by lia. reflexivity. }
    assert (Hlt : (List.length pre < List.length names)%nat) by (apply nth_error_Some; congruence).
    assert (Hn' : names = (pn ++ [dt_name m]) ++ map dt_name ms ++ rest) by (rewrite <- app_assoc; exact Hn).
    inversion C as [|? ? ? ? Cx Cs]; subst ax. inversion A as [|? ? [A1 E1] A2]; subst.
    inversion F; subst.
    + match goal with M : maps _ _ _ _ _ _ _ ?v0 ?n0 |- _ => rename M into HM; set (w := v0) in *; set (k := n0) in * end.
      pose proof (created_contained _ _ _ X E1 Cx) as K. destruct (contained_inside _ _ _ _ _ _ _ _ _ K Ho HM) as [N L].
      match goal with G : fields _ _ _ _ _ _ _ (py_setattr _ _ _) _ _ _ |- _ =>
        rewrite (setattr_partly _ _ _ _ w k ND Hnth) in G;
        apply (IH attrs (pn ++ [dt_name m]) (pre ++ [Some (w, k)]) _ _ _ rest) in G; auto;
        [destruct G as (rs & R & -> & -> & B)|rewrite !app_length; cbn; lia|lia] end.
      exists (Some (w, k) :: rs). rewrite <- app_assoc. cbn [app]. split; [|split; [auto|cbn [total fold_right size_of]; fold (total rs); lia]].
      apply ReadPresent; auto. eapply A1; eauto.
    + match goal with G : fields _ _ _ _ _ _ (combine ms attrs) (partly _ _ _) _ _ _ |- _ =>
        rewrite <- (absent_partly _ _ _ Hlt) in G;
        apply (IH attrs (pn ++ [dt_name m]) (pre ++ [None]) _ _ _ rest) in G; auto;
        [destruct G as (rs & R & -> & -> & B)|rewrite !app_length; cbn; lia] end.
      exists (None :: rs). rewrite <- app_assoc. cbn [app]. split; [|split; [auto|cbn [total fold_right size_of]; fold (total rs); lia]].
      apply ReadAbsent; auto.
Qed.

Lemma read_fields : forall ms attrs pn pre o rs rest,
  names = pn ++ map dt_name ms ++ rest -> List.length pre = List.length pn ->
  map fst attrs = map dt_name ms -> Forall fine ms ->
  Forall2 (fun m x => create orc (used_type cls bo m) None = Ok x) ms (map snd attrs) ->
  Forall (fun m => depth + 1 + levels m <= 11) ms ->
  0 <= o <= len bs ->
  reads_members orc bs cls bo names vals pre ms o rs ->
  0 <= o + total rs <= len bs /\ exists f0, forall fuel, (f0 <= fuel)%nat ->
    fields orc fuel cls vals bs depth (combine ms attrs) (partly cls names pre) o
      (partly cls names (pre ++ rs)) (o + total rs).
Proof.
  induction ms as [|m ms IH]; intros attrs pn pre o rs rest Hn Hl Ha A C D Ho R.
  - inversion R; subst. cbn. split; [lia|]. exists 0%nat. intros fuel _. rewrite app_nil_r. replace (o + 0) with o by lia. constructor.
  - destruct attrs as [|[an ax] attrs]; [discriminate|]. cbn in Ha. inversion Ha as [[Hn1 Hn2]]. subst an.
    cbn [combine]. cbn [map snd] in C.
    assert (Hnth : nth_error names (List.length pre) = Some (dt_name m)).
    { rewrite Hn, Hl, nth_error_app2, Nat.sub_diag by lia. reflexivity. }
    assert (Hlt : (List.length pre < List.length names)%nat) by (apply nth_error_Some; congruence).
    assert (Hn' : names = (pn ++ [dt_name m]) ++ map dt_name ms ++ rest) by (rewrite <- app_assoc; exact Hn).
    inversion C as [|? ? ? ? Cx Cs]; subst. inversion A as [|? ? [A1 E1] A2]; subst. inversion D as [|? ? D1 D2]; subst.
    inversion R; subst.
    + match goal with Q : reads _ _ _ _ _ _ _ |- _ => rename Q into RD end.
      match goal with Q : reads_members _ _ _ _ _ _ _ _ _ _ |- _ => rename Q into RM end.
      destruct (mapped_some _ _ _ (reads_mapped _ _ _ _ _ _ _ RD) Cx) as (y & ->).
      destruct (proj2 (A1 E1 y Cx bs o Ho) _ (depth + 1) _ _ RD) as (f1 & F1).
      { rewrite levels_used. lia. }
      pose proof (created_contained _ _ _ X E1 Cx) as K.
      destruct (contained_inside _ _ f1 _ _ _ _ _ _ K Ho (F1 f1 (le_n _))) as [N L].
      destruct (IH attrs (pn ++ [dt_name m]) (pre ++ [Some (v, n)]) (o + n) rs0 rest) as (B & f2 & F2); auto; [rewrite !app_length; cbn; lia|lia|].
      cbn [total fold_right size_of]. fold (total rs0).
      replace (o + (n + total rs0)) with (o + n + total rs0) by lia. split; auto.
      exists (Nat.max f1 f2). intros fuel Hf. eapply fields_present; eauto; [apply F1; lia|].
      rewrite (setattr_partly _ _ _ _ v n ND Hnth). specialize (F2 fuel ltac:(lia)). rewrite <- app_assoc in F2. exact F2.
    + match goal with Q : reads_members _ _ _ _ _ _ _ _ _ _ |- _ => rename Q into RM end.
      destruct (IH attrs (pn ++ [dt_name m]) (pre ++ [None]) o rs0 rest) as (B & f2 & F2); auto; [rewrite !app_length; cbn; lia|].
      cbn [total fold_right size_of]. fold (total rs0). replace (o + (0 + total rs0)) with (o + total rs0) by lia. split; auto.
      exists f2. intros fuel Hf. apply fields_absent; auto. rewrite <- (absent_partly _ _ _ Hlt).
      specialize (F2 fuel Hf). rewrite <- app_assoc in F2. exact F2.
Qed.

End Members.

Lemma blank_partly cls attrs : blank cls attrs = partly cls (map fst attrs) [].
Proof.
  unfold blank, partly. cbn. rewrite Nat.sub_0_r. f_equal. induction attrs as [|[a x] l IH]; cbn; auto. now rewrite IH.
Qed.

Lemma check_linear_once ms : forall last lin, check_linear last ms = Ok lin -> (lin = true <-> SpecMake.one_go last ms).
Proof.
  induction ms as [|m ms IH]; intros last lin C; cbn [check_linear SpecMake.one_go] in *; [inversion C; tauto|].
  destruct (is_composite m), (is_padding m); cbn [orb] in C; try (inversion C; subst; split; [discriminate|intuition congruence]; fail).
  destruct (dt_byte_order m) as [b|]; [|discriminate].
  destruct (negb (is_native last) && negb (is_native b) && negb (bo_eqb last b)) eqn:Q.
  - inversion C; subst. split; [discriminate|]. intros (_ & _ & H). destruct (H b eq_refl) as [[-> | [-> | ->]] _]; exfalso; try destruct last; try destruct b; discriminate.
  - apply IH in C. rewrite C. split.
    + intros O. split; auto. split; auto. intros b' E. inversion E; subst b'. split; auto.
      destruct last, b; try discriminate; auto.
    + intros (_ & _ & H). now apply H.
Qed.

Lemma structure_short orc mt bo ms : extensional orc ->
  Forall (fun m => stops_short orc (used_type (m_name mt) bo m)) ms -> stops_short orc (DStructure mt bo ms).
Proof.
  intros X A Er m C bs off Ho. pose proof (regular_sound _ Er) as Sd. pose proof Er as Er0.
  destruct Er as [[[_ WN] (CN & _ & NN & RG)] Em]. apply everywhere_list in Em.
  pose proof (well_named_distinct _ _ _ WN (m_name mt) bo) as DT.
  assert (Eu : Forall (fun m => everywhere regular (used_type (m_name mt) bo m)) ms).
  { rewrite Forall_forall in *. intros x Hx. specialize (Em x Hx). apply everywhere_type in Em.
    unfold used_type. destruct bo; auto; destruct (dt_byte_order (type_of x)) as [[]|] eqn:B; auto;
    (apply regular_copy; [exact B| |exact Em]); intros mt1 ms1 T;
    (destruct (NN x mt1 ms1) as [(c & r & -> & Hc) N2]; [discriminate|exact Hx|exact T|]); (split; [do 2 eexists; split; [reflexivity|exact Hc]|exact N2]). }
  assert (A' : Forall (fun m => agrees orc (used_type (m_name mt) bo m) /\ everywhere regular (used_type (m_name mt) bo m)) ms).
  { rewrite Forall_forall in *. intros x Hx. split; auto. now apply all_agree. }
  assert (SH : exists lin d cls ms' attrs op, m = MStructure lin d cls ms' attrs op).
  { cbn [create] in C. apply bind_ok in C. destruct C as (s & S & C). inversion C; subst s. unfold create_structure in S.
    repeat (apply bind_ok in S; destruct S as (? & _ & S)). destruct x1; [apply bind_ok in S; destruct S as (? & _ & S)|];
      inversion S; do 6 eexists; reflexivity. }
  destruct SH as (lin & d & cls & ms' & attrs & op & ->).
  pose proof (structure_own_maps _ _ _ _ _ _ _ _ _ _ C DT) as OM.
  assert (CX : Forall2 (fun m x => create orc (used_type (m_name mt) bo m) None = Ok x) ms (map snd attrs)).
  { clear -OM. induction OM as [|a b l l' [_ Q] F IH]; cbn; constructor; auto. }
  pose proof (created_shape _ _ _ _ _ _ _ _ _ _ _ C) as SH. cbn [ov_name ov_bo apply_ov] in SH.
  destruct SH as (-> & -> & -> & NE & ND & AN & LA & _ & CL & OP).
  destruct lin.
  { assert (AO : at_once (DStructure mt bo ms)) by now apply (check_linear_once ms bo true CL).
    destruct (at_once_short orc _ _ AO Er0 C I bs off Ho) as [P1 P2]. split; eauto. }
  assert (NA : ~ at_once (DStructure mt bo ms)).
  { intros S. apply (check_linear_once ms bo false CL) in S. discriminate. }
  assert (CN' : clear_names (m_name mt) (map fst attrs)) by now rewrite AN.
  split.
  - intros fuel vals depth H.
    assert (Hd : depth <= 10).
    { destruct (Z.lt_ge_cases 10 depth) as [D|D]; [|lia]. unfold fails in H. rewrite too_deep in H by (cbn; auto). discriminate. }
    destruct (structure_layout orc fuel (DStructure mt bo ms) (m_name mt) ms attrs op bs off vals depth X LA NE CN' Hd) as (_ & SL & _).
    apply SL in H. destruct H as (before & x & name & y & after & s & o' & Q & F & Cx & z & -> & H).
    assert (SP : exists ms1 ms2 at1 at2, ms = ms1 ++ x :: ms2 /\ attrs = at1 ++ (name, Some z) :: at2 /\
        before = combine ms1 at1 /\ List.length ms1 = List.length at1).
    { clear -Q LA. revert before attrs LA Q. induction ms as [|m ms IH]; intros before attrs LA Q.
      - destruct before; discriminate.
      - destruct attrs as [|a attrs]; [discriminate|]. cbn [combine] in Q. destruct before as [|b before].
        + cbn in Q. inversion Q; subst. exists [], ms, [], attrs. auto.
        + cbn in Q. inversion Q; subst b. destruct (IH before attrs) as (ms1 & ms2 & at1 & at2 & -> & -> & -> & L); auto.
          exists (m :: ms1), ms2, (a :: at1), at2. cbn. auto. }
    destruct SP as (ms1 & ms2 & at1 & at2 & -> & -> & -> & L1).
    rewrite !map_app in AN. cbn [map fst] in AN.
    assert (AN1 : map fst at1 = map dt_name ms1 /\ name = dt_name x).
    { clear -AN L1. revert at1 L1 AN. induction ms1 as [|m l IH]; intros [|a at1] L1 AN; cbn in *; try discriminate; inversion AN; auto.
      destruct (IH at1) as [Q1 Q2]; auto. split; congruence. }
    destruct AN1 as [AN1 ->].
    rewrite blank_partly, !map_app in F. cbn [map fst] in F. rewrite AN in F.
    rewrite !map_app in CX. cbn [map snd] in CX.
    assert (CX1 : Forall2 (fun m x => create orc (used_type (m_name mt) bo m) None = Ok x) ms1 (map snd at1) /\
       create orc (used_type (m_name mt) bo x) None = Ok (Some z)).
    { clear -CX L1. revert at1 L1 CX. induction ms1 as [|m l IH]; intros [|a at1] L1 CX; cbn in *; try discriminate; inversion CX; subst; auto.
      destruct (IH at1) as [Q1 Q2]; auto. }
    destruct CX1 as [CX1 Cz].
    rewrite map_app in ND. cbn [map] in ND.
    destruct (fields_read orc (m_name mt) bo vals bs depth (map dt_name ms1 ++ dt_name x :: map dt_name ms2) X ND fuel
      ms1 at1 [] [] off s o' (dt_name x :: map dt_name ms2)) as (rs & R & -> & -> & B); auto.
    { apply Forall_app in A'. tauto. }
    cbn [app] in *.
    eapply (LackMember orc bs mt bo ms1 x ms2 rs); auto; try (rewrite map_app; cbn [map]; auto; fail).
    rewrite map_app. cbn [map]. apply Forall_app in A. destruct A as [_ A]. inversion A as [|? ? A1 _]; subst.
    apply Forall_app in Eu. destruct Eu as [_ Eu]. inversion Eu as [|? ? E1 _]; subst.
    eapply (proj1 (A1 E1 z Cz bs (off + total rs) B)); eauto.
  - intros vals depth L D. cbn [levels] in D.
    assert (LL : 0 <= fold_right (fun m a => Z.max (levels m) a) 0 ms) by (clear; induction ms; cbn; lia).
    assert (Hd : depth <= 10) by lia.
    assert (LV : Forall (fun m => depth + 1 + levels m <= 11) ms).
    { rewrite Forall_forall. intros x Hx. pose proof (levels_member x ms Hx). lia. }
    inversion L; subst; [contradiction|].
    repeat match goal with z := _ |- _ => subst z end.
    match goal with Q : reads_members _ _ _ _ _ _ _ _ _ _ |- _ => rename Q into R end.
    match goal with Q : condition_is _ _ _ _ |- _ => rename Q into Cx end.
    match goal with Q : lacks _ _ (used_type _ _ _) _ _ |- _ => rename Q into LK end.
    rename m into x. rename before into ms1. rename after into ms2.
    assert (SP : exists at1 name y at2, attrs = at1 ++ (name, y) :: at2 /\ List.length ms1 = List.length at1).
    { clear -LA. revert attrs LA. induction ms1 as [|m l IH]; intros [|[n y] attrs] LA; cbn in LA; try discriminate.
      - exists [], n, y, attrs. auto.
      - destruct (IH attrs) as (at1 & name & y' & at2 & -> & Q); [lia|]. exists ((n, y) :: at1), name, y', at2. cbn. auto. }
    destruct SP as (at1 & name & y & at2 & -> & L1).
    rewrite !map_app in AN. cbn [map fst] in AN.
    assert (AN1 : map fst at1 = map dt_name ms1 /\ name = dt_name x).
    { clear -AN L1. revert at1 L1 AN. induction ms1 as [|m l IH]; intros [|a at1] L1 AN; cbn in *; try discriminate; inversion AN; auto.
      destruct (IH at1) as [Q1 Q2]; auto. split; congruence. }
    destruct AN1 as [AN1 ->].
    rewrite !map_app in CX. cbn [map snd] in CX.
    assert (CX1 : Forall2 (fun m x => create orc (used_type (m_name mt) bo m) None = Ok x) ms1 (map snd at1) /\
       create orc (used_type (m_name mt) bo x) None = Ok y).
    { clear -CX L1. revert at1 L1 CX. induction ms1 as [|m l IH]; intros [|a at1] L1 CX; cbn in *; try discriminate; inversion CX; subst; auto.
      destruct (IH at1) as [Q1 Q2]; auto. }
    destruct CX1 as [CX1 Cz].
    destruct (mapped_some _ _ _ (lacks_mapped _ _ _ _ _ LK) Cz) as (z & ->).
    rewrite map_app in ND, R, Cx, LK. cbn [map] in ND, R, Cx, LK.
    apply Forall_app in LV. destruct LV as [LV1 LV2]. inversion LV2 as [|? ? LVx _]; subst.
    destruct (read_fields orc (m_name mt) bo vals bs depth (map dt_name ms1 ++ dt_name x :: map dt_name ms2) X ND
      ms1 at1 [] [] off rs (dt_name x :: map dt_name ms2)) as (B & f1 & F1); auto.
    { apply Forall_app in A'. tauto. }
    apply Forall_app in A. destruct A as [_ A]. inversion A as [|? ? A1 _]; subst.
    apply Forall_app in Eu. destruct Eu as [_ Eu]. inversion Eu as [|? ? E1 _]; subst.
    destruct (proj2 (A1 E1 z Cz bs (off + total rs) B) _ (depth + 1) LK) as (f2 & F2).
    { rewrite levels_used. lia. }
    exists (Nat.max f1 f2). intros fuel Hf.
    match goal with |- fails _ _ (MStructure _ _ _ _ _ ?o) _ _ _ _ _ =>
      destruct (structure_layout orc fuel (DStructure mt bo (ms1 ++ x :: ms2)) (m_name mt) (ms1 ++ x :: ms2)
        (at1 ++ (dt_name x, Some z) :: at2) o bs off vals depth X LA NE CN' Hd) as (_ & SL & _) end.
    apply SL. exists (combine ms1 at1), x, (dt_name x), (Some z), (combine ms2 at2),
      (partly (m_name mt) (map dt_name ms1 ++ dt_name x :: map dt_name ms2) rs), (off + total rs).
    split; [|split].
    + clear -L1. revert at1 L1. induction ms1 as [|m l IH]; intros [|a at1] L1; cbn in *; try discriminate; auto. now rewrite IH by lia.
    + rewrite blank_partly, map_app. cbn [map fst]. rewrite AN. apply F1. lia.
    + split; [exact Cx|]. exists z. split; auto. apply F2. lia.
Qed.

(** ** Structure groups *)

Lemma group_short orc mt bo base identifier default ms : extensional orc ->
  stops_short orc base -> on_def (stops_short orc) default -> Forall (stops_short orc) ms ->
  stops_short orc (DGroup mt bo base identifier default ms).
Proof.
  intros X Ab Ad Am Er m C bs off Ho. destruct Er as [[_ ST] (Eb & Ed & Em)]. apply everywhere_list in Em.
  destruct (group_parts _ _ _ _ _ _ _ _ ST C) as (d & b & df & ll & -> & Cb & Cd & F).
  assert (SEL : forall id x, selects identifier default ms id x -> stops_short orc x /\ everywhere regular x /\
     levels x <= levels (DGroup mt bo base identifier default ms)).
  { intros id x [(before & after & -> & _ & _)|(_ & ->)].
    - rewrite Forall_forall in Am, Em. assert (I : In x (before ++ x :: after)) by (apply in_or_app; right; now left).
      split; auto. split; auto. cbn [levels]. pose proof (levels_member _ _ I). lia.
    - cbn in Ad. split; auto. split; auto. cbn [levels]. lia. }
  split.
  - intros fuel vals depth M. destruct (group_layout orc fuel d identifier b df (concat ll) bs off vals depth X) as (_ & GL & _).
    apply GL in M. destruct M as [(x & -> & M)|(id & y & (x & w & k & -> & Mb & <-) & NN & CH & My)].
    + apply LackBase. eapply Ab; eauto.
    + destruct (chosen_selects orc identifier default df ms ll (py_getattr w identifier) F Cd) as [S _].
      destruct (S _ CH) as (d' & SL & Cy). destruct (SEL _ _ SL) as (A' & E' & _).
      eapply LackSelected; eauto.
      * eapply mapping_reads; eauto.
      * eapply A'; eauto.
  - intros vals depth R D. inversion R; subst; [contradiction| |].
    + match goal with Q : lacks _ _ base _ _ |- _ => rename Q into Lb end.
      destruct (mapped_some orc base b (lacks_mapped _ _ _ _ _ Lb) Cb) as (x & ->).
      destruct (proj2 (Ab Eb x Cb bs off Ho) [] depth Lb) as (f1 & F1); [cbn [levels] in D; lia|].
      exists f1. intros fuel Hf. destruct (group_layout orc fuel d identifier (Some x) df (concat ll) bs off vals depth X) as (_ & GL & _).
      apply GL. left. eauto.
    + match goal with Q : reads _ _ base _ _ _ _ |- _ => rename Q into Rb end.
      match goal with Q : lacks _ _ _ _ [] |- _ => rename Q into Ld end.
      match goal with Q : selects _ _ _ _ _ |- _ => rename Q into SL end.
      destruct (mapped_some orc base b (reads_mapped _ _ _ _ _ _ _ Rb) Cb) as (x & ->).
      destruct (SEL _ _ SL) as (A' & E' & LV).
      destruct (chosen_selects orc identifier default df ms ll (py_getattr b0 identifier) F Cd) as [_ S].
      destruct (S _ SL) as (r & Cr & CH). destruct (mapped_some _ _ _ (lacks_mapped _ _ _ _ _ Ld) Cr) as (y & ->).
      destruct (reading_enough_fuel orc base x bs off [] depth _ _ X Eb Cb Ho ltac:(cbn [levels] in D; lia) Rb) as (f1 & F1).
      destruct (proj2 (A' E' y Cr bs off Ho) [] depth Ld) as (f2 & F2); [lia|].
      exists (Nat.max f1 f2). intros fuel Hf.
      destruct (group_layout orc fuel d identifier (Some x) df (concat ll) bs off vals depth X) as (_ & GL & _).
      apply GL. right. exists (py_getattr b0 identifier), y.
      split; [|split; [auto|split; [auto|apply F2; lia]]].
      exists x, b0, k. split; auto. split; auto. apply F1. lia.
Qed.

(** ** All definitions *)

Lemma all_short orc : extensional orc -> forall d, stops_short orc d.
Proof.
  intros X.
  assert (STEP : forall d,
    match d with
    | DElems _ _ el => stops_short orc el /\ (dt_byte_order el = Some BONative -> forall n b, stops_short orc (set_name_bo n b el))
    | DStructure _ _ ms => Forall (fun m => stops_short orc (type_of m) /\
        (dt_byte_order (type_of m) = Some BONative -> forall n b, stops_short orc (set_name_bo n b (type_of m)))) ms
    | DGroup _ _ b _ df ms => stops_short orc b /\ on_def (stops_short orc) df /\ Forall (stops_short orc) ms
    | _ => True
    end -> stops_short orc d).
  { assert (FLAT : forall d, at_once d -> (forall m, create orc d None = Ok (Some m) -> flat m) -> stops_short orc d).
    { intros d A F Er m C bs off Ho. destruct (at_once_short orc d m A Er C (F m C) bs off Ho). split; eauto. }
    intros d H. destruct d; try (intros Er m' C bs off Ho; cbn [create] in C; discriminate).
    - apply FLAT; [exact I|]. intros m C. cbn in C. destruct false_value, true_value; try discriminate;
        (apply bind_ok in C; destruct C as (o & _ & C); inversion C; exact I).
    - apply FLAT; [exact I|]. intros m C. cbn in C. apply bind_ok in C; destruct C as (o & _ & C); inversion C; exact I.
    - apply FLAT; [exact I|]. intros m C. cbn in C. apply bind_ok in C; destruct C as (o & _ & C); inversion C; exact I.
    - apply FLAT; [exact I|]. intros m C. cbn in C. apply bind_ok in C; destruct C as (o & _ & C); inversion C; exact I.
    - apply FLAT; [exact I|]. intros m C. cbn in C. inversion C; exact I.
    - intros [[[So _] _] _] m' C bs off Ho. destruct So as (a0 & -> & Ha).
      split.
      + intros fuel vals depth Q. destruct (padding_mapping orc fuel m bo a0 bs off vals depth Ha (proj1 Ho)) as (y & Cy & _ & P & _).
        assert (y = m') by congruence. subst y. apply P in Q. destruct Q as (n & Q1 & Q2). eapply LackPadding; eauto.
      + intros vals depth L _. exists 0%nat. intros fuel _.
        destruct (padding_mapping orc fuel m bo a0 bs off vals depth Ha (proj1 Ho)) as (y & Cy & _ & P & _).
        assert (y = m') by congruence. subst y. apply P. inversion L; subst; [contradiction|eauto].
    - destruct H as [H1 H2].
      assert (A : stops_short orc (element_type e d)).
      { unfold element_type. destruct (e_bo e); auto; destruct (dt_byte_order d) as [[]|] eqn:B; auto; destruct (is_composite d); auto. }
      destruct k; [now apply sequence_short| |].
      + intros Er m C bs off Ho. pose proof (regular_sound _ Er) as [Sd Se]. apply created_elems in C. destruct C as (em & _ & ->). split.
        * intros. eapply stream_short; eauto. lia.
        * intros vals depth L D. exists 0%nat. intros fuel _. apply stream_short; auto. lia.
      + intros Er m C bs off Ho. pose proof (regular_sound _ Er) as [Sd Se]. apply created_elems in C. destruct C as (em & _ & ->). split.
        * intros. eapply string_short; eauto. lia.
        * intros vals depth L D. exists 0%nat. intros fuel _. apply string_short; auto. lia.
    - apply structure_short; auto. eapply Forall_impl; [|exact H]. cbn. intros a [A1 A2].
      unfold used_type. destruct bo; auto; destruct (dt_byte_order (type_of a)) as [[]|] eqn:B; auto.
    - intros Er m' C bs off Ho. cbn [create] in C. inversion C; subst m'. split.
      + intros fuel vals depth Q. unfold fails in Q. cbn [mapbs] in Q. discriminate.
      + intros vals depth L. inversion L; subst. contradiction.
    - intros Er m' C bs off Ho. cbn [create] in C. inversion C; subst m'. split.
      + intros fuel vals depth Q. unfold fails in Q. cbn [mapbs] in Q. discriminate.
      + intros vals depth L. inversion L; subst. contradiction.
    - intros Er m' C bs off Ho. cbn [create] in C. inversion C; subst m'. split.
      + intros fuel vals depth Q. unfold fails in Q. cbn [mapbs] in Q. discriminate.
      + intros vals depth L. inversion L; subst. contradiction.
    - destruct H as (H1 & H2 & H3). now apply group_short. }
  intros d.
  assert (G : stops_short orc d /\ forall n b, stops_short orc (set_name_bo n b d)); [|tauto].
  induction d using dtype_ind_type. split.
  - apply STEP. destruct d; auto.
    + tauto.
    + eapply Forall_impl; [|exact H]. cbn. tauto.
    + destruct H as (H1 & H2 & H3). split; [tauto|]. split.
      * destruct default; cbn in *; tauto.
      * eapply Forall_impl; [|exact H3]. cbn. tauto.
  - intros n b. apply STEP. destruct d; cbn [set_name_bo]; auto.
    + tauto.
    + eapply Forall_impl; [|exact H]. cbn. tauto.
    + destruct H as (H1 & H2 & H3). split; [tauto|]. split.
      * destruct default; cbn in *; tauto.
      * eapply Forall_impl; [|exact H3]. cbn. tauto.
Qed.

(** C66 *)
Lemma short_lacks orc d m bs off vals depth :
  extensional orc -> everywhere regular d -> create orc d None = Ok (Some m) -> 0 <= off <= len bs ->
  depth + levels d <= 11 ->
  (lacks orc bs d off vals <-> exists fuel, fails orc fuel m bs off vals depth ByteStreamTooSmallError).
Proof.
  intros X E C Ho D. destruct (all_short orc X d E m C bs off Ho) as [A B]. split.
  - intros L. destruct (B vals depth L D) as (f0 & F). exists f0. apply F. lia.
  - intros (fuel & F). eapply A; eauto.
Qed.

(** What a stream is: read, short of bytes or wrong. *)
Lemma three_ways orc fuel d m bs off vals depth :
  extensional orc -> everywhere regular d -> create orc d None = Ok (Some m) -> tame d m ->
  all_maps (takes_space orc) m -> 0 <= off <= len bs -> depth + levels d <= 11 ->
  (Z.to_nat (len bs - off) < fuel)%nat ->
  (forall v n, maps orc fuel m bs off vals depth v n <-> reads orc bs d off vals v n) /\
  (fails orc fuel m bs off vals depth ByteStreamTooSmallError <-> lacks orc bs d off vals) /\
  (fails orc fuel m bs off vals depth MappingError <->
     (forall v n, ~ reads orc bs d off vals v n) /\ ~ lacks orc bs d off vals) /\
  (forall v n, reads orc bs d off vals v n -> ~ lacks orc bs d off vals).
Proof.
  intros X E C T S Ho D Hf. pose proof (regular_sound _ E) as Sd.
  destruct (mapping_terminates orc fuel d m bs off vals depth X Sd C S Ho Hf) as [NF ST].
  assert (R1 : forall v n, maps orc fuel m bs off vals depth v n <-> reads orc bs d off vals v n).
  { intros v n. split; [now apply mapping_reads|]. intros R.
    destruct (reading_enough_fuel orc d m bs off vals depth v n X E C Ho D R) as (f0 & F).
    specialize (F (Nat.max f0 fuel) ltac:(lia)). unfold maps in *. rewrite ST in F by lia. exact F. }
  assert (R2 : fails orc fuel m bs off vals depth ByteStreamTooSmallError <-> lacks orc bs d off vals).
  { destruct (all_short orc X d E m C bs off Ho) as [A B]. split; [apply A|]. intros L.
    destruct (B vals depth L D) as (f0 & F). specialize (F (Nat.max f0 fuel) ltac:(lia)). unfold fails in *.
    rewrite ST in F by lia. exact F. }
  assert (R4 : forall v n, reads orc bs d off vals v n -> ~ lacks orc bs d off vals).
  { intros v n R L. apply R1 in R. apply R2 in L. apply maps_fst in R; unfold fails in *; congruence. }
  split; auto. split; auto. split; auto. split.
  - intros F. split.
    + intros v n R. apply R1 in R. apply maps_fst in R; unfold fails in *; congruence.
    + intros L. apply R2 in L. unfold fails in *. congruence.
  - intros [NR NL]. unfold fails.
    destruct (fst (mapbs orc fuel m bs off (Some (ctx_new vals)) depth)) as [v|ex|] eqn:Q; [|f_equal|congruence].
    + exfalso. destruct (maps_ok orc fuel m bs off vals depth v X Q) as (n & M). apply (NR v n). now apply R1.
    + destruct (errors_contained orc fuel d m bs off vals depth ex X Sd C T (proj1 Ho) Q) as [->| ->]; auto.
      exfalso. apply NL. now apply R2.
Qed.
