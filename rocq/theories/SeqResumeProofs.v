(** Interrupted mappings of composite sequences. *)
From Coq Require Import String List ZArith Bool Lia.
From Verif Require Import Base PyVal PyStruct DataTypes ClassFactory DataMaps.
From Verif Require Import BytesProofs ContainerProofs SpecPrim SpecMap SpecCreate SpecResume MapProofs ContextProofs StructProofs
  LayoutProofs CreateProofs SeqProofs StreamProofs SteadyProofs WindowProofs SizeProofs SeqKindProofs ResumeProofs.
Import ListNotations.
Open Scope Z_scope.
Arguments Z.mul : simpl never.
Arguments Z.div : simpl never.

Lemma elements_unequal orc fuel x bs depth off vs1 e1 vs2 e2 :
  elements orc fuel x bs depth off vs1 e1 -> elements orc fuel x bs depth off vs2 e2 ->
  (vs1 = vs2 /\ e1 = e2) \/
  (e1 < len bs /\ exists v n, maps orc fuel x bs e1 [] (depth + 1) v n) \/
  (e2 < len bs /\ exists v n, maps orc fuel x bs e2 [] (depth + 1) v n).
Proof.
  intros H1. revert vs2 e2. induction H1 as [off|off v n vs e L M H IH]; intros vs2 e2 H2.
  - inversion H2; subst; auto. right. left. eauto.
  - inversion H2 as [|? v' n' vs' ? L' M' H']; subst; [eauto 6|].
    destruct (maps_det _ _ _ _ _ _ _ _ _ _ _ M M') as [<- <-].
    destruct (IH _ _ H') as [[-> ->]|[H1|H1]]; auto.
Qed.

Lemma seq_stalls_det orc fuel bs e t x op off vals depth p q : extensional orc -> all_maps steady x -> resumable x ->
  stalls orc fuel bs (MSequence false e t (Some x) op) off vals depth p ->
  stalls orc fuel bs (MSequence false e t (Some x) op) off vals depth q -> p = q.
Proof.
  intros X S R P Q.
  assert (K : forall p, stalls orc fuel bs (MSequence false e t (Some x) op) off vals depth p ->
    exists vs o, elements orc fuel x bs depth off vs o /\ 
      ((len bs <= o /\ p = o) \/ (o < len bs /\ stalls orc fuel bs x o [] (depth + 1) p))).
  { clear p q P Q. intros p P. inversion P; subst.
    - contradiction.
    - exists vs, p. auto.
    - exists vs, o. auto. }
  apply K in P. apply K in Q. destruct P as (vs & o & E & P), Q as (vs' & o' & E' & Q).
  assert (N : forall o p, stalls orc fuel bs x o [] (depth + 1) p -> forall v n, ~ maps orc fuel x bs o [] (depth + 1) v n).
  { intros. eapply stalls_not_maps; eauto. }
  destruct (elements_unequal _ _ _ _ _ _ _ _ _ _ E E') as [[_ <-]|[(L & v & n & M)|(L & v & n & M)]].
  - destruct P as [[L ->]|[L P]], Q as [[L' ->]|[L' Q]]; try lia. eapply stalls_det; eauto.
  - exfalso. destruct P as [[L' _]|[_ P]]; [lia|]. eapply N; eauto.
  - exfalso. destruct Q as [[L' _]|[_ Q]]; [lia|]. eapply N; eauto.
Qed.

Lemma susp_whole_at orc fuel bs m off vals depth p c : whole m ->
  susp orc fuel bs m off vals depth p c -> p = off.
Proof. intros W S. inversion S; subst; auto. contradiction. Qed.

(** The result of the loop and the checks after it. *)
Definition seq_result (number size : option Z) (term : option pyval) (o : seqout) : res (pyval * Z) :=
  match o with
  | LFuel => OutOfFuel
  | LTooSmall _ => Raise ByteStreamTooSmallError
  | LExc _ => Raise MappingError
  | LDone s =>
      if match number with Some n => negb (q_index s =? n) | None => false end then Raise ByteStreamTooSmallError
      else if match term with Some t => negb (py_eq (q_last s) t) | None => false end
              && match size with Some n => q_doff s <? n | None => true end then Raise ByteStreamTooSmallError
      else Ok (VTuple (q_vals s), q_doff s)
  end.

Section Core.
Variable orc : oracle.
Hypothesis ext : extensional orc.
Variables (fuel : nat) (x : dmap) (depth : Z).
Variables (number size : option Z) (term : option pyval) (off : Z).
Hypothesis Hoff : 0 <= off.
Hypothesis R : resumable x.
Hypothesis S : all_maps steady x.
Hypothesis shape : (number = None /\ term <> None) \/ (number <> None /\ term = None).
Hypothesis real : term <> Some VNone.
Hypothesis plain : size = None \/ whole x.

Notation walk' bs := (walk orc fuel x bs depth number size term off).
Notation complete' := (complete number size term).
Notation accepted' := (accepted number size term).
Notation loop k bs := (seq_loop k (Some (mapbs orc fuel x)) bs number size term depth).

Definition terminated (vs : list pyval) : Prop :=
  exists t, term = Some t /\ vs <> [] /\ py_eq (last vs VNone) t = true.

Definition at_element (bs : bytes) (n : Z) (p : Z) (sub : ctx) : Prop :=
  same_values (c_values sub) [] /\
  ((c_state sub = st_empty /\ p = off + n) \/
   exists b s, bs = b ++ s /\ off + n < len b /\
     fails orc fuel x b (off + n) [] (depth + 1) ByteStreamTooSmallError /\
     susp orc fuel b x (off + n) [] (depth + 1) p sub).

Record mid (bs : bytes) (s : seqst) (vs : list pyval) (n : Z) : Prop := mkMid {
  w_walk : walk' bs vs n;
  w_vals : q_vals s = vs;
  w_index : q_index s = len vs;
  w_doff : exists l, 0 <= l /\ q_doff s = n - l /\ (whole x -> l = 0);
  w_last : q_last s = last vs VNone \/ q_last s = VNone;
  w_open : ~ terminated vs;
  w_sub : at_element bs n (q_off s) (q_sub s) }.

Record strict (bs : bytes) (s : seqst) (vs : list pyval) (n : Z) : Prop := mkStrict {
  t_mid : mid bs s vs n;
  t_doff : q_doff s = n;
  t_last : q_last s = last vs VNone;
  t_clean : c_state (q_sub s) = st_empty;
  t_off : q_off s = off + n }.

Lemma inside : contained orc x.
Proof. now apply steady_contained. Qed.

Lemma walk_range bs vs n : off <= len bs -> walk' bs vs n -> 0 <= n /\ off + n <= len bs.
Proof.
  intros Ho W. destruct (walk_contained _ _ _ _ _ _ _ _ _ _ _ inside W ltac:(lia)) as (r & N & L & _). lia.
Qed.

Lemma walk_grow bs s vs n : off <= len bs -> walk' bs vs n -> walk' (bs ++ s) vs n.
Proof.
  intros Ho W. destruct (walk_contained _ _ _ _ _ _ _ _ _ _ _ inside W ltac:(lia)) as (r & N & L & _ & Q).
  apply Q; [left; rewrite len_app; pose proof (len_nonneg s); lia|apply window_app; lia].
Qed.

Lemma element_range bs n p sub : off <= len bs -> 0 <= n -> off + n <= len bs -> at_element bs n p sub ->
  off + n <= p <= len bs /\ (whole x -> p = off + n).
Proof.
  intros Ho N L [_ [[_ ->]|(b & s & -> & Lb & F & SU)]]; [lia|].
  destruct (susp_resume _ _ _ _ _ _ _ _ _ ext SU R S ltac:(lia)) as [Op _].
  split; [rewrite len_app in *; pose proof (len_nonneg s); lia|]. intros W. eapply susp_whole_at; eauto.
Qed.

(** Mapping the next element, in progress or not. *)
Lemma element_step bs n p sub : off <= len bs -> 0 <= n -> off + n < len bs -> at_element bs n p sub ->
  let r := mapbs orc fuel x bs p (Some sub) (depth + 1) in
  fst r = fst (mapbs orc fuel x bs (off + n) (Some (ctx_new [])) (depth + 1)) /\
  (exists c, snd r = Some c /\ same_values (c_values c) []) /\
  (fst r = Raise ByteStreamTooSmallError -> exists p' c, snd r = Some c /\
     susp orc fuel bs x (off + n) [] (depth + 1) p' c) /\
  (forall v, fst r = Ok v -> exists k c, snd r = Some c /\
     maps orc fuel x bs (off + n) [] (depth + 1) v k /\ c_state c = st_empty /\
     c_byte_size c = Some (k - (p - (off + n)))).
Proof.
  intros Ho N L A. cbn zeta.
  assert (KV : exists c, snd (mapbs orc fuel x bs p (Some sub) (depth + 1)) = Some c /\ same_values (c_values c) []).
  { pose proof (mapbs_keeps orc fuel x bs p (Some sub) (depth + 1)) as K.
    destruct (snd (mapbs orc fuel x bs p (Some sub) (depth + 1))) as [c|]; [|destruct K].
    exists c. split; auto. apply keeps_same in K. eapply same_values_trans; [apply K|apply A]. }
  destruct A as [V [[C ->]|(b & s & -> & Lb & F & SU)]].
  - destruct (fresh orc fuel x bs (off + n) sub (depth + 1) [] ext C V) as [F1 F2].
    split; auto. split; auto. split.
    + intros T. destruct KV as (c & Q & _). rewrite Q.
      destruct (susp_first orc fuel x ext R S bs (off + n) [] (depth + 1) sub c C V) as (p' & P).
      { destruct (mapbs orc fuel x bs (off + n) (Some sub) (depth + 1)). cbn in *. congruence. }
      eauto.
    + intros v T. destruct (F2 v T) as (k & c & M & Q & B & Z & _). exists k, c. repeat split; auto.
      rewrite B. f_equal. lia.
  - destruct (susp_resume _ _ _ _ _ _ _ _ _ ext SU R S ltac:(lia)) as [Op RS].
    destruct (RS s) as (R1 & R2 & R3). auto.
Qed.

Lemma term_false vs s : ~ terminated vs -> q_last s = last vs VNone \/ q_last s = VNone ->
  forall t, term = Some t -> py_eq (q_last s) t = false.
Proof.
  intros O L t E. assert (N : py_eq VNone t = false).
  { destruct (py_eq VNone t) eqn:Q; auto. apply py_eq_none in Q. congruence. }
  destruct L as [-> | ->]; auto. destruct vs as [|a l]; auto.
  destruct (py_eq (last (a :: l) VNone) t) eqn:Q; auto. exfalso. apply O. exists t. split; auto. split; [discriminate|exact Q].
Qed.

(** What the tests at the head of the loop and after it see. *)
Lemma size_seen bs s vs n : mid bs s vs n -> opt_leZ size (q_doff s) = opt_leZ size n.
Proof.
  intros M. destruct (w_doff _ _ _ _ M) as (l & _ & E & W). destruct plain as [-> | P]; auto.
  rewrite E, (W P), Z.sub_0_r. reflexivity.
Qed.

Lemma open_complete vs n : ~ terminated vs -> opt_eqZ number (len vs) = false -> opt_leZ size n = false ->
  ~ complete' vs n.
Proof.
  intros O N Z [A|[(z & A & A')|A]].
  - rewrite A in N. cbn in N. rewrite Z.eqb_refl in N. discriminate.
  - rewrite A in Z. cbn in Z. apply Z.leb_gt in Z. lia.
  - exact (O A).
Qed.

(** A loop that stops before the sequence is complete. *)
Lemma stops_short bs s vs n : mid bs s vs n -> ~ complete' vs n ->
  seq_result number size term (LDone s) = Raise ByteStreamTooSmallError.
Proof.
  intros M NC. cbn [seq_result]. rewrite (w_index _ _ _ _ M). destruct shape as [[-> T]|[N ->]].
  - pose proof (term_false vs s (w_open _ _ _ _ M) (w_last _ _ _ _ M)) as TF.
    destruct term as [t|]; [|congruence]. rewrite (TF t eq_refl).
    destruct (w_doff _ _ _ _ M) as (l & L & E & W). destruct size as [z|] eqn:EZ; [|reflexivity].
    destruct (Z.ltb_spec (q_doff s) z) as [?|?]; [reflexivity|]. exfalso. apply NC. right. left. exists z. split; auto. lia.
  - destruct number as [k|]; [|congruence]. destruct (Z.eqb_spec (len vs) k) as [E|E]; [|reflexivity].
    exfalso. apply NC. left. congruence.
Qed.

Lemma step_mid bs s vs n v k c l : off <= len bs -> mid bs s vs n -> ~ complete' vs n -> off + n < len bs ->
  maps orc fuel x bs (off + n) [] (depth + 1) v k -> c_state c = st_empty -> same_values (c_values c) [] ->
  is_term term v = false -> 0 <= l -> (whole x -> l = 0) ->
  mid bs (mkSeq (off + (n + k)) (len vs + 1) (n + k - l) v (vs ++ [v]) c) (vs ++ [v]) (n + k).
Proof.
  intros Ho M NC L MP C V IT L0 LW. constructor; cbn; auto.
  - apply walk_snoc; auto. apply (w_walk _ _ _ _ M).
  - rewrite len_app. reflexivity.
  - exists l. auto.
  - left. now rewrite last_snoc.
  - intros (t & E & _ & Q). rewrite last_snoc in Q. unfold is_term in IT. rewrite E in IT. congruence.
  - split; auto.
Qed.

(** The loop reaches a point that can be resumed. *)
Lemma loop_stops bs k : off <= len bs -> forall s vs n, mid bs s vs n ->
  match loop k bs s with
  | LDone t =>
      seq_result number size term (LDone t) = Raise ByteStreamTooSmallError ->
      (exists vs' n', mid bs t vs' n' /\ (complete' vs' n' \/ len bs <= q_off t))
  | LTooSmall t => exists vs' n' p, walk' bs vs' n' /\ ~ complete' vs' n' /\ off + n' < len bs /\
      fails orc fuel x bs (off + n') [] (depth + 1) ByteStreamTooSmallError /\
      susp orc fuel bs x (off + n') [] (depth + 1) p (q_sub t) /\
      mid bs (mkSeq p (q_index t) (q_doff t) VNone (q_vals t) (q_sub t)) vs' n'
  | _ => True
  end.
Proof.
  intros Ho. induction k as [|k IH]; intros s vs n M; cbn [seq_loop]; auto.
  destruct (walk_range bs vs n Ho (w_walk _ _ _ _ M)) as [N0 N1].
  destruct (element_range _ _ _ _ Ho N0 N1 (w_sub _ _ _ _ M)) as [P PW].
  rewrite is_empty_slice_from by lia.
  destruct (Z.leb_spec (len bs) (q_off s)) as [B|B]; [eauto 6|].
  rewrite (w_index _ _ _ _ M), (size_seen _ _ _ _ M).
  destruct (opt_eqZ number (len vs)) eqn:EN.
  { intros _. exists vs, n. split; auto. left. left. destruct number; [|discriminate].
    cbn in EN. apply Z.eqb_eq in EN. congruence. }
  destruct (opt_leZ size n) eqn:EZ.
  { intros _. exists vs, n. split; auto. left. right. left. destruct size; [|discriminate].
    cbn in EZ. apply Z.leb_le in EZ. eauto. }
  pose proof (open_complete _ _ (w_open _ _ _ _ M) EN EZ) as NC.
  destruct (element_step bs n (q_off s) (q_sub s) Ho N0 ltac:(lia) (w_sub _ _ _ _ M)) as (E1 & (c & E2 & EV) & E3 & E4).
  destruct (mapbs orc fuel x bs (q_off s) (Some (q_sub s)) (depth + 1)) as [[v|ex|] c'] eqn:EQ; cbn [fst snd] in *; auto.
  - destruct (E4 v eq_refl) as (j & c2 & Q2 & MP & C2 & B2). rewrite E2 in Q2. inversion Q2; subst c2 c'. cbn [opt_default].
    rewrite B2. destruct (w_doff _ _ _ _ M) as (l & L0 & LD & LW).
    destruct (is_term term v) eqn:IT.
    { intros SR. exfalso. cbn [seq_result q_index q_last q_doff q_vals] in SR. unfold is_term in IT.
      destruct shape as [[-> T]|[N ->]]; [|discriminate]. destruct term as [t|]; [|discriminate]. rewrite IT in SR. discriminate. }
    assert (LL : 0 <= l + (q_off s - (off + n)) /\ (whole x -> l + (q_off s - (off + n)) = 0)).
    { split; [lia|]. intros W. rewrite (LW W), (PW W). lia. }
    pose proof (step_mid bs s vs n v j c (l + (q_off s - (off + n))) Ho M NC ltac:(lia) MP C2 EV IT (proj1 LL) (proj2 LL)) as M'.
    rewrite (w_vals _ _ _ _ M), LD.
    replace (q_off s + (j - (q_off s - (off + n)))) with (off + (n + j)) by lia.
    replace (n - l + (j - (q_off s - (off + n)))) with (n + j - (l + (q_off s - (off + n)))) by lia.
    exact (IH _ _ _ M').
  - assert (ex = ByteStreamTooSmallError \/ ex <> ByteStreamTooSmallError) as [->|Ne]
      by (destruct ex; (left; reflexivity) || (right; discriminate)).
    + subst c'. cbn [opt_default q_set_sub q_sub q_index q_doff q_vals].
      destruct (E3 eq_refl) as (p' & c2 & Q2 & SU). inversion Q2; subst c2.
      assert (F : fails orc fuel x bs (off + n) [] (depth + 1) ByteStreamTooSmallError) by (unfold fails; now rewrite <- E1).
      exists vs, n, p'. split; [apply M|]. split; [exact NC|]. split; [lia|]. split; [exact F|]. split; [exact SU|].
      constructor; cbn; try apply M; auto. split; auto. right. exists bs, []. rewrite app_nil_r.
      split; auto. split; [lia|]. auto.
    + destruct ex; auto; congruence.
Qed.

(** Mapping from the start passes through every point of a walk. *)
Lemma passes bs ws : off <= len bs -> forall k s vs n m, strict bs s vs n ->
  walk' bs (vs ++ ws) (n + m) -> ~ terminated (vs ++ ws) ->
  loop k bs s = LFuel \/
  exists k' s', (k' <= k)%nat /\ loop k bs s = loop k' bs s' /\ strict bs s' (vs ++ ws) (n + m).
Proof.
  intros Ho. induction ws as [|v ws IH]; intros k s vs n m T W O.
  - right. exists k, s. rewrite app_nil_r in *. split; auto. split; auto.
    destruct W as [E _]. destruct (w_walk _ _ _ _ (t_mid _ _ _ _ T)) as [E' _].
    destruct (elements_det _ _ _ _ _ _ _ _ _ _ E E' eq_refl) as [_ Q]. replace (n + m) with n by lia. exact T.
  - destruct k as [|k]; [left; reflexivity|]. cbn [seq_loop]. pose proof (t_mid _ _ _ _ T) as M.
    destruct (walk_range bs vs n Ho (w_walk _ _ _ _ M)) as [N0 N1].
    pose proof (proj2 W vs (v :: ws) n eq_refl ltac:(discriminate) (proj1 (w_walk _ _ _ _ M))) as NC.
    destruct W as [WE WC]. destruct (elements_prefix _ _ _ _ _ _ _ _ _ WE) as (e1 & A & B).
    destruct (elements_det _ _ _ _ _ _ _ _ _ _ A (proj1 (w_walk _ _ _ _ M)) eq_refl) as [_ ->].
    inversion B as [|? ? j ? ? L MP B']; subst.
    rewrite (t_off _ _ _ _ T), (t_doff _ _ _ _ T), (w_index _ _ _ _ M).
    rewrite is_empty_slice_from by lia. destruct (Z.leb_spec (len bs) (off + n)) as [?|_]; [lia|].
    destruct (opt_eqZ number (len vs)) eqn:EN.
    { exfalso. apply NC. left. destruct number; [|discriminate]. cbn in EN. apply Z.eqb_eq in EN. congruence. }
    destruct (opt_leZ size n) eqn:EZ.
    { exfalso. apply NC. right. left. destruct size; [|discriminate]. cbn in EZ. apply Z.leb_le in EZ. eauto. }
    assert (AT : at_element bs n (off + n) (q_sub s)).
    { split; [apply (w_sub _ _ _ _ M)|]. left. split; [apply T|auto]. }
    destruct (element_step bs n (off + n) (q_sub s) Ho N0 L AT) as (E1 & (c & E2 & EV) & _ & E4).
    rewrite (maps_fst _ _ _ _ _ _ _ _ _ MP) in E1.
    destruct (mapbs orc fuel x bs (off + n) (Some (q_sub s)) (depth + 1)) as [r c'] eqn:EQ; cbn [fst snd] in *. subst r.
    destruct (E4 v eq_refl) as (j' & c2 & Q2 & MP' & C2 & B2). rewrite E2 in Q2. inversion Q2; subst c2 c'. cbn [opt_default].
    destruct (maps_det _ _ _ _ _ _ _ _ _ _ _ MP MP') as [_ <-].
    rewrite B2. 
    assert (EW : elements orc fuel x bs depth off (vs ++ [v]) (off + (n + j))).
    { rewrite Z.add_assoc. eapply elements_snoc; eauto. }
    assert (OV : ~ terminated (vs ++ [v])).
    { destruct ws as [|w ws]; [exact O|]. intros TT. apply (WC (vs ++ [v]) (w :: ws) (n + j)); auto.
      - now rewrite <- app_assoc.
      - discriminate.
      - right. right. exact TT. }
    assert (IT : is_term term v = false).
    { destruct (is_term term v) eqn:Q; auto. exfalso. apply OV. unfold is_term in Q.
      destruct term as [t|] eqn:ET; [|discriminate]. exists t. split; auto. split; [destruct vs; discriminate|]. now rewrite last_snoc. }
    rewrite IT. rewrite (w_vals _ _ _ _ M).
    replace (off + n + (j - (off + n - (off + n)))) with (off + (n + j)) by lia.
    replace (n + (j - (off + n - (off + n)))) with (n + j - 0) by lia.
    pose proof (step_mid bs s vs n v j c 0 Ho M NC L MP C2 EV IT (Z.le_refl 0) (fun _ => eq_refl)) as M'.
    assert (T' : strict bs (mkSeq (off + (n + j)) (len vs + 1) (n + j - 0) v (vs ++ [v]) c) (vs ++ [v]) (n + j)).
    { constructor; cbn; auto; try lia; try now rewrite last_snoc. }
    replace (vs ++ v :: ws) with ((vs ++ [v]) ++ ws) in * by (rewrite <- app_assoc; reflexivity).
    replace (n + m) with ((n + j) + (m - j)) in * by lia.
    destruct (IH k _ _ _ (m - j) T' (conj WE WC) O) as [F|(k' & s' & K1 & K2 & K3)].
    + left. exact F.
    + right. exists k', s'. split; [lia|]. split; auto.
Qed.

(** Going on from there with a new context and with the one that was left. *)
Lemma same_end bs k : off <= len bs -> forall k' s s' vs n, (k <= k')%nat -> strict bs s vs n -> mid bs s' vs n ->
  match seq_result number size term (loop k bs s) with
  | OutOfFuel => True
  | Raise e => seq_result number size term (loop k' bs s') = Raise e
  | Ok (v, z) => exists l, 0 <= l /\ (whole x -> l = 0) /\
      seq_result number size term (loop k' bs s') = Ok (v, z - l)
  end.
Proof.
  intros Ho. induction k as [|k IH]; intros k' s s' vs n K T M'; [exact I|].
  destruct k' as [|k']; [lia|]. cbn [seq_loop]. pose proof (t_mid _ _ _ _ T) as M.
  destruct (walk_range bs vs n Ho (w_walk _ _ _ _ M)) as [N0 N1].
  destruct (element_range _ _ _ _ Ho N0 N1 (w_sub _ _ _ _ M')) as [P PW].
  rewrite (t_off _ _ _ _ T). rewrite !is_empty_slice_from by lia.
  rewrite (w_index _ _ _ _ M), (w_index _ _ _ _ M'), (size_seen _ _ _ _ M), (size_seen _ _ _ _ M').
  destruct (w_doff _ _ _ _ M') as (l & L0 & LD & LW).
  assert (DONE : match seq_result number size term (LDone s) with
    | OutOfFuel => True
    | Raise e => seq_result number size term (LDone s') = Raise e
    | Ok (v, z) => exists l, 0 <= l /\ (whole x -> l = 0) /\ seq_result number size term (LDone s') = Ok (v, z - l)
    end).
  { cbn [seq_result]. rewrite (w_index _ _ _ _ M), (w_index _ _ _ _ M'), (w_vals _ _ _ _ M), (w_vals _ _ _ _ M'), (t_doff _ _ _ _ T).
    destruct (match number with Some n0 => negb (len vs =? n0) | None => false end); [reflexivity|].
    assert (TE : match term with Some t => negb (py_eq (q_last s) t) | None => false end =
                 match term with Some t => negb (py_eq (q_last s') t) | None => false end).
    { pose proof (term_false vs s (w_open _ _ _ _ M) (w_last _ _ _ _ M)) as TF.
      pose proof (term_false vs s' (w_open _ _ _ _ M') (w_last _ _ _ _ M')) as TF'.
      destruct term as [t|]; auto. now rewrite (TF t eq_refl), (TF' t eq_refl). }
    rewrite TE.
    assert (SE : match size with Some n0 => n <? n0 | None => true end = match size with Some n0 => q_doff s' <? n0 | None => true end).
    { destruct plain as [-> | W]; auto. rewrite LD, (LW W), Z.sub_0_r. reflexivity. }
    rewrite SE. destruct (_ && _); [reflexivity|]. exists l. rewrite LD. auto. }
  destruct (Z.leb_spec (len bs) (off + n)) as [B|B].
  { destruct (Z.leb_spec (len bs) (q_off s')) as [_|?]; [exact DONE|lia]. }
  destruct (opt_eqZ number (len vs)) eqn:EN.
  { destruct (len bs <=? q_off s'); exact DONE. }
  destruct (opt_leZ size n) eqn:EZ.
  { destruct (len bs <=? q_off s'); exact DONE. }
  pose proof (open_complete _ _ (w_open _ _ _ _ M) EN EZ) as NC.
  assert (AT : at_element bs n (off + n) (q_sub s)).
  { split; [apply (w_sub _ _ _ _ M)|]. left. split; [apply T|auto]. }
  destruct (element_step bs n (off + n) (q_sub s) Ho N0 B AT) as (E1 & (c & E2 & EV) & _ & E4).
  destruct (Z.leb_spec (len bs) (q_off s')) as [B'|B'].
  { assert (F : fst (mapbs orc fuel x bs (off + n) (Some (ctx_new [])) (depth + 1)) = Raise ByteStreamTooSmallError).
    { destruct (w_sub _ _ _ _ M') as [_ [[_ Q]|(b & t & -> & Lb & F & SU)]]; [lia|].
      destruct (susp_resume _ _ _ _ _ _ _ _ _ ext SU R S ltac:(lia)) as [Op _].
      rewrite len_app in B'. pose proof (len_nonneg t). assert (len t = 0) by lia. destruct t; [|rewrite len_cons in *; pose proof (len_nonneg t); lia].
      rewrite app_nil_r. exact F. }
    rewrite F in E1. destruct (mapbs orc fuel x bs (off + n) (Some (q_sub s)) (depth + 1)) as [r c'] eqn:EQ; cbn [fst snd] in *. subst r.
    cbn [seq_result]. eapply stops_short; eauto. }
  destruct (element_step bs n (q_off s') (q_sub s') Ho N0 B (w_sub _ _ _ _ M')) as (G1 & (d & G2 & GV) & _ & G4).
  rewrite <- E1 in G1.
  destruct (mapbs orc fuel x bs (off + n) (Some (q_sub s)) (depth + 1)) as [r c'] eqn:EQ; cbn [fst snd] in *.
  destruct (mapbs orc fuel x bs (q_off s') (Some (q_sub s')) (depth + 1)) as [r' d'] eqn:EQ'; cbn [fst snd] in *.
  subst r' c' d'. cbn [opt_default]. destruct r as [v|ex|]; [|destruct ex; reflexivity|exact I].
  destruct (E4 v eq_refl) as (j & c2 & Q2 & MP & C2 & B2). inversion Q2; subst c2. clear Q2 E4.
  destruct (G4 v eq_refl) as (j' & c2 & Q2 & MP' & C2' & B2'). inversion Q2; subst c2. clear Q2 G4.
  destruct (maps_det _ _ _ _ _ _ _ _ _ _ _ MP MP') as [_ <-]. rewrite B2, B2'.
  set (l' := l + (q_off s' - (off + n))).
  assert (LL : 0 <= l' /\ (whole x -> l' = 0)).
  { unfold l'. split; [lia|]. intros W. rewrite (LW W), (PW W). lia. }
  rewrite (w_vals _ _ _ _ M), (w_vals _ _ _ _ M'), (t_doff _ _ _ _ T), LD.
  replace (off + n + (j - (off + n - (off + n)))) with (off + (n + j)) by lia.
  replace (n + (j - (off + n - (off + n)))) with (n + j - 0) by lia.
  replace (q_off s' + (j - (q_off s' - (off + n)))) with (off + (n + j)) by lia.
  replace (n - l + (j - (q_off s' - (off + n)))) with (n + j - l') by (unfold l'; lia).
  destruct (is_term term v) eqn:IT.
  - cbn [seq_result q_index q_last q_doff q_vals]. unfold is_term in IT. destruct term as [t|]; [|discriminate].
    destruct shape as [[-> _]|[_ Q]]; [|discriminate]. rewrite IT. cbn [negb andb]. exists l'. split; [apply LL|]. split; [apply LL|].
    do 2 f_equal. lia.
  - apply (IH k' _ _ (vs ++ [v]) (n + j)); [lia| |].
    + constructor; cbn; auto; try lia; try now rewrite last_snoc.
      apply (step_mid bs s vs n v j c 0 Ho M NC B MP C2 EV IT (Z.le_refl 0) (fun _ => eq_refl)).
    + apply (step_mid bs s' vs n v j d l' Ho M' NC B MP C2' GV IT (proj1 LL) (proj2 LL)).
Qed.

End Core.

(** *** The map *)

Lemma bounds_state orc e ed c : exists c1, snd (seq_bounds orc e ed (Some c)) = Some c1 /\ c_state c1 = c_state c.
Proof.
  unfold seq_bounds. destruct (has_data_size e); [cbn; eauto|]. destruct (has_terminator e); [cbn; eauto|].
  destruct (has_number e); [|cbn; eauto]. unfold eval_number. destruct (truthy_Z _); [cbn; eauto|].
  destruct (truthy_str _); cbn; eauto.
Qed.

Lemma bounds_same orc e ed c vals : extensional orc -> same_values (c_values c) vals ->
  fst (seq_bounds orc e ed (Some c)) = fst (seq_bounds orc e ed (Some (ctx_new vals))).
Proof.
  intros X V. unfold seq_bounds. destruct (has_data_size e).
  - cbn [fst ctx_values ctx_new c_values]. now rewrite (data_size_agrees orc X e _ _ V).
  - destruct (has_terminator e); [reflexivity|]. destruct (has_number e); [|reflexivity].
    pose proof (number_agrees orc X e (Some c) (Some (ctx_new vals)) V).
    destruct (eval_number orc e (Some c)), (eval_number orc e (Some (ctx_new vals))). cbn in *. now subst.
Qed.

Lemma bounds_not_short orc e ed c : fst (seq_bounds orc e ed c) <> Raise ByteStreamTooSmallError.
Proof.
  unfold seq_bounds. destruct (has_data_size e); cbn [fst].
  - destruct (eval_data_size orc e (ctx_values c)) as [n|y|] eqn:E; cbn [bind]; try discriminate.
    + destruct (get_byte_size ed) as [b|]; [destruct (b =? 0); discriminate|].
      destruct ed; cbn [element_terminator bind]; try discriminate. destruct (e_terminator _); discriminate.
    + apply eval_data_size_spec in E. subst. discriminate.
  - destruct (has_terminator e); [destruct (e_terminator e); discriminate|].
    destruct (has_number e); [|discriminate].
    pose proof (proj1 (proj2 (eval_number_spec orc e c))) as P.
    destruct (eval_number orc e c) as [[n|y|] c']; cbn [fst bind] in *; try discriminate.
    rewrite (P y eq_refl). discriminate.
Qed.

(** The loop variables that a context stands for. *)
Definition seq_start (c : ctx) (off : Z) : seqst :=
  mkSeq off (opt_default 0 (s_element_index (c_state c))) (opt_default 0 (s_elements_data_offset (c_state c))) VNone
    (match s_mapped_values (c_state c) with Some (MVList l) => l | _ => [] end)
    (opt_default (ctx_new []) (s_context (c_state c))).

Lemma seq_outcome orc fuel e ed x op bs off c depth number size term : depth <= 10 ->
  fst (seq_bounds orc e ed (Some c)) = Ok (number, size, term) ->
  let o := seq_loop fuel (Some (mapbs orc fuel x)) bs number size term depth (seq_start c off) in
  let r := mapbs orc fuel (MSequence false e ed (Some x) op) bs off (Some c) depth in
  match seq_result number size term o with
  | OutOfFuel => fst r = OutOfFuel
  | Raise ByteStreamTooSmallError =>
      exists t c', (o = LTooSmall t \/ o = LDone t) /\ r = (Raise ByteStreamTooSmallError, Some c') /\
        same_values (c_values c') (c_values c) /\
        forall p, seq_start c' p = mkSeq p (q_index t) (q_doff t) VNone (q_vals t) (q_sub t)
  | Raise ex => fst r = Raise ex
  | Ok (v, n) => exists c', r = (Ok v, Some c') /\ c_state c' = st_empty /\ c_byte_size c' = Some n
  end.
Proof.
  intros D B. cbn zeta. cbn [mapbs]. unfold map_seq.
  destruct (Z.ltb_spec max_depth depth) as [H|_]; [unfold max_depth in H; lia|].
  destruct (bounds_state orc e ed c) as (c1 & Q & CS). pose proof (keeps_bounds orc e ed (Some c)) as K.
  destruct (seq_bounds orc e ed (Some c)) as [r c0]. cbn [fst snd] in *. subst r c0. apply keeps_same in K.
  cbn [ctx_state]. rewrite CS. fold (seq_start c off).
  destruct (seq_loop fuel _ bs number size term depth (seq_start c off)) as [t|t|t|]; cbn [seq_result].
  - destruct (match number with Some n => _ | None => _ end).
    { exists t. eexists. split; auto. split; [reflexivity|]. split; [exact (proj1 K)|]. reflexivity. }
    destruct (_ && _).
    { exists t. eexists. split; auto. split; [reflexivity|]. split; [exact (proj1 K)|]. reflexivity. }
    eexists. split; [reflexivity|]. split; reflexivity.
  - exists t. eexists. split; auto. split; [reflexivity|]. split; [exact (proj1 K)|]. reflexivity.
  - reflexivity.
  - reflexivity.
Qed.

(** The sequence of an element type that fits its data size. *)
Lemma settled orc fuel e el x bs depth number size term off vals vs n : extensional orc ->
  everywhere sound (DElems KSequence e el) -> create orc (element_type e el) None = Ok (Some x) ->
  (has_data_size e = false \/ (whole x /\ everywhere exact el)) ->
  fst (seq_bounds orc e (element_type e el) (Some (ctx_new vals))) = Ok (number, size, term) ->
  0 <= off <= len bs ->
  walk orc fuel x bs depth number size term off vs n -> complete number size term vs n -> accepted number size term vs n.
Proof.
  intros X E Cx P B Ho W C. unfold accepted. destruct number as [k|]; [|exact C].
  destruct C as [C|[(z & -> & C)|(t & -> & _)]]; [congruence| |].
  2:{ destruct (bounds_shape _ _ _ _ _ _ _ B) as [[Q _]|[_ Q]]; discriminate. }
  unfold seq_bounds in B. destruct (has_data_size e) eqn:HD.
  2:{ destruct (has_terminator e); cbn [fst] in B; [destruct (e_terminator e); inversion B|].
      destruct (has_number e); [|discriminate]. destruct (eval_number _ _ _) as [[q| |] c']; cbn in B; inversion B. }
  destruct P as [P|[P Q]]; [discriminate|]. cbn [fst] in B.
  destruct (eval_data_size orc e _) as [s| |] eqn:ES; cbn [bind] in B; try discriminate.
  rewrite element_type_size in B. destruct (get_byte_size el) as [b|] eqn:BE.
  2:{ destruct (element_terminator _) as [[t|]| |]; cbn [bind] in B; inversion B. }
  destruct (Z.eqb_spec b 0) as [|BZ]; [discriminate|]. inversion B; subst s k term. clear B.
  destruct E as [_ E].
  assert (T : takes orc x b).
  { assert (G : exists ov, element_type e el = apply_ov ov el).
    { unfold element_type. destruct (e_bo e); try (exists None; reflexivity);
        destruct (dt_byte_order el) as [[]|]; try (exists None; reflexivity);
        destruct (is_composite el); try (exists None; reflexivity);
        eexists (Some (_, _)); cbn [apply_ov]; reflexivity. }
    destruct G as [ov G]. rewrite G, <- create_apply in Cx. eapply exact_takes; eauto. }
  pose proof (sound_size _ E _ BE) as SZ. pose proof W as [WE WC].
  pose proof (elements_takes orc x b T ltac:(lia) fuel bs depth vs off (off + n) ltac:(lia) WE) as EN.
  destruct (Z.lt_trichotomy (len vs) (z / b)) as [L|[L|L]]; auto; exfalso.
  - pose proof (Z.mul_div_le z b ltac:(lia)). nia.
  - assert (Z0 : 0 <= z).
    { apply eval_data_size_spec in ES. destruct ES as [(_ & _ & ?)|(_ & y & _ & _ & [[_ ?]|(bb & _ & ->)])]; auto. destruct bb; cbn; lia. }
    pose proof (Z.div_pos z b Z0 ltac:(lia)) as DP.
    assert (SP : exists before after, vs = before ++ after /\ len before = z / b /\ after <> []).
    { exists (firstn (Z.to_nat (z / b)) vs), (skipn (Z.to_nat (z / b)) vs). split; [now rewrite firstn_skipn|].
      unfold len in *. split; [rewrite firstn_length_le; lia|].
      intros Q0. pose proof (skipn_length (Z.to_nat (z / b)) vs) as SL. rewrite Q0 in SL. cbn in SL. lia. }
    destruct SP as (before & after & -> & LB & NE). destruct (elements_prefix _ _ _ _ _ _ _ _ _ WE) as (e1 & A & _).
    apply (WC before after (e1 - off) eq_refl NE).
    + replace (off + (e1 - off)) with e1 by lia. exact A.
    + left. congruence.
Qed.

(** An interrupted sequence can be resumed at [p]. *)
Definition seq_held orc fuel e t x op number size term off vals depth (bs : bytes) (c : ctx) (p : Z) : Prop :=
  same_values (c_values c) vals /\
  stalls orc fuel bs (MSequence false e t (Some x) op) off vals depth p /\
  exists vs n, mid orc fuel x depth number size term off bs (seq_start c p) vs n.

Section Map.
Variable orc : oracle.
Hypothesis ext : extensional orc.
Variables (fuel : nat) (e : elems) (t : dtype) (x : dmap) (op : option structop) (depth : Z).
Variables (number size : option Z) (term : option pyval) (off : Z) (vals : env).
Hypothesis Hoff : 0 <= off.
Hypothesis D : depth <= 10.
Hypothesis R : resumable x.
Hypothesis S : all_maps steady x.
Hypothesis B : fst (seq_bounds orc e t (Some (ctx_new vals))) = Ok (number, size, term).
Hypothesis real : term <> Some VNone.
Hypothesis plain : size = None \/ whole x.
Hypothesis settles : forall bs vs n, off <= len bs ->
  walk orc fuel x bs depth number size term off vs n -> complete number size term vs n -> accepted number size term vs n.

Notation m := (MSequence false e t (Some x) op).
Notation held := (seq_held orc fuel e t x op number size term off vals depth).
Notation mid' := (mid orc fuel x depth number size term off).
Notation result o := (seq_result number size term o).
Notation loop k bs s := (seq_loop k (Some (mapbs orc fuel x)) bs number size term depth s).

Lemma shape : (number = None /\ term <> None) \/ (number <> None /\ term = None).
Proof. exact (bounds_shape _ _ _ _ _ _ _ B). Qed.

(** What is left behind when the stream is too small. *)
Lemma left_behind bs c p c' vs n : off <= len bs -> same_values (c_values c) vals ->
  mid' bs (seq_start c p) vs n ->
  mapbs orc fuel m bs p (Some c) depth = (Raise ByteStreamTooSmallError, Some c') ->
  exists q, held bs c' q.
Proof.
  intros Ho V M Q. pose proof (bounds_same orc e t c vals ext V) as BS. rewrite B in BS.
  pose proof (seq_outcome orc fuel e t x op bs p c depth number size term D BS) as O. cbn zeta in O. rewrite Q in O.
  pose proof (loop_stops orc ext fuel x depth number size term off Hoff R S shape real plain bs fuel Ho _ _ _ M) as L.
  destruct (result (loop fuel bs (seq_start c p))) as [[v z]|ex|] eqn:RS.
  { destruct O as (? & O & _). discriminate. } 2: discriminate.
  destruct ex; try discriminate. destruct O as (s & c2 & LO & E & V' & ST). inversion E; subst c2. clear E.
  assert (V2 : same_values (c_values c') vals) by (eapply same_values_trans; eauto).
  destruct LO as [LO|LO]; rewrite LO in L.
  - destruct L as (vs' & n' & q & W & NC & LL & F & SU & M').
    exists q. split; auto. split.
    + apply (stalls_element _ _ _ e t x op off vals depth vs' (off + n') q); [apply W|exact LL|]. eapply susp_stalls; eauto.
    + exists vs', n'. rewrite ST. exact M'.
  - rewrite LO in RS. destruct (L RS) as (vs' & n' & M' & L').
    pose proof (walk_range orc ext fuel x depth number size term off Hoff S bs vs' n' Ho (w_walk _ _ _ _ _ _ _ _ _ _ _ _ M')) as [N0 N1].
    destruct (element_range orc ext fuel x depth off Hoff R S bs n' _ _ Ho N0 N1 (w_sub _ _ _ _ _ _ _ _ _ _ _ _ M')) as [P _].
    assert (L2 : len bs <= q_off s).
    { destruct L' as [C|L']; auto. exfalso. pose proof (settles bs vs' n' Ho (w_walk _ _ _ _ _ _ _ _ _ _ _ _ M') C) as A.
      cbn [seq_result] in RS. rewrite (w_index _ _ _ _ _ _ _ _ _ _ _ _ M') in RS. unfold accepted in A. pose proof shape as SH. destruct number as [k|] eqn:EN.
      - rewrite A, Z.eqb_refl in RS. cbn [negb] in RS. destruct SH as [[? _]|[_ T]]; [discriminate|]. rewrite T in RS. discriminate.
      - destruct A as [A|[(z & A & A')|A]]; [discriminate| |exact (w_open _ _ _ _ _ _ _ _ _ _ _ _ M' A)].
        destruct (w_doff _ _ _ _ _ _ _ _ _ _ _ _ M') as (l & _ & LD & LW). destruct plain as [PS|PW]; [congruence|].
        rewrite A, LD, (LW PW), Z.sub_0_r in RS. destruct (Z.ltb_spec n' z); [lia|]. rewrite andb_false_r in RS. discriminate. }
    exists (q_off s). split; auto. split.
    + destruct (w_sub _ _ _ _ _ _ _ _ _ _ _ _ M') as [_ [[_ EQ]|(b & u & -> & Lb & F & SU)]].
      * apply (stalls_end _ _ _ e t x op off vals depth vs'); [|exact L2]. rewrite EQ. apply (w_walk _ _ _ _ _ _ _ _ _ _ _ _ M').
      * destruct (susp_resume _ _ _ _ _ _ _ _ _ ext SU R S ltac:(lia)) as [Op _].
        rewrite len_app in L2. pose proof (len_nonneg u). destruct u as [|u0 u].
        2:{ rewrite len_cons in *. pose proof (len_nonneg u). lia. }
        rewrite app_nil_r in *. apply (stalls_element _ _ _ e t x op off vals depth vs' (off + n') (q_off s)).
        -- apply (w_walk _ _ _ _ _ _ _ _ _ _ _ _ M').
        -- exact Lb.
        -- eapply susp_stalls; eauto.
    + exists vs', n'. rewrite ST. destruct M' as [M1 M2 M3 M4 M5 M6 M7]. constructor; auto.
Qed.

Lemma mid_grow bs u s vs n : off <= len bs -> mid' bs s vs n -> mid' (bs ++ u) s vs n.
Proof.
  intros Ho M. constructor; try apply M.
  - apply walk_grow; auto. apply M.
  - destruct (w_sub _ _ _ _ _ _ _ _ _ _ _ _ M) as [V [H|(b & s0 & -> & Lb & F & SU)]]; split; auto.
    right. exists b, (s0 ++ u). split; [now rewrite app_assoc|]. auto.
Qed.

Lemma mid_start bs : strict orc fuel x depth number size term off bs (seq_start (ctx_new vals) off) [] 0.
Proof.
  assert (C : at_element orc fuel x depth off bs 0 off (ctx_new [])).
  { split; [apply same_values_refl|]. left. split; auto. lia. }
  constructor; cbn; auto; try lia. constructor; cbn; auto.
  - apply walk_nil.
  - exists 0. split; [lia|]. auto.
  - intros (q & _ & H & _). congruence.
Qed.

Lemma held_interrupted bs c : interrupted orc fuel m off vals depth bs c ->
  off <= len bs /\ exists p, held bs c p.
Proof.
  intros I. induction I as [bs c Ho M|bs c s p c' H IH ST M].
  - split; [lia|]. eapply (left_behind bs (ctx_new vals) off c [] 0); eauto; [lia|apply same_values_refl|]. apply mid_start.
  - destruct IH as (Ho & q & V & SQ & vs & n & MD).
    pose proof (seq_stalls_det _ _ _ _ _ _ _ _ _ _ _ _ ext S R ST SQ). subst q.
    assert (Ho' : off <= len (bs ++ s)) by (rewrite len_app; pose proof (len_nonneg s); lia). split; auto.
    eapply (left_behind (bs ++ s) c p c' vs n); eauto. now apply mid_grow.
Qed.

Lemma held_resume bs c p s : off <= len bs -> held bs c p ->
  let r := mapbs orc fuel m (bs ++ s) p (Some c) depth in
  let f := mapbs orc fuel m (bs ++ s) off (Some (ctx_new vals)) depth in
  (fst f <> OutOfFuel -> fst r = fst f) /\
  forall v n, maps orc fuel m (bs ++ s) off vals depth v n ->
    exists c' n', r = (Ok v, Some c') /\ c_state c' = st_empty /\ c_byte_size c' = Some n' /\
      n' <= n /\ (whole x -> n' = n).
Proof.
  intros Ho (V & SQ & vs & n & MD). cbn zeta.
  assert (Ho' : off <= len (bs ++ s)) by (rewrite len_app; pose proof (len_nonneg s); lia).
  pose proof (mid_grow _ s _ _ _ Ho MD) as MG.
  pose proof (bounds_same orc e t c vals ext V) as BS. rewrite B in BS.
  pose proof (seq_outcome orc fuel e t x op (bs ++ s) p c depth number size term D BS) as O1.
  pose proof (seq_outcome orc fuel e t x op (bs ++ s) off (ctx_new vals) depth number size term D B) as O2.
  cbn zeta in O1, O2. unfold maps.
  destruct (mapbs orc fuel m (bs ++ s) p (Some c) depth) as [r rc].
  destruct (mapbs orc fuel m (bs ++ s) off (Some (ctx_new vals)) depth) as [f fc]. cbn [fst] in *.
  destruct (passes orc ext fuel x depth number size term off Hoff R S shape real plain (bs ++ s) vs Ho' fuel _ [] 0 n (mid_start (bs ++ s))
    (w_walk _ _ _ _ _ _ _ _ _ _ _ _ MG) (w_open _ _ _ _ _ _ _ _ _ _ _ _ MG)) as [F|(k & s1 & K & E & T)].
  - rewrite F in O2. cbn [seq_result] in O2. subst f. split; [congruence|]. intros v z (? & Q & _). discriminate.
  - cbn [app] in T. rewrite Z.add_0_l in T.
    pose proof (same_end orc ext fuel x depth number size term off Hoff R S shape real plain (bs ++ s) k Ho' fuel s1 (seq_start c p) vs n K T MG) as SE.
    rewrite <- E in SE.
    destruct (result (loop fuel (bs ++ s) (seq_start (ctx_new vals) off))) as [[v z]|ex|].
    + destruct SE as (l & L0 & LW & SE). rewrite SE in O1. destruct O1 as (c1 & Q1 & C1 & B1), O2 as (c2 & Q2 & C2 & B2).
      inversion Q1; subst r rc. inversion Q2; subst f fc. split; auto. intros v' n' (c3 & Q & BN). inversion Q; subst v' c3.
      rewrite B2 in BN. inversion BN; subst n'. exists c1, (z - l). repeat split; auto; [lia|]. intros W. rewrite (LW W). lia.
    + rewrite SE in O1.
      assert (EF : f = Raise ex).
      { destruct ex; auto. destruct O2 as (? & ? & _ & Q & _). inversion Q; auto. }
      assert (ER : r = Raise ex).
      { destruct ex; auto. destruct O1 as (? & ? & _ & Q & _). inversion Q; auto. }
      subst. split; auto. intros v z (? & Q & _). discriminate.
    + subst f. split; [congruence|]. intros v z (? & Q & _). discriminate.
Qed.
End Map.

(** C29 *)
Lemma sequence_resume orc fuel e el x m off vals depth bs c :
  extensional orc -> everywhere sound (DElems KSequence e el) ->
  create orc (DElems KSequence e el) None = Ok (Some m) ->
  create orc (element_type e el) None = Ok (Some x) ->
  sequence_is_linear e (element_type e el) = false -> resumable x ->
  (has_data_size e = false \/ (whole x /\ everywhere exact el)) ->
  interrupted orc fuel m off vals depth bs c ->
  exists p, off <= p <= len bs /\ stalls orc fuel bs m off vals depth p /\
    (forall q, stalls orc fuel bs m off vals depth q -> q = p) /\
    forall s,
      let r := mapbs orc fuel m (bs ++ s) p (Some c) depth in
      let f := mapbs orc fuel m (bs ++ s) off (Some (ctx_new vals)) depth in
      (fst f <> OutOfFuel -> fst r = fst f) /\
      forall v n, maps orc fuel m (bs ++ s) off vals depth v n ->
        exists c' n', r = (Ok v, Some c') /\ c_state c' = st_empty /\ c_byte_size c' = Some n' /\
          n' <= n /\ (whole x -> n' = n).
Proof.
  intros X E C Cx NL R P I.
  pose proof (all_steady _ _ _ E C) as ST.
  apply created_elems in C. destruct C as (em & Ce & C). rewrite NL in C. assert (em = Some x) by congruence. subst em m.
  set (t := element_type e el) in *. set (m := MSequence false e t (Some x) None) in *.
  pose proof (all_maps_here _ _ ST) as [S1 S2].
  apply (all_maps_elem steady m (Some x) eq_refl) in ST. destruct ST as [_ S]. cbn in S.
  assert (I0 : exists b c0, 0 <= off <= len b /\ mapbs orc fuel m b off (Some (ctx_new vals)) depth = (Raise ByteStreamTooSmallError, Some c0)).
  { induction I; eauto. }
  destruct I0 as (b0 & c0 & Ho0 & M0).
  assert (D : depth <= 10).
  { destruct (Z.lt_ge_cases 10 depth) as [D|D]; auto. rewrite too_deep in M0 by (cbn; auto). discriminate. }
  destruct (fst (seq_bounds orc e t (Some (ctx_new vals)))) as [[[number size] term]|y|] eqn:B.
  2:{ exfalso. pose proof (bounds_not_short orc e t (Some (ctx_new vals))) as NS. subst m. cbn [mapbs] in M0. unfold map_seq in M0.
      destruct (Z.ltb_spec max_depth depth) as [H|_]; [unfold max_depth in H; lia|].
      destruct (seq_bounds orc e t (Some (ctx_new vals))) as [rr cc]. cbn [fst] in *. subst rr. inversion M0; subst. congruence. }
  2:{ exfalso. subst m. cbn [mapbs] in M0. unfold map_seq in M0.
      destruct (Z.ltb_spec max_depth depth) as [H|_]; [unfold max_depth in H; lia|].
      destruct (seq_bounds orc e t (Some (ctx_new vals))) as [rr cc]. cbn [fst] in *. subst rr. discriminate. }
  assert (Hoff : 0 <= off) by lia.
  pose proof (seq_bounds_terminator _ _ _ _ _ _ _ S1 S2 B) as real.
  assert (plain : size = None \/ whole x).
  { destruct P as [P|[P _]]; auto. left. unfold seq_bounds in B. rewrite P in B.
    destruct (has_terminator e); cbn [fst] in B; [destruct (e_terminator e); inversion B; auto|].
    destruct (has_number e); [|discriminate]. destruct (eval_number _ _ _) as [[q| |] c']; cbn in B; inversion B; auto. }
  assert (settles : forall bs vs n, off <= len bs -> walk orc fuel x bs depth number size term off vs n ->
    complete number size term vs n -> accepted number size term vs n).
  { intros bs' vs n L W CC. eapply (settled orc fuel e el x bs' depth number size term off vals); eauto; lia. }
  destruct (held_interrupted orc X fuel e t x None depth number size term off vals Hoff D R S B real plain settles bs c I) as (Ho & p & H).
  exists p. pose proof H as (V & SP & vs & n & MD).
  split.
  { destruct (walk_range orc X fuel x depth number size term off Hoff S bs vs n Ho (w_walk _ _ _ _ _ _ _ _ _ _ _ _ MD)) as [N0 N1].
    destruct (element_range orc X fuel x depth off Hoff R S bs n _ _ Ho N0 N1 (w_sub _ _ _ _ _ _ _ _ _ _ _ _ MD)) as [Q _].
    cbn in Q. lia. }
  split; [exact SP|]. split.
  { intros q SQ. exact (seq_stalls_det _ _ _ _ _ _ _ _ _ _ _ _ X S R SQ SP). }
  intros s. exact (held_resume orc X fuel e t x None depth number size term off vals Hoff D R S B real plain bs c p s Ho H).
Qed.
