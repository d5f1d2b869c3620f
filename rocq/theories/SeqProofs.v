(** Composite sequences: the element loop is the relation [walk]. *)
From Coq Require Import String List ZArith Bool Lia.
From Verif Require Import Base PyVal PyStruct DataTypes ClassFactory DataMaps.
From Verif Require Import BytesProofs ContainerProofs SpecPrim SpecMap MapProofs ContextProofs StructProofs.
Import ListNotations.
Open Scope Z_scope.

Lemma elements_app orc fuel x bs depth off vs1 e1 vs2 e2 :
  elements orc fuel x bs depth off vs1 e1 -> elements orc fuel x bs depth e1 vs2 e2 ->
  elements orc fuel x bs depth off (vs1 ++ vs2) e2.
Proof. intros H. induction H; intros G; cbn; auto. econstructor; eauto. Qed.

Lemma elements_snoc orc fuel x bs depth off vs e v n :
  elements orc fuel x bs depth off vs e -> e < len bs -> maps orc fuel x bs e [] (depth + 1) v n ->
  elements orc fuel x bs depth off (vs ++ [v]) (e + n).
Proof. intros H L M. eapply elements_app; eauto. econstructor; eauto. constructor. Qed.

Lemma elements_prefix orc fuel x bs depth vs1 : forall off vs2 e,
  elements orc fuel x bs depth off (vs1 ++ vs2) e ->
  exists e1, elements orc fuel x bs depth off vs1 e1 /\ elements orc fuel x bs depth e1 vs2 e.
Proof.
  induction vs1 as [|v vs1 IH]; intros off vs2 e H; cbn in H.
  - exists off. split; auto. constructor.
  - inversion H; subst. match goal with Q : elements _ _ _ _ _ _ (vs1 ++ vs2) _ |- _ => apply IH in Q; destruct Q as (e1 & A & B) end.
    exists e1. split; auto. econstructor; eauto.
Qed.

(** Two element lists from the same place are prefixes of each other. *)
Lemma elements_det orc fuel x bs depth vs1 : forall off e1 vs2 e2,
  elements orc fuel x bs depth off vs1 e1 -> elements orc fuel x bs depth off vs2 e2 ->
  List.length vs1 = List.length vs2 -> vs1 = vs2 /\ e1 = e2.
Proof.
  induction vs1 as [|v vs1 IH]; intros off e1 vs2 e2 H1 H2 L; destruct vs2 as [|w vs2]; try discriminate.
  - inversion H1; inversion H2; subst. auto.
  - inversion H1; subst. inversion H2; subst.
    match goal with A : maps _ _ _ _ off _ _ v _, B : maps _ _ _ _ off _ _ w _ |- _ =>
      destruct (maps_det _ _ _ _ _ _ _ _ _ _ _ A B) as [-> ->] end.
    cbn in L. match goal with A : elements _ _ _ _ _ _ vs1 _, B : elements _ _ _ _ _ _ vs2 _ |- _ =>
      destruct (IH _ _ _ _ A B ltac:(lia)) as [-> ->] end. auto.
Qed.

Lemma elements_compare orc fuel x bs depth off vs1 e1 vs2 e2 :
  elements orc fuel x bs depth off vs1 e1 -> elements orc fuel x bs depth off vs2 e2 ->
  (List.length vs1 <= List.length vs2)%nat -> exists t, vs2 = vs1 ++ t.
Proof.
  intros H1 H2 L. rewrite <- (firstn_skipn (List.length vs1) vs2) in H2.
  apply elements_prefix in H2. destruct H2 as (e & A & _).
  destruct (elements_det _ _ _ _ _ _ _ _ _ _ H1 A) as [E _].
  - rewrite firstn_length_le; auto.
  - exists (skipn (List.length vs1) vs2). rewrite E at 1. now rewrite firstn_skipn.
Qed.

Lemma last_snoc {A} (l : list A) x d : last (l ++ [x]) d = x.
Proof. induction l as [|a l IH]; cbn; auto. destruct (l ++ [x]) eqn:E; auto. destruct l; discriminate. Qed.

(** The loop ends within [k] iterations: the last one looks at a complete
    sequence unless the sequence ends in the terminator. *)
Definition in_time (term : option pyval) (k : nat) (vs : list pyval) : Prop :=
  (List.length vs < k)%nat \/
  (List.length vs = k /\ exists t, term = Some t /\ vs <> [] /\ py_eq (last vs VNone) t = true).

Section Loop.
Variable orc : oracle.
Hypothesis ext : extensional orc.
Variables (fuel : nat) (x : dmap) (bs : bytes) (depth : Z).
Variables (number size : option Z) (term : option pyval) (off : Z).
Hypothesis Hoff : 0 <= off.
Hypothesis NN : nonnegative orc x.

Notation walk' := (walk orc fuel x bs depth number size term off).
Notation complete' := (complete number size term).

Lemma elements_nonneg vs : forall o e, 0 <= o -> elements orc fuel x bs depth o vs e -> o <= e.
Proof.
  induction vs as [|v vs IH]; intros o e O H; inversion H; subst; [lia|].
  match goal with M : maps _ _ _ _ _ _ _ _ _ |- _ => apply NN in M; [|lia] end.
  match goal with Q : elements _ _ _ _ _ _ _ _ |- _ => apply IH in Q; lia end.
Qed.

Lemma walk_nil : walk' [] 0.
Proof.
  split; [rewrite Z.add_0_r; constructor|]. intros b a n' E N _ _. destruct b, a; try discriminate. congruence.
Qed.

Lemma walk_snoc vs n v k : walk' vs n -> ~ complete' vs n -> off + n < len bs ->
  maps orc fuel x bs (off + n) [] (depth + 1) v k -> walk' (vs ++ [v]) (n + k).
Proof.
  intros [W1 W2] C L M. split.
  - rewrite Z.add_assoc. eapply elements_snoc; eauto.
  - intros b a n' E N El. 
    destruct (exists_last N) as (a' & y & ->). rewrite app_assoc in E. apply app_inj_tail in E.
    destruct E as [E <-]. destruct a' as [|a0 a'].
    + rewrite app_nil_r in E. subst b. destruct (elements_det _ _ _ _ _ _ _ _ _ _ W1 El eq_refl) as [_ Z].
      replace n' with n by lia. exact C.
    + eapply W2; eauto. discriminate.
Qed.

(** What the loop variables stand for. *)
Record inv (s : seqst) (vs : list pyval) (n : Z) : Prop := mkInv {
  i_walk : walk' vs n;
  i_vals : q_vals s = vs;
  i_index : q_index s = len vs;
  i_doff : q_doff s = n;
  i_off : q_off s = off + n;
  i_last : q_last s = last vs VNone;
  i_clean : c_state (q_sub s) = st_empty;
  i_values : same_values (c_values (q_sub s)) [] }.

Lemma inv_nonneg s vs n : inv s vs n -> 0 <= n.
Proof. intros I. destruct (i_walk _ _ _ I) as [E _]. apply elements_nonneg in E; auto. lia. Qed.

Lemma seq_loop_spec k : forall s vs n, inv s vs n ->
  (vs <> [] -> is_term term (last vs VNone) = false) ->
  match seq_loop k (Some (mapbs orc fuel x)) bs number size term depth s with
  | LDone s' => exists vs' n', inv s' vs' n' /\ (complete' vs' n' \/ len bs <= off + n') /\
      in_time term (List.length vs + k) vs'
  | LTooSmall s' => exists vs' n', walk' vs' n' /\ ~ complete' vs' n' /\ off + n' < len bs /\
      fails orc fuel x bs (off + n') [] (depth + 1) ByteStreamTooSmallError /\
      (List.length vs' < List.length vs + k)%nat /\ q_doff s' = n'
  | LExc s' => exists vs' n', walk' vs' n' /\ ~ complete' vs' n' /\ off + n' < len bs /\
      (exists e, e <> ByteStreamTooSmallError /\ fails orc fuel x bs (off + n') [] (depth + 1) e) /\
      (List.length vs' < List.length vs + k)%nat
  | LFuel => exists vs' n', walk' vs' n' /\
      ((~ complete' vs' n' /\ off + n' < len bs /\
        fst (mapbs orc fuel x bs (off + n') (Some (ctx_new [])) (depth + 1)) = OutOfFuel /\
        (List.length vs' < List.length vs + k)%nat) \/
       (List.length vs' = (List.length vs + k)%nat /\ (vs' <> [] -> is_term term (last vs' VNone) = false)))
  end.
Proof.
  induction k as [|k IH]; intros s vs n I T; cbn [seq_loop].
  - exists vs, n. split; [apply I|]. right. split; [lia|exact T].
  - pose proof (inv_nonneg _ _ _ I) as Hn. destruct I as [W V X D O L C U].
    rewrite O, is_empty_slice_from by lia.
    destruct (Z.leb_spec (len bs) (off + n)) as [B|B].
    { exists vs, n. split; [constructor; auto|]. split; [right; exact B|]. left. lia. }
    rewrite X. destruct (opt_eqZ number (len vs)) eqn:N.
    { exists vs, n. split; [constructor; auto|]. split; [|left; lia].
      left. left. destruct number; [|discriminate].
      cbn in N. apply Z.eqb_eq in N. congruence. }
    rewrite D. destruct (opt_leZ size n) eqn:Sz.
    { exists vs, n. split; [constructor; auto|]. split; [|left; lia].
      left. right. left. destruct size; [|discriminate].
      cbn in Sz. apply Z.leb_le in Sz. eauto. }
    assert (NC : ~ complete' vs n).
    { intros [A|[(z & A & A')|(t & A & A1 & A2)]].
      - rewrite A in N. cbn in N. rewrite Z.eqb_refl in N. discriminate.
      - rewrite A in Sz. cbn in Sz. apply Z.leb_gt in Sz. lia.
      - specialize (T A1). rewrite A in T. cbn in T. congruence. }
    destruct (fresh orc fuel x bs (off + n) (q_sub s) (depth + 1) [] ext C U) as [F1 F2].
    destruct (mapbs orc fuel x bs (off + n) (Some (q_sub s)) (depth + 1)) as [[v|ex|] c'] eqn:EQ; cbn [fst] in *.
    + destruct (F2 v eq_refl) as (j & c2 & M & Hc & Hb & Hs & Hv & _). cbn [snd] in Hc. subst c'. cbn [opt_default].
      rewrite Hb.
      assert (I' : inv (mkSeq (off + n + j) (len vs + 1) (n + j) v (q_vals s ++ [v]) c2) (vs ++ [v]) (n + j)).
      { constructor; cbn; auto.
        - apply walk_snoc; auto.
        - now rewrite V.
        - rewrite len_app. reflexivity.
        - lia.
        - now rewrite last_snoc.
        - destruct Hv as [-> | ->]; auto. eapply same_values_trans; [|exact U]. apply same_values_ns. }
      destruct (is_term term v) eqn:IT.
      * assert (TT : exists t, term = Some t /\ vs ++ [v] <> [] /\ py_eq (last (vs ++ [v]) VNone) t = true).
        { clear - IT. destruct term as [t|]; [|discriminate]. exists t. split; auto. split.
          { destruct vs; discriminate. } rewrite last_snoc. exact IT. }
        exists (vs ++ [v]), (n + j). split; auto. split; [left; right; right; exact TT|].
        unfold in_time. rewrite app_length. cbn [List.length]. destruct k; [right|left; lia]. split; [lia|exact TT].
      * specialize (IH _ _ _ I'). rewrite last_snoc in IH. specialize (IH ltac:(auto)).
        replace (List.length (vs ++ [v]) + k)%nat with (List.length vs + S k)%nat in IH
          by (rewrite app_length; cbn; lia).
        exact IH.
    + destruct ex;
        try (exists vs, n; split; [exact W|]; split; [exact NC|]; split; [exact B|];
             split; [eexists; split; [|unfold fails; symmetry; exact F1]; discriminate|lia]).
      exists vs, n; split; [exact W|]; split; [exact NC|]; split; [exact B|].
      split; [unfold fails; now symmetry|]. split; [lia|exact D].
    + exists vs, n. split; [exact W|]. left. split; [exact NC|]. split; [exact B|]. split; [now symmetry|lia].
Qed.
End Loop.

Lemma py_eq_none t : py_eq VNone t = true -> t = VNone.
Proof. destruct t; cbn; try discriminate; auto. Qed.

(** The bounds of a sequence: a terminator excludes a number, and there is one of
    both. *)
Lemma bounds_shape orc e ed c number size term :
  fst (seq_bounds orc e ed c) = Ok (number, size, term) ->
  (number = None /\ term <> None) \/ (number <> None /\ term = None).
Proof.
  unfold seq_bounds. destruct (has_data_size e); cbn [fst].
  - destruct (eval_data_size orc e (ctx_values c)) as [n| |]; cbn [bind]; try discriminate.
    destruct (get_byte_size ed) as [b|].
    + destruct (b =? 0); [discriminate|]. intros E; inversion E; subst. right. split; congruence.
    + destruct (element_terminator ed) as [t| |]; cbn [bind]; try discriminate.
      destruct t; [|discriminate]. intros E; inversion E; subst. left. split; congruence.
  - destruct (has_terminator e) eqn:T; cbn [fst].
    + destruct (e_terminator e); [|discriminate]. intros E; inversion E; subst. left. split; congruence.
    + destruct (has_number e); [|discriminate].
      destruct (eval_number orc e c) as [[n| |] c']; cbn; try discriminate.
      intros E; inversion E; subst. right. split; congruence.
Qed.

Lemma accepted_complete number size term vs n :
  accepted number size term vs n -> complete number size term vs n.
Proof.
  unfold accepted. destruct number as [k|].
  - intros <-. now left.
  - intros H. exact H.
Qed.

Section Sequence.
Variable orc : oracle.
Hypothesis ext : extensional orc.
Variables (fuel : nat) (x : dmap) (bs : bytes) (depth : Z).
Variables (number size : option Z) (term : option pyval) (off : Z).
Hypothesis Hoff : 0 <= off.
Hypothesis NN : nonnegative orc x.
Hypothesis shape : (number = None /\ term <> None) \/ (number <> None /\ term = None).
Hypothesis real : term <> Some VNone.

Notation walk' := (walk orc fuel x bs depth number size term off).
Notation complete' := (complete number size term).
Notation accepted' := (accepted number size term).

(** Of two walks, one is the beginning of the other, and only the longer one may
    be complete. *)
Lemma walk_compare vs1 n1 vs2 n2 : walk' vs1 n1 -> walk' vs2 n2 ->
  (vs1 = vs2 /\ n1 = n2) \/
  ((List.length vs1 < List.length vs2)%nat /\ ~ complete' vs1 n1) \/
  ((List.length vs2 < List.length vs1)%nat /\ ~ complete' vs2 n2).
Proof.
  intros [E1 W1] [E2 W2].
  destruct (Nat.lt_trichotomy (List.length vs1) (List.length vs2)) as [L|[L|L]].
  - right. left. split; auto. destruct (elements_compare _ _ _ _ _ _ _ _ _ _ E1 E2) as [t ->]; [lia|].
    eapply W2; eauto. intros ->. rewrite app_nil_r in L. lia.
  - left. destruct (elements_det _ _ _ _ _ _ _ _ _ _ E1 E2 L) as [-> H]. split; auto. lia.
  - right. right. split; auto. destruct (elements_compare _ _ _ _ _ _ _ _ _ _ E2 E1) as [t ->]; [lia|].
    eapply W1; eauto. intros ->. rewrite app_nil_r in L. lia.
Qed.

(** A walk that goes on. *)
Definition next (vs : list pyval) (n : Z) (P : Prop) : Prop :=
  walk' vs n /\ ~ complete' vs n /\ off + n < len bs /\ P.

Lemma walk_next vs1 n1 vs2 n2 : walk' vs1 n1 -> walk' vs2 n2 -> (List.length vs1 < List.length vs2)%nat ->
  off + n1 < len bs /\ exists v k, maps orc fuel x bs (off + n1) [] (depth + 1) v k.
Proof.
  intros [E1 W1] [E2 W2] L.
  destruct (elements_compare _ _ _ _ _ _ _ _ _ _ E1 E2) as [t ->]; [lia|].
  destruct t as [|v t]; [rewrite app_nil_r in L; lia|].
  apply elements_prefix in E2. destruct E2 as (e & A & B).
  destruct (elements_det _ _ _ _ _ _ _ _ _ _ E1 A eq_refl) as [_ <-].
  inversion B; subst. eauto.
Qed.

(** The four ends of a sequence. *)
Definition ends_ok vs n : Prop := walk' vs n /\ accepted' vs n /\ in_time term fuel vs.
Definition ends_short vs n : Prop :=
  walk' vs n /\ ~ accepted' vs n /\ (List.length vs < fuel)%nat /\
  (complete' vs n \/ len bs <= off + n \/
   fails orc fuel x bs (off + n) [] (depth + 1) ByteStreamTooSmallError).
Definition ends_bad vs n : Prop :=
  walk' vs n /\ ~ complete' vs n /\ (List.length vs < fuel)%nat /\ off + n < len bs /\
  exists e, e <> ByteStreamTooSmallError /\ fails orc fuel x bs (off + n) [] (depth + 1) e.
Definition ends_fuel vs n : Prop :=
  walk' vs n /\
  ((~ complete' vs n /\ (List.length vs < fuel)%nat /\ off + n < len bs /\
    fst (mapbs orc fuel x bs (off + n) (Some (ctx_new [])) (depth + 1)) = OutOfFuel) \/
   (List.length vs = fuel /\ ~ exists t, term = Some t /\ vs <> [] /\ py_eq (last vs VNone) t = true)).

Lemma ends_ok_det vs1 n1 vs2 n2 : ends_ok vs1 n1 -> ends_ok vs2 n2 -> vs1 = vs2 /\ n1 = n2.
Proof.
  intros (W1 & A1 & _) (W2 & A2 & _). apply accepted_complete in A1. apply accepted_complete in A2.
  destruct (walk_compare _ _ _ _ W1 W2) as [H|[[_ H]|[_ H]]]; tauto.
Qed.

Lemma maps_fails y off' d v n e : maps orc fuel y bs off' [] d v n -> fails orc fuel y bs off' [] d e -> False.
Proof. intros M F. apply maps_fst in M. unfold fails in F. congruence. Qed.

Lemma ok_short vs1 n1 vs2 n2 : ends_ok vs1 n1 -> ends_short vs2 n2 -> False.
Proof.
  intros (W1 & A1 & _) (W2 & A2 & _ & H2). pose proof (accepted_complete _ _ _ _ _ A1) as C1.
  destruct (walk_compare _ _ _ _ W1 W2) as [[-> ->]|[[_ H]|[L H]]]; try tauto.
  destruct (walk_next _ _ _ _ W2 W1 L) as (B & v & k & M).
  destruct H2 as [H2|[H2|H2]]; [tauto|lia|eapply maps_fails; eauto].
Qed.

Lemma ok_bad vs1 n1 vs2 n2 : ends_ok vs1 n1 -> ends_bad vs2 n2 -> False.
Proof.
  intros (W1 & A1 & _) (W2 & C2 & _ & L2 & e & _ & F). pose proof (accepted_complete _ _ _ _ _ A1) as C1.
  destruct (walk_compare _ _ _ _ W1 W2) as [[-> ->]|[[_ H]|[L H]]]; try tauto.
  destruct (walk_next _ _ _ _ W2 W1 L) as (B & v & k & M). eapply maps_fails; eauto.
Qed.

Lemma ok_fuel vs1 n1 vs2 n2 : ends_ok vs1 n1 -> ends_fuel vs2 n2 -> False.
Proof.
  intros (W1 & A1 & T1) (W2 & H2). pose proof (accepted_complete _ _ _ _ _ A1) as C1.
  destruct (walk_compare _ _ _ _ W1 W2) as [[-> ->]|[[L H]|[L H]]]; try tauto.
  - destruct H2 as [H2|[H2 H3]]; [tauto|]. destruct T1 as [T1|[_ T1]]; [lia|tauto].
  - destruct H2 as [(_ & _ & _ & F)|[H2 H3]].
    + destruct (walk_next _ _ _ _ W2 W1 L) as (B & v & k & M). apply maps_fst in M. congruence.
    + destruct T1 as [T1|[T1 _]]; lia.
Qed.

Lemma term_accepted vs n : (exists t, term = Some t /\ vs <> [] /\ py_eq (last vs VNone) t = true) -> accepted' vs n.
Proof.
  intros (t & E & N & Q). unfold accepted. destruct shape as [[-> _]|[_ H]]; [|congruence].
  right. right. eauto.
Qed.

Lemma short_bad vs1 n1 vs2 n2 : ends_short vs1 n1 -> ends_bad vs2 n2 -> False.
Proof.
  intros (W1 & A1 & _ & H1) (W2 & C2 & _ & L2 & e & N & F).
  destruct (walk_compare _ _ _ _ W1 W2) as [[-> ->]|[[L H]|[L H]]].
  - destruct H1 as [H1|[H1|H1]]; [tauto|lia|]. unfold fails in *. congruence.
  - destruct (walk_next _ _ _ _ W1 W2 L) as (B & v & k & M).
    destruct H1 as [H1|[H1|H1]]; [tauto|lia|eapply maps_fails; eauto].
  - destruct (walk_next _ _ _ _ W2 W1 L) as (B & v & k & M). eapply maps_fails; eauto.
Qed.

Lemma short_fuel vs1 n1 vs2 n2 : ends_short vs1 n1 -> ends_fuel vs2 n2 -> False.
Proof.
  intros (W1 & A1 & T1 & H1) (W2 & H2).
  destruct (walk_compare _ _ _ _ W1 W2) as [[-> ->]|[[L H]|[L H]]].
  - destruct H2 as [(C2 & _ & L2 & F)|[H2 H3]]; [|lia].
    destruct H1 as [H1|[H1|H1]]; [tauto|lia|]. unfold fails in *. congruence.
  - destruct (walk_next _ _ _ _ W1 W2 L) as (B & v & k & M).
    destruct H1 as [H1|[H1|H1]]; [tauto|lia|eapply maps_fails; eauto].
  - destruct (walk_next _ _ _ _ W2 W1 L) as (B & v & k & M). apply maps_fst in M.
    destruct H2 as [(C2 & _ & L2 & F)|[H2 H3]]; [congruence|lia].
Qed.

Lemma bad_fuel vs1 n1 vs2 n2 : ends_bad vs1 n1 -> ends_fuel vs2 n2 -> False.
Proof.
  intros (W1 & C1 & T1 & L1 & e & N & F1) (W2 & H2).
  destruct (walk_compare _ _ _ _ W1 W2) as [[-> ->]|[[L H]|[L H]]].
  - destruct H2 as [(C2 & _ & L2 & F)|[H2 H3]]; [|lia]. unfold fails in *. congruence.
  - destruct (walk_next _ _ _ _ W1 W2 L) as (B & v & k & M). eapply maps_fails; eauto.
  - destruct (walk_next _ _ _ _ W2 W1 L) as (B & v & k & M). apply maps_fst in M.
    destruct H2 as [(C2 & _ & L2 & F)|[H2 H3]]; [congruence|lia].
Qed.

End Sequence.

Lemma sequence_runs orc fuel x bs depth number size term off e ed op vals :
  extensional orc -> 0 <= off -> nonnegative orc x ->
  (number = None /\ term <> None) \/ (number <> None /\ term = None) ->
  term <> Some VNone ->
  fst (seq_bounds orc e ed (Some (ctx_new vals))) = Ok (number, size, term) ->
  depth <= 10 ->
  let m := MSequence false e ed (Some x) op in
  (exists vs n, ends_ok orc fuel x bs depth number size term off vs n /\
     maps orc fuel m bs off vals depth (VTuple vs) n) \/
  (exists vs n, ends_short orc fuel x bs depth number size term off vs n /\
     fails orc fuel m bs off vals depth ByteStreamTooSmallError) \/
  (exists vs n, ends_bad orc fuel x bs depth number size term off vs n /\
     fails orc fuel m bs off vals depth MappingError) \/
  (exists vs n, ends_fuel orc fuel x bs depth number size term off vs n /\
     fst (mapbs orc fuel m bs off (Some (ctx_new vals)) depth) = OutOfFuel).
Proof.
  intros ext Hoff NN shape real bounds Hdepth m. unfold maps, fails. subst m. cbn [mapbs]. unfold map_seq.
  destruct (Z.ltb_spec max_depth depth) as [H|_]; [unfold max_depth in H; lia|].
  destruct (bounds_agrees orc ext e ed (Some (ctx_new vals)) (Some (ctx_new vals)) eq_refl eq_refl (same_values_refl _)) as (_ & CL & _).
  assert (KP : snd (seq_bounds orc e ed (Some (ctx_new vals))) <> None).
  { unfold seq_bounds. destruct (has_data_size e); [discriminate|]. destruct (has_terminator e); [discriminate|].
    destruct (has_number e); [|discriminate]. unfold eval_number.
    destruct (truthy_Z _); [discriminate|]. destruct (truthy_str _); discriminate. }
  destruct (seq_bounds orc e ed (Some (ctx_new vals))) as [r c1]. cbn [fst snd] in *. subst r.
  destruct c1 as [c1|]; [|congruence]. cbn [clean] in CL. cbn [ctx_state]. rewrite CL.
  cbn [s_element_index s_elements_data_offset s_mapped_values s_context st_empty opt_default].
  set (s0 := mkSeq off 0 0 VNone [] (ctx_new [])).
  assert (I0 : inv orc fuel x bs depth number size term off s0 [] 0).
  { constructor; cbn; auto.
    - apply walk_nil.
    - lia.
    - apply same_values_refl. }
  pose proof (seq_loop_spec orc ext fuel x bs depth number size term off Hoff NN fuel s0 [] 0 I0 ltac:(congruence)) as S.
  destruct (seq_loop fuel (Some (mapbs orc fuel x)) bs number size term depth s0) as [s|s|s|]; cbn [List.length Nat.add] in S.
  - destruct S as (vs & n & I & S & T). destruct I as [W V X D O L C U]. rewrite X, D, V, L.
    destruct shape as [[N1 N2]|[N1 N2]].
    + (* terminator *)
      subst number. destruct term as [t|]; [|congruence].
      destruct (negb (py_eq (last vs VNone) t) && match size with Some n0 => n <? n0 | None => true end) eqn:Q.
      * right. left. exists vs, n. split; [|reflexivity].
        apply andb_true_iff in Q. destruct Q as [Q1 Q2]. apply negb_true_iff in Q1.
        assert (NC : ~ complete None size (Some t) vs n).
        { intros [A|[(z & A & A')|(t' & A & A1 & A2)]].
          - discriminate.
          - rewrite A in Q2. apply Z.ltb_lt in Q2. lia.
          - congruence. }
        split; auto. split; [exact NC|]. destruct S as [S|S]; [contradiction|]. split; auto.
        destruct T as [T|(_ & t' & A & A1 & A2)]; [auto|]. exfalso. congruence.
      * left. exists vs, n. split; [|eexists; split; reflexivity].
        split; auto. split; auto. cbn [accepted].
        apply andb_false_iff in Q. destruct Q as [Q|Q].
        -- apply negb_false_iff in Q. right. right. exists t. split; auto. split; auto.
           intros ->. cbn in Q. apply py_eq_none in Q. congruence.
        -- right. left. destruct size as [z|]; [|discriminate]. exists z. split; auto. apply Z.ltb_ge in Q. lia.
    + (* number *)
      destruct number as [k|]; [|congruence]. subst term. cbn [andb].
      destruct (Z.eqb_spec (len vs) k) as [E|E]; cbn [negb].
      * left. exists vs, n. split; [|eexists; split; reflexivity]. split; auto.
      * right. left. exists vs, n. split; [|reflexivity]. split; auto. split; [exact E|].
        split; [|tauto]. destruct T as [T|(_ & t' & A & _)]; [auto|discriminate].
  - destruct S as (vs & n & W & NC & L & F & T). right. left. exists vs, n. split; [|reflexivity].
    split; auto. split; [|split; tauto]. intros A. apply NC. eapply accepted_complete. exact A.
  - destruct S as (vs & n & W & NC & L & F & T). right. right. left. exists vs, n. split; [|reflexivity].
    split; auto.
  - destruct S as (vs & n & W & S). right. right. right. exists vs, n. split; [|reflexivity].
    split; auto. destruct S as [(NC & L & F & T)|[S1 S2]]; [left; auto|].
    right. split; auto. intros (t & A & A1 & A2). specialize (S2 A1). rewrite A in S2. cbn in S2. congruence.
Qed.

Lemma sequence_layout orc fuel x bs depth number size term off e ed op vals :
  extensional orc -> 0 <= off -> nonnegative orc x ->
  term <> Some VNone ->
  fst (seq_bounds orc e ed (Some (ctx_new vals))) = Ok (number, size, term) ->
  depth <= 10 ->
  let m := MSequence false e ed (Some x) op in
  (forall v n, maps orc fuel m bs off vals depth v n <->
     exists vs, v = VTuple vs /\ ends_ok orc fuel x bs depth number size term off vs n) /\
  (fails orc fuel m bs off vals depth ByteStreamTooSmallError <->
     exists vs n, ends_short orc fuel x bs depth number size term off vs n) /\
  (fails orc fuel m bs off vals depth MappingError <->
     exists vs n, ends_bad orc fuel x bs depth number size term off vs n) /\
  (fst (mapbs orc fuel m bs off (Some (ctx_new vals)) depth) = OutOfFuel <->
     exists vs n, ends_fuel orc fuel x bs depth number size term off vs n) /\
  (forall ex, fails orc fuel m bs off vals depth ex -> ex = ByteStreamTooSmallError \/ ex = MappingError).
Proof.
  intros ext Hoff NN real B Hd m.
  pose proof (bounds_shape _ _ _ _ _ _ _ B) as shape.
  pose proof (sequence_runs orc fuel x bs depth number size term off e ed op vals ext Hoff NN shape real B Hd) as R.
  cbn zeta in R. fold m in R.
  destruct R as [(vs & n & E & M)|[(vs & n & E & M)|[(vs & n & E & M)|(vs & n & E & M)]]].
  - pose proof (maps_fst _ _ _ _ _ _ _ _ _ M) as M'. unfold fails. rewrite M'.
    split; [|split; [|split; [|split]]]; try discriminate.
    + intros v k. split.
      * intros Q. destruct (maps_det _ _ _ _ _ _ _ _ _ _ _ Q M) as [-> ->]. eauto.
      * intros (vs' & -> & E'). assert (Q : vs = vs' /\ n = k) by (eapply ends_ok_det; eauto). destruct Q as [<- <-]. exact M.
    + split; [discriminate|]. intros (vs' & n' & E'). exfalso. eapply ok_short; eauto.
    + split; [discriminate|]. intros (vs' & n' & E'). exfalso. eapply ok_bad; eauto.
    + split; [discriminate|]. intros (vs' & n' & E'). exfalso. eapply ok_fuel; eauto.
  - unfold fails in *. rewrite M.
    split; [|split; [|split; [|split]]].
    + intros v k. split.
      * intros Q. apply maps_fst in Q. congruence.
      * intros (vs' & -> & E'). exfalso. eapply ok_short; eauto.
    + split; auto. intros _. eauto.
    + split; [discriminate|]. intros (vs' & n' & E'). exfalso. eapply short_bad; eauto.
    + split; [discriminate|]. intros (vs' & n' & E'). exfalso. eapply short_fuel; eauto.
    + intros ex Q. inversion Q; auto.
  - unfold fails in *. rewrite M.
    split; [|split; [|split; [|split]]].
    + intros v k. split.
      * intros Q. apply maps_fst in Q. congruence.
      * intros (vs' & -> & E'). exfalso. eapply ok_bad; eauto.
    + split; [discriminate|]. intros (vs' & n' & E'). exfalso. eapply short_bad; eauto.
    + split; auto. intros _. eauto.
    + split; [discriminate|]. intros (vs' & n' & E'). exfalso. eapply bad_fuel; eauto.
    + intros ex Q. inversion Q; auto.
  - unfold fails. rewrite M.
    split; [|split; [|split; [|split]]]; try discriminate.
    + intros v k. split.
      * intros Q. apply maps_fst in Q. congruence.
      * intros (vs' & -> & E'). exfalso. eapply ok_fuel; eauto.
    + split; [discriminate|]. intros (vs' & n' & E'). exfalso. eapply short_fuel; eauto.
    + split; [discriminate|]. intros (vs' & n' & E'). exfalso. eapply bad_fuel; eauto.
    + split; auto. intros _. eauto.
Qed.
