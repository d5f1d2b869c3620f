(** Proofs about the definitions reader: references and supported keys. *)
From Coq Require Import String Ascii List ZArith Bool Lia.
From Verif Require Import Base Ieee BytesProofs Yaml DataTypes Reader SpecReader ReaderProofs
  ReaderTotal ReadFileProofs.
Import ListNotations.
Open Scope Z_scope.

(** * The registry after reading *)

Record reg_ok (env : yenv) (r : rreg) : Prop := {
  ok_keys : forall k d, In (k, d) (rg_definitions r) -> y_lower env (rd_name d) = Ok k;
  ok_nodup : NoDup (map fst (rg_definitions r));
  ok_aliases : forall a k, In (a, k) (rg_aliases r) ->
    exists d l, In (k, d) (rg_definitions r) /\ y_iter (rd_aliases d) = Ok l /\ In a l }.

Lemma lower_eqb : forall env v k k', y_lower env v = Ok k -> y_eqb k k' = true <-> k' = k.
Proof.
  intros env v k k' H. destruct v; cbn in H; try discriminate H; injection H as <-.
  - apply y_eqb_str_l.
  - split; [|intros ->; cbn; apply bytes_eqb_eq; reflexivity].
    destruct k'; cbn; intros H; try discriminate H. apply bytes_eqb_eq in H. congruence.
Qed.

Lemma assoc_in : forall A k l (v : A), assoc k l = Some v ->
  exists k', In (k', v) l /\ y_eqb k k' = true.
Proof.
  intros A k l v. induction l as [|[k' v'] l IH]; cbn; [discriminate|].
  destruct (y_eqb k k') eqn:E.
  - intros H. injection H as <-. exists k'. auto.
  - intros H. destruct (IH H) as [k1 [I Q]]. exists k1. auto.
Qed.

Lemma assoc_none : forall A k l (v : A) k', assoc k l = None -> In (k', v) l -> y_eqb k k' = false.
Proof.
  intros A k l v k'. induction l as [|[k1 v1] l IH]; cbn; [intros _ []|].
  destruct (y_eqb k k1) eqn:E; [discriminate|]. intros H [Q|I]; [congruence|auto].
Qed.

Lemma nodup_fun : forall A (l : list (yval * A)) k a b,
  NoDup (map fst l) -> In (k, a) l -> In (k, b) l -> a = b.
Proof.
  intros A l k a b. induction l as [|[k' v'] l IH]; cbn; intros N Ha Hb; [destruct Ha|].
  inversion N as [|? ? N1 N2]; subst.
  destruct Ha as [Ha|Ha], Hb as [Hb|Hb].
  - congruence.
  - injection Ha as <- <-. exfalso. apply N1. apply (in_map fst) in Hb. exact Hb.
  - injection Hb as <- <-. exfalso. apply N1. apply (in_map fst) in Ha. exact Ha.
  - exact (IH N2 Ha Hb).
Qed.

Lemma reg_ok_empty : forall env, reg_ok env rreg_empty.
Proof. intros env. constructor; cbn; [intros ? ? []|constructor|intros ? ? []]. Qed.

Lemma reg_ok_register : forall env r d r',
  reg_ok env r -> rregister env r d = Ok r' -> reg_ok env r'.
Proof.
  intros env r d r' [K N A] H. apply rregister_ok in H.
  destruct H as [k [l [L [F [D [I [AF E]]]]]]].
  constructor.
  - intros k' d' Hin. rewrite D in Hin. apply in_app_or in Hin.
    destruct Hin as [Hin|[Q|[]]]; [exact (K _ _ Hin)|]. injection Q as <- <-. exact L.
  - rewrite D, map_app. cbn.
    apply (NoDup_Add (Add_app k (map fst (rg_definitions r)) [])). rewrite app_nil_r.
    split; [exact N|]. intros Hin. apply in_map_iff in Hin. destruct Hin as [[k' d'] [Q Hin]].
    cbn in Q. subst k'. pose proof (assoc_none _ _ _ _ _ F Hin) as C.
    assert (T : y_eqb k k = true) by (apply (lower_eqb _ _ _ _ L); reflexivity). congruence.
  - assert (G : forall l0 al, (forall a, In a l0 -> In a l) ->
      (forall a k', In (a, k') al -> (exists d' l', In (k', d') (rg_definitions r')
         /\ y_iter (rd_aliases d') = Ok l' /\ In a l') ) ->
      (forall a k' , In (a, k') al -> (In (a, k') (rg_aliases r) \/ (In a l /\ k' = k))) ->
      forall a k', In (a, k') (fold_left (fun al a => assoc_set a k al) l0 al) ->
        In (a, k') (rg_aliases r) \/ (In a l /\ k' = k)).
    { induction l0 as [|x l0 IH]; intros al Hl Hd Hal a k' Hin; cbn in Hin; [exact (Hal _ _ Hin)|].
      assert (Hx : forall a0 k0, In (a0, k0) (assoc_set x k al) ->
        In (a0, k0) (rg_aliases r) \/ (In a0 l /\ k0 = k)).
      { intros a0 k0 H0. apply assoc_set_in in H0. cbn in H0.
        destruct H0 as [H0|[-> [->|[w [H0 Q]]]]].
        - exact (Hal _ _ H0).
        - right. split; [apply Hl; left; reflexivity|reflexivity].
        - destruct (Hal _ _ H0) as [H1|[H1 _]]; [|right; auto].
          exfalso. rewrite Forall_forall in AF. specialize (AF x (Hl x (or_introl eq_refl))).
          rewrite (assoc_none _ _ _ _ _ AF H1) in Q. discriminate Q. }
      apply (IH (assoc_set x k al)); [intros; apply Hl; right; assumption| |exact Hx|exact Hin].
      intros a0 k0 H0. destruct (Hx _ _ H0) as [H1|[H1 ->]].
      - destruct (A _ _ H1) as [d' [l' [P1 P2]]]. exists d', l'. rewrite D.
        split; [apply in_or_app; left; exact P1|exact P2].
      - exists d, l. rewrite D. split; [apply in_or_app; right; left; reflexivity|auto]. }
    intros a k' Hin. rewrite E in Hin. apply G in Hin.
    + destruct Hin as [H1|[H1 ->]].
      * destruct (A _ _ H1) as [d' [l' [P1 P2]]]. exists d', l'. rewrite D.
        split; [apply in_or_app; left; exact P1|exact P2].
      * exists d, l. rewrite D. split; [apply in_or_app; right; left; reflexivity|auto].
    + auto.
    + intros a0 k0 H0. destruct (A _ _ H0) as [d' [l' [P1 P2]]]. exists d', l'. rewrite D.
      split; [apply in_or_app; left; exact P1|exact P2].
    + auto.
Qed.

(** A lookup finds a definition with that name. *)
Lemma lookup_names : forall env r n d,
  reg_ok env r -> rlookup env r n = ROk (Some d) ->
  In d (registered r) /\ names_definition env n d.
Proof.
  intros env r n d [K N A] H. split; [exact (rlookup_in _ _ _ _ H)|].
  unfold rlookup in H. apply rbind_ok in H. destruct H as [k [L H]]. apply lift_ok in L.
  injection H as H. unfold assoc_mem in H.
  destruct (assoc k (rg_definitions r)) as [d1|] eqn:E.
  - rewrite E in H. injection H as ->. left.
    apply assoc_in in E. destruct E as [k' [I Q]]. exists k, k'. split; [exact L|].
    split; [exact (K _ _ I)|exact Q].
  - destruct (assoc n (rg_aliases r)) as [k1|] eqn:F; [|congruence].
    apply assoc_in in F. destruct F as [a [I Q]].
    destruct (A _ _ I) as [d1 [l [I1 [It Ia]]]].
    apply assoc_in in H. destruct H as [k2 [I2 Q2]].
    apply (lower_eqb _ _ _ _ (K _ _ I1)) in Q2. subst k2.
    rewrite (nodup_fun _ _ _ _ _ N I1 I2) in It. right. exists l, a. auto.
Qed.

(** * References (C39) *)

Lemma family_members_resolved : forall env r dname l ms ms',
  reg_ok env r -> read_family_members env r dname ms l = ROk ms' ->
  exists ms1, ms' = ms ++ ms1
  /\ Forall2 (fun x d => In d (registered r) /\ names_definition env x d) l ms1.
Proof.
  intros env r dname l. induction l as [|x l IH]; intros ms ms' R H;
    cbn [read_family_members] in H.
  - injection H as <-. exists []. rewrite app_nil_r. split; [reflexivity|constructor].
  - apply rbind_ok in H. destruct H as [[d|] [E H]];
      [|exfalso; exact (raise_def_ok _ _ _ _ H)].
    apply rbind_ok in H. destruct H as [ms0 [M H]]. apply add_member_ok in M.
    destruct M as [-> _]. destruct (IH _ _ R H) as [ms1 [-> F]]. exists (d :: ms1).
    rewrite <- app_assoc. split; [reflexivity|]. constructor; [|exact F].
    exact (lookup_names _ _ _ _ R E).
Qed.

Lemma group_members_resolved : forall env r dname i l ms ms',
  reg_ok env r -> read_group_members env r dname i ms l = ROk ms' ->
  exists ms1, ms' = ms ++ ms1
  /\ Forall2 (fun x d => In d (registered r) /\ names_definition env x d) l ms1.
Proof.
  intros env r dname i l. induction l as [|x l IH]; intros ms ms' R H;
    cbn [read_group_members] in H.
  - injection H as <-. exists []. rewrite app_nil_r. split; [reflexivity|constructor].
  - apply rbind_ok in H. destruct H as [[d|] [E H]];
      [|exfalso; exact (raise_def_ok _ _ _ _ H)].
    destruct (rd_members d); [|discriminate H].
    destruct (negb _); [exfalso; exact (raise_def_ok _ _ _ _ H)|].
    apply rbind_ok in H. destruct H as [ms0 [M H]]. apply add_member_ok in M.
    destruct M as [-> _]. destruct (IH _ _ R H) as [ms1 [-> F]]. exists (d :: ms1).
    rewrite <- app_assoc. split; [reflexivity|]. constructor; [|exact F].
    exact (lookup_names _ _ _ _ R E).
Qed.

Lemma members_resolved : forall env prior read dname l ms ss ms' ss',
  (forall x d, In x l -> read x = ROk d -> resolved env prior x d) ->
  read_members read dname ms ss l = ROk (ms', ss') ->
  exists ms1, ms' = ms ++ ms1 /\ resolved_members env prior l ms1.
Proof.
  intros env prior read dname l. induction l as [|x l IH]; intros ms ss ms' ss' R H;
    cbn [read_members] in H.
  - injection H as <- <-. exists []. rewrite app_nil_r. split; [reflexivity|constructor].
  - apply rbind_ok in H. destruct H as [s [S H]]. apply lift_ok in S.
    destruct (y_truthy s) eqn:T.
    + apply IH in H; [|intros; apply R; [right|]; assumption].
      destruct H as [ms1 [-> M]]. exists ms1. split; [reflexivity|].
      apply ResSection with (s := s); [|unfold falsy; change truth with y_truthy; congruence|exact M].
      apply y_get_entry; [exact S|apply y_truthy_null, T].
    + apply rbind_ok in H. destruct H as [d [E H]].
      apply rbind_ok in H. destruct H as [ms0 [M H]]. apply add_member_ok in M.
      destruct M as [-> _]. apply IH in H; [|intros; apply R; [right|]; assumption].
      destruct H as [ms1 [-> M]]. exists (d :: ms1). rewrite <- app_assoc.
      split; [reflexivity|]. constructor; [|exact M]. apply R; [left; reflexivity|exact E].
Qed.

Lemma truthy_entry : forall k v x, y_get k v = Ok x -> negb (y_truthy x) = false -> entry v k x.
Proof.
  intros k v x G T. apply negb_false_iff in T. apply y_get_entry; [exact G|].
  apply y_truthy_null, T.
Qed.

Lemma with_members_resolved : forall env prior read values name m bo ss ms,
  (forall l x d, items values "members" l -> In x l -> read x = ROk d ->
    resolved env prior x d) ->
  read_with_members read values name = ROk (m, bo, ss, ms) ->
  exists l, items values "members" l /\ resolved_members env prior l ms.
Proof.
  intros env prior read values name m bo ss ms R H. unfold read_with_members in H.
  apply rbind_ok in H. destruct H as [v [V H]]. apply lift_ok in V.
  destruct (negb (y_truthy v)) eqn:T; [discriminate H|].
  apply rbind_ok in H. destruct H as [m0 [_ H]].
  apply rbind_ok in H. destruct H as [at0 [_ H]].
  apply rbind_ok in H. destruct H as [bo0 [_ H]].
  apply rbind_ok in H. destruct H as [l [L H]]. apply lift_ok in L.
  apply rbind_ok in H. destruct H as [[ms0 ss0] [M H]]. injection H as <- <- <- <-. cbn [fst snd].
  assert (I : items values "members" l).
  { exists v. split; [exact (truthy_entry _ _ _ V T)|exact L]. }
  exists l. split; [exact I|].
  apply members_resolved with (env := env) (prior := prior) in M.
  - destruct M as [ms1 [-> M]]. exact M.
  - intros x d Hx E. exact (R l x d I Hx E).
Qed.

Lemma read_elements_resolved : forall env r k values name supported e elem,
  reg_ok env r ->
  read_elements env r values name supported = ROk (e, elem) ->
  entry values "type" (Y (kind_name (KElems k))) ->
  forall e', resolved env (registered r) values (RElems k e' elem).
Proof.
  intros env r k values name supported e elem R H Ty e'. unfold read_elements in H.
  apply rbind_ok in H. destruct H as [u [_ H]].
  apply rbind_ok in H. destruct H as [n [N H]]. apply lift_ok in N.
  destruct (negb (y_truthy n)) eqn:T; [discriminate H|].
  inv_rd. match goal with H : match ?o with Some _ => _ | None => _ end = ROk _ |- _ =>
    destruct o as [d|]; inv_rd end.
  match goal with L : rlookup _ _ _ = ROk (Some _) |- _ =>
    destruct (lookup_names _ _ _ _ R L) as [I M] end.
  refine (ResElems _ _ _ _ _ _ _ _ (truthy_entry _ _ _ N T) I M).
  destruct k; exact Ty.
Qed.

Lemma callback_resolved : forall env r rm k values name b d,
  reg_ok env r ->
  (forall l x dn c d, items values "members" l -> In x l -> rm x dn c = ROk d ->
    resolved env (registered r) x d) ->
  entry values "type" (Y (kind_name k)) ->
  callback env r rm k values name b = ROk d -> resolved env (registered r) values d.
Proof.
  intros env r rm k values name b d R M Ty H. destruct k; cbn [callback] in H.
  - unfold read_boolean in H. inv_rd. apply ResFixed; [exact I|exact Ty].
  - unfold read_character in H. inv_rd. apply ResFixed; [exact I|exact Ty].
  - unfold read_constant in H. destruct b; inv_rd. apply ResFixed; [exact I|exact Ty].
  - unfold read_enumeration in H. destruct b; inv_rd. apply ResFixed; [exact I|exact Ty].
  - unfold read_float in H. inv_rd. apply ResFixed; [exact I|exact Ty].
  - unfold read_format in H. destruct b; inv_rd.
    match goal with H : (if ?c then _ else _) = ROk _ |- _ => destruct c; inv_rd end;
      (apply ResFixed; [exact I|exact Ty]).
  - unfold read_integer in H. inv_rd.
    match goal with H : (if y_truthy ?c then _ else _) = ROk _ |- _ =>
      destruct (y_truthy c); inv_rd end; (apply ResFixed; [exact I|exact Ty]).
  - apply read_padding_ok in H. destruct H as [_ [_ [_ [_ [m [bo [a ->]]]]]]].
    apply ResFixed; [exact I|exact Ty].
  - destruct k; unfold read_elems in H; inv_rd;
      match goal with H : read_elements _ _ _ _ _ = ROk ?p |- _ =>
        destruct p; exact (read_elements_resolved _ _ _ _ _ _ _ _ R H Ty _) end.
  - destruct b; inv_rd. destruct x as [[[m bo] ss] ms]. inv_rd.
    apply with_members_resolved with (env := env) (prior := registered r) in E.
    + destruct E as [l [I F]]. exact (ResStructure _ _ _ _ _ _ _ _ Ty I F).
    + intros l y d0 I Hy Q. exact (M _ _ _ _ _ I Hy Q).
  - unfold read_family in H. destruct b; [discriminate H|].
    apply rbind_ok in H. destruct H as [u [_ H]].
    apply rbind_ok in H. destruct H as [n [N H]]. apply lift_ok in N.
    destruct (negb (y_truthy n)) eqn:T; [discriminate H|].
    apply rbind_ok in H. destruct H as [[base|] [L H]];
      [|exfalso; exact (raise_def_ok _ _ _ _ H)].
    apply rbind_ok in H. destruct H as [m [_ H]].
    apply rbind_ok in H. destruct H as [v [V H]]. apply lift_ok in V.
    destruct (negb (y_truthy v)) eqn:Tv; [discriminate H|].
    apply rbind_ok in H. destruct H as [l [It H]]. apply lift_ok in It.
    apply rbind_ok in H. destruct H as [ms [Ms H]]. injection H as <-.
    destruct (lookup_names _ _ _ _ R L) as [Ib Nb].
    destruct (family_members_resolved _ _ _ _ _ _ R Ms) as [ms1 [-> F]].
    refine (ResFamily _ _ _ _ _ _ _ _ Ty (truthy_entry _ _ _ N T) Ib Nb _ F).
    exists v. split; [exact (truthy_entry _ _ _ V Tv)|exact It].
  - unfold read_group in H. destruct b; [discriminate H|].
    apply rbind_ok in H. destruct H as [u [_ H]].
    apply rbind_ok in H. destruct H as [n [N H]]. apply lift_ok in N.
    destruct (negb (y_truthy n)) eqn:T; [discriminate H|].
    apply rbind_ok in H. destruct H as [[base|] [L H]];
      [|exfalso; exact (raise_def_ok _ _ _ _ H)].
    apply rbind_ok in H. destruct H as [ident [_ H]].
    destruct (negb (y_truthy ident)); [discriminate H|].
    apply rbind_ok in H. destruct H as [df [Df H]]. apply lift_ok in Df.
    apply rbind_ok in H. destruct H as [dflt [Dl H]].
    apply rbind_ok in H. destruct H as [m [_ H]].
    apply rbind_ok in H. destruct H as [v [V H]]. apply lift_ok in V.
    destruct (negb (y_truthy v)) eqn:Tv; [discriminate H|].
    apply rbind_ok in H. destruct H as [l [It H]]. apply lift_ok in It.
    apply rbind_ok in H. destruct H as [ms [Ms H]]. injection H as <-.
    destruct (lookup_names _ _ _ _ R L) as [Ib Nb].
    destruct (group_members_resolved _ _ _ _ _ _ _ R Ms) as [ms1 [-> F]].
    refine (ResGroup _ _ _ _ _ _ _ _ _ _ _ Ty (truthy_entry _ _ _ N T) Ib Nb _ _ _ F).
    + intros d0 ->. destruct (negb (y_truthy df)) eqn:Td; [discriminate Dl|].
      apply rbind_ok in Dl. destruct Dl as [[d1|] [Ld Dl]];
        [|exfalso; exact (raise_def_ok _ _ _ _ Dl)].
      injection Dl as ->. exists df. destruct (lookup_names _ _ _ _ R Ld) as [I1 I2].
      split; [exact (truthy_entry _ _ _ Df Td)|auto].
    + intros -> x Hx. destruct (negb (y_truthy df)) eqn:Td.
      * apply entry_get in Hx. rewrite Hx in Df. injection Df as ->.
        apply negb_true_iff in Td. exact Td.
      * apply rbind_ok in Dl. destruct Dl as [[d1|] [Ld Dl]]; [discriminate Dl|].
        exfalso. exact (raise_def_ok _ _ _ _ Dl).
    + exists v. split; [exact (truthy_entry _ _ _ V Tv)|exact It].
  - inv_rd. destruct x as [[[m bo] ss] ms]. inv_rd.
    apply with_members_resolved with (env := env) (prior := registered r) in E.
    + destruct E as [l [I F]]. exact (ResUnion _ _ _ _ _ _ _ _ Ty I F).
    + intros l y d0 I Hy Q. exact (M _ _ _ _ _ I Hy Q).
  - unfold read_uuid in H. inv_rd. apply ResFixed; [exact I|exact Ty].
Qed.

Lemma member_resolved : forall env r, reg_ok env r ->
  forall fuel values dname c d,
    read_member env r fuel values dname c = ROk d -> resolved env (registered r) values d.
Proof.
  intros env r R fuel. induction fuel as [|fuel IH]; intros values dname c d H;
    cbn [read_member] in H; [discriminate H|]. inv_rd.
  rename x into name, x0 into ti, x1 into dt, x2 into cond, x3 into val, x4 into vals, x5 into sup.
  destruct (negb (y_is_none ti)) eqn:Ti; inv_rd.
  - match goal with T : find_callback _ = ROk ?o |- _ => destruct o as [k|]; inv_rd;
      apply find_callback_ok in T; subst ti end.
    match goal with T : in_member _ _ = ROk _ |- _ => apply in_member_ok in T;
      apply callback_resolved in T; [rename T into Q|exact R|
        intros; eapply IH; eassumption|apply y_get_entry; [assumption|discriminate]] end.
    match goal with H : (if ?c then _ else _) = ROk _ |- _ => destruct c; inv_rd end;
      [apply ResInline|]; exact Q.
  - match goal with H : match ?o with Some _ => _ | None => _ end = ROk _ |- _ =>
      destruct o as [d0|]; inv_rd end.
    match goal with L : rlookup _ _ _ = ROk (Some _) |- _ =>
      destruct (lookup_names _ _ _ _ R L) as [Id Nd] end.
    apply ResMember; [|exact Id|exact Nd].
    apply y_get_entry; [assumption|]. intros ->. apply negb_false_iff in Ti.
    match goal with H : y_is_none YNull && _ = false |- _ =>
      rewrite Ti in H; discriminate H end.
Qed.

Lemma definition_resolved : forall env r doc d,
  reg_ok env r -> read_definition env r doc = ROk d -> resolved env (registered r) doc d.
Proof.
  intros env r doc d R H. unfold read_definition in H. inv_rd.
  match goal with T : find_callback _ = ROk ?o |- _ => destruct o as [k|]; inv_rd;
    apply find_callback_ok in T; subst end.
  apply callback_resolved in H; [exact H|exact R| |apply y_get_entry; [assumption|discriminate]].
  intros. eapply member_resolved; eassumption.
Qed.

Theorem references_resolved : forall env docs e out r,
  read_file env rreg_empty (Some (docs, e)) = (out, r) ->
  forall i d, nth_error (registered r) i = Some d ->
    exists doc, nth_error docs i = Some doc
    /\ resolved env (firstn i (registered r)) doc d.
Proof.
  intros env docs e out r H i d Hd. cbn [read_file] in H. apply read_docs_split in H.
  destruct H as [n [ds [L [R _]]]].
  apply (reads_nth env (reg_ok env) (fun prior doc d => resolved env prior doc d)) in R.
  - destruct R as [_ [E [Ln N]]]. cbn in E, N. rewrite E in Hd |- *.
    destruct (N _ _ Hd) as [doc [Q P]]. exists doc. split; [|exact P].
    rewrite <- (firstn_skipn n docs). rewrite nth_error_app1; [exact Q|].
    apply nth_error_Some. congruence.
  - intros r0 doc d0. apply definition_resolved.
  - intros r0 doc d0 r1 R0 _ G. exact (reg_ok_register _ _ _ _ R0 G).
  - apply reg_ok_empty.
Qed.

(** * Supported keys (C37) *)

Lemma supported_incl : forall a b v, incl a b -> only_keys a v -> only_keys b v.
Proof.
  intros a b v I [l [-> F]]. exists l. split; [reflexivity|].
  eapply Forall_impl; [|exact F]. intros kv [s [E H]]. exists s. auto.
Qed.

Lemma attribute_incl : forall a b v, incl a b -> attribute_keys a v -> attribute_keys b v.
Proof.
  intros a b v I A x E T. eapply supported_incl; [exact I|]. exact (A x E T).
Qed.

Lemma members_supported : forall read dname l ms ss out,
  (forall x d, In x l -> read x = ROk d -> member_supported x) ->
  read_members read dname ms ss l = ROk out -> Forall member_supported l.
Proof.
  intros read dname l. induction l as [|x l IH]; intros ms ss out R H; cbn [read_members] in H.
  - constructor.
  - apply rbind_ok in H. destruct H as [s [S H]]. apply lift_ok in S.
    destruct (y_truthy s) eqn:T.
    + constructor.
      * apply SupSection with (x := s); [|unfold falsy; change truth with y_truthy; congruence].
        apply y_get_entry; [exact S|apply y_truthy_null, T].
      * eapply IH; [|exact H]. intros y d Hy. apply R. right. exact Hy.
    + apply rbind_ok in H. destruct H as [d [E H]].
      apply rbind_ok in H. destruct H as [ms0 [M H]]. constructor.
      * apply (R x d); [left; reflexivity|exact E].
      * eapply IH; [|exact H]. intros y d' Hy. apply R. right. exact Hy.
Qed.

Lemma with_members_supported : forall read values name out,
  (forall l x d, items values "members" l -> In x l -> read x = ROk d -> member_supported x) ->
  read_with_members read values name = ROk out ->
  only_keys keys_with_members values /\ attribute_keys attrs_storage values
  /\ exists l, items values "members" l /\ Forall member_supported l.
Proof.
  intros read values name out R H. unfold read_with_members in H.
  apply rbind_ok in H. destruct H as [v [V H]]. apply lift_ok in V.
  destruct (negb (y_truthy v)) eqn:T; [discriminate H|].
  apply rbind_ok in H. destruct H as [m0 [D H]]. apply read_data_type_ok in D.
  apply rbind_ok in H. destruct H as [at0 [A H]]. apply lift_ok in A.
  apply rbind_ok in H. destruct H as [bo0 [B H]].
  apply rbind_ok in H. destruct H as [l [L H]]. apply lift_ok in L.
  apply rbind_ok in H. destruct H as [mss [M H]].
  split; [exact (proj1 D)|]. split.
  - intros a E N. apply entry_get in E. rewrite E in A. injection A as ->.
    destruct (y_truthy at0) eqn:Ta; [|exfalso; exact (N Ta)].
    apply read_byte_order_ok in B. exact (proj2 B).
  - exists l. assert (I : items values "members" l).
    { exists v. split; [exact (truthy_entry _ _ _ V T)|exact L]. }
    split; [exact I|]. eapply members_supported; [|exact M].
    intros x d Hx E. exact (R l x d I Hx E).
Qed.

Lemma in_list : forall (a : string) l, existsb (String.eqb a) l = true -> In a l.
Proof.
  intros a l H. apply existsb_exists in H. destruct H as [x [I E]].
  apply String.eqb_eq in E. congruence.
Qed.

Lemma incl_list : forall a b : list string,
  forallb (fun x => existsb (String.eqb x) b) a = true -> incl a b.
Proof.
  intros a b H x Hx. rewrite forallb_forall in H. apply in_list, H, Hx.
Qed.

Ltac sub := apply incl_list; reflexivity.

(** What a callback establishes for a document. *)
Definition doc_keys (t : string) (v : yval) : Prop :=
  only_keys (definition_keys t) v /\ attribute_keys (type_attributes t) v
  /\ (In t ["structure"; "union"]%string ->
      exists l, items v "members" l /\ Forall member_supported l)
  /\ (t = "format"%string -> forall l, items v "layout" l ->
      Forall (only_keys ["data_type"; "offset"]%string) l).

(** No attributes key at all. *)
Lemma no_attributes : forall names a v,
  only_keys names v -> ~ In "attributes"%string names -> attribute_keys a v.
Proof.
  intros names a v K N x E _. exfalso. apply N. exact (only_keys_entry _ _ _ _ K E).
Qed.

Ltac no_list :=
  split; [intros C; exfalso; cbn in C; intuition discriminate
         |intros C; exfalso; discriminate C].

Ltac not_in := cbn; intuition discriminate.

Lemma callback_document : forall env r rm k values name d,
  (forall l x dn c d, items values "members" l -> In x l -> rm x dn c = ROk d ->
    member_supported x) ->
  callback env r rm k values name false = ROk d -> doc_keys (kind_name k) values.
Proof.
  intros env r rm k values name d M H. unfold doc_keys.
  destruct k; cbn [callback] in H; cbn [kind_name].
  - unfold read_boolean in H. inv_rd. apply read_fixed_ok in E; [|apply native_size].
    destruct E as [_ [_ [K A]]].
    split; [eapply supported_incl; [|exact K]; sub|].
    split; [eapply attribute_incl; [|exact A]; sub|]. no_list.
  - unfold read_character in H. inv_rd. apply read_fixed_ok in E; [|apply native_size].
    destruct E as [_ [_ [K A]]].
    split; [eapply supported_incl; [|exact K]; sub|].
    split; [eapply attribute_incl; [|exact A]; sub|]. no_list.
  - apply read_constant_ok in H. destruct H as [_ [_ [_ K]]].
    split; [eapply supported_incl; [|exact K]; sub|].
    split; [eapply no_attributes; [exact K|not_in]|]. no_list.
  - apply read_enumeration_ok in H. destruct H as [_ [_ [_ K]]].
    split; [eapply supported_incl; [|exact K]; sub|].
    split; [eapply no_attributes; [exact K|not_in]|]. no_list.
  - unfold read_float in H. inv_rd. apply read_fixed_ok in E; [|apply native_size].
    destruct E as [_ [_ [K A]]].
    split; [eapply supported_incl; [|exact K]; sub|].
    split; [eapply attribute_incl; [|exact A]; sub|]. no_list.
  - apply read_format_ok in H. destruct H as [_ [_ [_ [K [A L]]]]].
    split; [eapply supported_incl; [|exact K]; sub|].
    split; [eapply attribute_incl; [|exact A]; sub|].
    split; [intros C; exfalso; cbn in C; intuition discriminate|]. intros _. exact L.
  - unfold read_integer in H. inv_rd. apply read_fixed_ok in E; [|apply native_size].
    destruct E as [_ [_ [K A]]].
    split; [eapply supported_incl; [|exact K]; sub|].
    split; [eapply attribute_incl; [|exact A]; sub|]. no_list.
  - apply read_padding_ok in H. destruct H as [_ [_ [C _]]]. discriminate C.
  - assert (Q : only_keys (elems_keys k false) values).
    { destruct k; unfold read_elems in H; inv_rd;
        match goal with T : read_elements _ _ _ _ _ = _ |- _ =>
          unfold read_elements in T; apply rbind_ok in T; destruct T as [[] [T _]];
          apply check_keys_ok in T; exact T end. }
    destruct k;
      (split; [eapply supported_incl; [|exact Q]; sub|]);
      (split; [eapply no_attributes; [exact Q|not_in]|]); no_list.
  - inv_rd. destruct x as [[[m bo] ss] ms]. inv_rd.
    apply with_members_supported in E; [|intros; eapply M; eassumption].
    destruct E as [K [A L]].
    split; [eapply supported_incl; [|exact K]; sub|].
    split; [eapply attribute_incl; [|exact A]; sub|].
    split; [intros _; exact L|intros C; discriminate C].
  - unfold read_family in H. apply rbind_ok in H. destruct H as [[] [K _]].
    apply check_keys_ok in K.
    split; [eapply supported_incl; [|exact K]; sub|].
    split; [eapply no_attributes; [exact K|not_in]|]. no_list.
  - unfold read_group in H. apply rbind_ok in H. destruct H as [[] [K _]].
    apply check_keys_ok in K.
    split; [eapply supported_incl; [|exact K]; sub|].
    split; [eapply no_attributes; [exact K|not_in]|]. no_list.
  - inv_rd. destruct x as [[[m bo] ss] ms]. inv_rd.
    apply with_members_supported in E; [|intros; eapply M; eassumption].
    destruct E as [K [A L]].
    split; [eapply supported_incl; [|exact K]; sub|].
    split; [eapply attribute_incl; [|exact A]; sub|].
    split; [intros _; exact L|intros C; discriminate C].
  - unfold read_uuid in H. inv_rd. apply read_fixed_ok in E;
      [|right; exists 16; split; [left; reflexivity|constructor]].
    destruct E as [_ [_ [K A]]].
    split; [eapply supported_incl; [|exact K]; sub|].
    split; [eapply attribute_incl; [|exact A]; sub|]. no_list.
Qed.

Lemma callback_member : forall env r rm k values name d,
  (forall l x dn c d, items values "members" l -> In x l -> rm x dn c = ROk d ->
    member_supported x) ->
  entry values "type" (Y (kind_name k)) ->
  callback env r rm k values name true = ROk d -> member_supported values.
Proof.
  intros env r rm k values name d M Ty H.
  assert (Fin : kind_name k <> "union"%string ->
    only_keys (member_keys (Some (kind_name k))) values -> member_supported values)
    by (intros; eapply SupInline; eassumption).
  destruct k; cbn [callback] in H; cbn [kind_name] in *.
  - unfold read_boolean in H. inv_rd. apply read_fixed_ok in E; [|apply native_size].
    destruct E as [_ [_ [K A]]].
    apply Fin; [discriminate|]. eapply supported_incl; [|exact K]; sub.
  - unfold read_character in H. inv_rd. apply read_fixed_ok in E; [|apply native_size].
    destruct E as [_ [_ [K A]]].
    apply Fin; [discriminate|]. eapply supported_incl; [|exact K]; sub.
  - discriminate H.
  - discriminate H.
  - unfold read_float in H. inv_rd. apply read_fixed_ok in E; [|apply native_size].
    destruct E as [_ [_ [K A]]].
    apply Fin; [discriminate|]. eapply supported_incl; [|exact K]; sub.
  - discriminate H.
  - unfold read_integer in H. inv_rd. apply read_fixed_ok in E; [|apply native_size].
    destruct E as [_ [_ [K A]]].
    apply Fin; [discriminate|]. eapply supported_incl; [|exact K]; sub.
  - apply read_padding_ok in H. destruct H as [_ [_ [_ [K _]]]].
    apply Fin; [discriminate|]. eapply supported_incl; [|exact K]; sub.
  - assert (Q : only_keys (elems_keys k true) values).
    { destruct k; unfold read_elems in H; inv_rd;
        match goal with T : read_elements _ _ _ _ _ = _ |- _ =>
          unfold read_elements in T; apply rbind_ok in T; destruct T as [[] [T _]];
          apply check_keys_ok in T; exact T end. }
    apply Fin; [destruct k; discriminate|].
    destruct k; (eapply supported_incl; [|exact Q]; sub).
  - discriminate H.
  - discriminate H.
  - discriminate H.
  - inv_rd. destruct x as [[[m bo] ss] ms]. inv_rd.
    apply with_members_supported in E; [|intros; eapply M; eassumption].
    destruct E as [K [A [l [It F]]]].
    eapply SupUnion; [exact Ty|eapply supported_incl; [|exact K]; sub
      |eapply attribute_incl; [|exact A]; sub|exact It|exact F].
  - unfold read_uuid in H. inv_rd. apply read_fixed_ok in E;
      [|right; exists 16; split; [left; reflexivity|constructor]].
    destruct E as [_ [_ [K A]]].
    apply Fin; [discriminate|]. eapply supported_incl; [|exact K]; sub.
Qed.

Lemma read_member_supported : forall env r fuel values dname c d,
  read_member env r fuel values dname c = ROk d -> member_supported values.
Proof.
  intros env r fuel. induction fuel as [|fuel IH]; intros values dname c d H;
    cbn [read_member] in H; [discriminate H|]. inv_rd.
  rename x into name, x0 into ti, x1 into dt, x2 into cond, x3 into val, x4 into vals, x5 into sup.
  destruct (negb (y_is_none ti)) eqn:Ti; inv_rd.
  - match goal with T : find_callback _ = ROk ?o |- _ => destruct o as [k|]; inv_rd;
      apply find_callback_ok in T; subst ti end.
    match goal with T : in_member _ _ = ROk _ |- _ => apply in_member_ok in T;
      eapply callback_member in T; [exact T|intros; eapply IH; eassumption|] end.
    apply y_get_entry; [assumption|discriminate].
  - match goal with H : match ?o with Some _ => _ | None => _ end = ROk _ |- _ =>
      destruct o as [d0|]; inv_rd end.
    match goal with T : check_keys _ _ _ = ROk ?u |- _ =>
      destruct u; apply check_keys_ok in T; rename T into K end.
    apply negb_false_iff in Ti.
    assert (N : dt <> YNull).
    { intros ->. match goal with H : y_is_none YNull && _ = false |- _ =>
        rewrite Ti in H; discriminate H end. }
    eapply SupDataType; [|exact N|eapply supported_incl; [|exact K]; sub].
    apply y_get_entry; assumption.
Qed.

Lemma definition_supported : forall env r doc d,
  read_definition env r doc = ROk d -> document_supported doc.
Proof.
  intros env r doc d H. unfold read_definition in H. inv_rd.
  match goal with T : find_callback _ = ROk ?o |- _ => destruct o as [k|]; inv_rd;
    apply find_callback_ok in T; subst end.
  apply callback_document in H; [|intros; eapply read_member_supported; eassumption].
  exists (kind_name k). split; [|exact H].
  apply y_get_entry; [assumption|discriminate].
Qed.

Theorem registered_supported : forall env r docs e out r',
  read_file env r (Some (docs, e)) = (out, r') ->
  exists n ds, registered r' = registered r ++ ds
  /\ Forall2 (fun doc d => entry doc "name" (rd_name d)) (firstn n docs) ds
  /\ Forall document_supported (firstn n docs).
Proof.
  intros env r docs e out r' H. cbn [read_file] in H. apply read_docs_split in H.
  destruct H as [n [ds [L [R _]]]]. exists n, ds.
  destruct (reads_named _ _ _ _ _ R) as [E F]. split; [exact E|]. split; [exact F|].
  clear -R. induction R as [|r doc docs0 d ds r1 r' R G H IH]; constructor; [|exact IH].
  exact (definition_supported _ _ _ _ R).
Qed.

(** A document that breaks the rules ends the reading. *)
Theorem unsupported_stops : forall env r doc rest e,
  ~ document_supported doc ->
  exists x, read_file env r (Some (doc :: rest, e)) = (Raise x, r).
Proof.
  intros env r doc rest e N. cbn [read_file read_docs].
  destruct (read_definition env r doc) as [d|[n|x]|] eqn:E.
  - exfalso. exact (N (definition_supported _ _ _ _ E)).
  - eexists. reflexivity.
  - eexists. reflexivity.
  - exfalso. exact (read_definition_total _ _ _ E).
Qed.

Theorem unresolved_stops : forall env r doc rest e prior out,
  read_file env rreg_empty (Some (prior, YEnd)) = (out, r) ->
  (forall d, ~ resolved env (registered r) doc d) ->
  exists x, read_file env r (Some (doc :: rest, e)) = (Raise x, r).
Proof.
  intros env r doc rest e prior out P N. cbn [read_file] in P. apply read_docs_split in P.
  destruct P as [n [ds [_ [R _]]]].
  apply (reads_nth env (reg_ok env) (fun _ _ _ => True)) in R;
    [|auto|intros; eapply reg_ok_register; eassumption|apply reg_ok_empty].
  destruct R as [R _]. cbn [read_file read_docs].
  destruct (read_definition env r doc) as [d|[k|x]|] eqn:E.
  - exfalso. exact (N d (definition_resolved _ _ _ _ R E)).
  - eexists. reflexivity.
  - eexists. reflexivity.
  - exfalso. exact (read_definition_total _ _ _ E).
Qed.
