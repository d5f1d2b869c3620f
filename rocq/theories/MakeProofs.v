(** Which definitions a data type map can be created for. *)
From Coq Require Import String Ascii List ZArith Bool Lia.
From Verif Require Import Base PyVal PyStruct DataTypes ClassFactory DataMaps SpecContainers SpecPrim SpecMap SpecCreate
  SpecMake ContainerProofs StructProofs CreateProofs SeqKindProofs SteadyProofs.
Import ListNotations.
Open Scope Z_scope.

Arguments Z.pow : simpl never.
Arguments Z.mul : simpl never.
Arguments Z.div : simpl never.
Arguments Z.add : simpl never.

Lemma unit_code d : unit_size d = option_map (fun c => Z.of_nat (code_size c)) (prim_code d).
Proof.
  assert (A : forall (z : Z) (k : Z), z =? k = false -> z <> k) by (intros; now apply Z.eqb_neq).
  destruct d; try reflexivity; cbn [unit_size prim_code]; try destruct unsigned;
    destruct (f_size f) as [z|]; try reflexivity; cbn [existsb]; rewrite ?orb_false_r.
  all: destruct z as [|p|p]; try reflexivity.
  all: do 4 (try (destruct p as [p|p|]; try reflexivity)).
Qed.

Lemma unit_copy n bo d : unit_size (set_name_bo n bo d) = unit_size d.
Proof. now rewrite !unit_code, prim_code_ov. Qed.

Lemma ordered_copy n bo d : ordered (set_name_bo n bo d) <-> ordered d \/ exists m b l, d = DFormat m b l.
Proof.
  unfold ordered. destruct d; cbn; split; try (intros [x H]; eauto; fail); try (intros [[x H]|(?&?&?&?)]; eauto; try discriminate; fail).
Qed.

(** ** Elements *)

Lemma expressions_ok orc e : check_expressions orc e = Ok tt <->
  readable orc (e_data_size_expr e) /\ readable orc (e_number_expr e).
Proof.
  unfold check_expressions, readable.
  assert (R : forall x, (match truthy_str x with Some s => o_parses orc s | None => true end) = true <->
     (forall s, x = Some s -> s <> EmptyString -> o_parses orc s = true)).
  { intros [[|a s]|]; cbn.
    - split; [intros _ t [= <-] N; congruence|reflexivity].
    - split; [intros H t [= <-] _; exact H|]. intros H. apply H; congruence.
    - split; [discriminate|reflexivity]. }
  destruct (match truthy_str (e_data_size_expr e) with Some s => o_parses orc s | None => true end) eqn:E1;
  destruct (match truthy_str (e_number_expr e) with Some s => o_parses orc s | None => true end) eqn:E2; cbn;
  rewrite <- !R, E1, E2; intuition congruence.
Qed.

Lemma expressions_cases orc e : check_expressions orc e = Ok tt \/ check_expressions orc e = Raise SyntaxError.
Proof. unfold check_expressions. destruct (_ && _); auto. Qed.

Lemma seq_linear_spec e ed : sequence_is_linear e ed = true <-> seq_one_go e ed.
Proof.
  unfold sequence_is_linear, seq_one_go. rewrite negb_true_iff, !orb_false_iff.
  assert (S : forall {A} (o : option A), is_some o = false <-> o = None) by (intros A [a|]; cbn; intuition congruence).
  rewrite !S. tauto.
Qed.

Lemma make_one en n c : (exists o, make_op en [(n, c)] = Ok o) <-> 0 <= n /\ n * Z.of_nat (code_size c) < 2 ^ 63.
Proof.
  unfold make_op. cbn [forallb op_size op_tokens fold_right]. rewrite andb_true_r.
  destruct (Z.leb_spec 0 n); destruct (Z.leb_spec (n * Z.of_nat (code_size c) + 0) (2 ^ 63 - 1)); cbn;
    split; try (intros [o H']; discriminate); try (intros; exfalso; lia); try (intros _; split; lia).
  intros _. eauto.
Qed.

Lemma ok_none_ex {A} (x : A) (P : Prop) : P -> ((exists o, Ok x = Ok o) <-> P).
Proof. intros H. split; eauto. Qed.

Lemma raise_ex {A} e (P : Prop) : ~ P -> ((exists o : A, Raise e = Ok o) <-> P).
Proof. intros H. split; [intros [o X]; discriminate|tauto]. Qed.

(** The element map of a sequence that is read in one go. *)
Lemma sequence_op_ok orc e ed em :
  is_composite ed = false -> ordered ed -> create orc ed None = Ok em ->
  (forall n, e_data_size e = Some n -> 0 < n) -> (forall n, e_number e = Some n -> 0 < n) ->
  sound ed ->
  ((exists o, sequence_op orc e ed em = Ok o) <-> seq_one_go_fits e ed).
Proof.
  intros NC [bo OB] C PS PN SD.
  assert (T : forall d o, create orc ed None = Ok (Some (MPrim d o)) -> prim_code d = prim_code ed /\ ordered d /\ is_padding ed = false /\
     forall n, get_byte_size ed = Some n -> 0 < n).
  { intros d o X. destruct ed; cbn in X; try discriminate; unfold ordered;
      repeat match type of X with
      | match ?x with _ => _ end = _ => destruct x; try discriminate
      | bind ?r _ = _ => apply bind_ok in X; destruct X as (? & ? & X)
      end; inversion X; subst; destruct SD as [SD _]; cbn; eauto. }
  assert (K : forall d o, em = Some (MPrim d o) ->
     ((exists o, sequence_op orc e ed em = Ok o) <-> seq_one_go_fits e ed)).
  { intros d o ->. destruct (T _ _ C) as (PC & [b' OB'] & NP & PB). unfold sequence_op. cbn [map_endian]. rewrite OB'. cbn [bind].
    unfold sequence_tokens, map_tokens, seq_one_go_fits. rewrite unit_code, PC. cbn [bind].
    destruct (e_data_size e) as [s|] eqn:ES.
    - assert (0 < s) by auto. cbn [truthy_Z]. destruct (Z.eqb_spec s 0); [lia|]. cbn match.
      destruct (get_byte_size ed) as [b|] eqn:EB; cbn [bind].
      + assert (0 < b) by auto. destruct (Z.eqb_spec b 0); [lia|]. cbn [truthy_Z].
        destruct (prim_code ed) as [c|] eqn:EC; cbn [option_map].
        * destruct (Z.eqb_spec (s / b) 0) as [Q|Q]; cbn [bind].
          -- apply ok_none_ex. split; auto. intros b0 [= <-]. split; [congruence|]. intros s0 b1 [= <-] [= <-]. rewrite Q. change (0 * Z.of_nat (code_size c)) with 0. reflexivity.
          -- assert (0 <= s / b) by (apply Z.div_pos; lia).
             transitivity (exists o0, make_op (resolve orc b') [(s / b, c)] = Ok o0).
             { destruct (make_op (resolve orc b') [(s / b, c)]) as [o1|x|]; cbn; split; intros [y Y]; try discriminate; eauto. }
             rewrite make_one. split.
             ++ intros [_ H2]. split; auto. intros b0 [= <-]. split; [congruence|]. intros s0 b1 [= <-] [= <-]. exact H2.
             ++ intros [_ H2]. split; auto. destruct (H2 _ eq_refl) as [_ H3]. exact (H3 _ _ eq_refl eq_refl).
        * replace (match (if s / b =? 0 then None else Some (s / b)) with Some _ | _ => Ok None end)
            with (@Ok (option (list (Z * fcode))) None) by (destruct (s / b =? 0); reflexivity).
          cbn. apply ok_none_ex. split; auto. discriminate.
      + apply ok_none_ex. split; auto. intros b0 _. split; congruence.
    - cbn [truthy_Z]. destruct (e_number e) as [n|] eqn:EN; cbn [truthy_Z].
      + assert (0 < n) by auto. destruct (Z.eqb_spec n 0); [lia|].
        destruct (prim_code ed) as [c|] eqn:EC; cbn [option_map bind].
        * transitivity (exists o0, make_op (resolve orc b') [(n, c)] = Ok o0).
          { destruct (make_op (resolve orc b') [(n, c)]) as [o1|x|]; cbn; split; intros [y Y]; try discriminate; eauto. }
          rewrite make_one. split.
          -- intros [_ H2]. split; auto. intros b0 [= <-]. split; [|congruence]. intros n1 _ [= <-]. exact H2.
          -- intros [_ H2]. split; [lia|]. destruct (H2 _ eq_refl) as [H3 _]. exact (H3 _ eq_refl eq_refl).
        * apply ok_none_ex. split; auto. discriminate.
      + cbn. apply ok_none_ex. split; auto. intros b0 _. split; congruence. }
  destruct ed; try discriminate NC; try discriminate OB; cbn in C;
    repeat match type of C with
      | match ?x with _ => _ end = _ => destruct x eqn:?; try discriminate
      | bind ?r _ = _ => apply bind_ok in C; destruct C as (? & ? & C)
      end; inversion C; subst; try (eapply K; reflexivity).
  - (* padding *) cbn. apply raise_ex. intros [H _]. discriminate.
  - (* member *) cbn. apply ok_none_ex. split; auto. discriminate.
Qed.

(** ** Structures *)

Lemma member_override_ok sname sbo d :
  (exists ov, member_override sname sbo d = Ok ov) <-> sbo = BONative \/ ordered d.
Proof.
  unfold member_override, ordered. destruct sbo; cbn; [split; eauto| |];
    (destruct (dt_byte_order d) as [b|]; [destruct b; cbn; split; eauto|]);
    (split; [intros [ov H]; discriminate|intros [H|[b H]]; discriminate]).
Qed.

Lemma member_maps_ok orc sname sbo all ms : distinct_types sname sbo all ->
  (forall m, In m ms -> In m all) -> forall cache,
  (forall k mp, dict_get k cache = Some mp -> exists m, In m all /\
     dt_name (used_type sname sbo m) = k /\ create orc (used_type sname sbo m) None = Ok mp) ->
  ((exists attrs, member_maps sname sbo (map (fun m => (m, inner_maker orc m)) ms) cache = Ok attrs) <->
   forall m, In m ms -> (sbo = BONative \/ ordered (type_of m)) /\
     exists r, create orc (used_type sname sbo m) None = Ok r).
Proof.
  intros D. induction ms as [|m ms IH]; intros HI cache HC; cbn [map member_maps].
  - split; [intros _ m []|eauto].
  - rewrite unwrap_type.
    assert (HI' : forall m, In m ms -> In m all) by (intros x Hx; apply HI; now right).
    assert (Im : In m all) by (apply HI; now left).
    destruct (member_override sname sbo (type_of m)) as [ov|e|] eqn:Ho; cbn [bind].
    + rewrite (ov_name_used _ _ _ _ Ho).
      assert (O1 : sbo = BONative \/ ordered (type_of m)) by (apply (member_override_ok sname); eauto).
      destruct (dict_get (dt_name (used_type sname sbo m)) cache) as [mp|] eqn:G.
      * destruct (HC _ _ G) as (m' & I' & N' & C'). assert (used_type sname sbo m' = used_type sname sbo m) as Q by (apply D; auto).
        specialize (IH HI' cache HC). split.
        -- intros [attrs H]. apply bind_ok in H. destruct H as (rest & R & H).
           intros x [<-|Hx]; [split; auto; rewrite <- Q; eauto|]. apply IH; eauto.
        -- intros H. destruct (proj2 IH) as [rest R]; [intros x Hx; apply H; now right|]. rewrite R. cbn. eauto.
      * rewrite (maker_used _ _ _ _ _ Ho). split.
        -- intros [attrs H]. apply bind_ok in H. destruct H as (mp & M & H). apply bind_ok in H. destruct H as (rest & R & H).
           intros x [<-|Hx]; [eauto|]. refine (proj1 (IH HI' (dict_set (dt_name (used_type sname sbo m)) mp cache) _) _ x Hx); [|eauto].
           intros k mp' Hk. rewrite dict_get_set in Hk. destruct (String.eqb_spec k (dt_name (used_type sname sbo m))); auto.
           inversion Hk; subst. eauto.
        -- intros H. destruct (H m (or_introl eq_refl)) as [_ [mp M]]. rewrite M. cbn [bind].
           destruct (proj2 (IH HI' (dict_set (dt_name (used_type sname sbo m)) mp cache)
             ltac:(intros k mp' Hk; rewrite dict_get_set in Hk; destruct (String.eqb_spec k (dt_name (used_type sname sbo m))); auto;
                   inversion Hk; subst; eauto))) as [rest R].
           { intros x Hx. apply H. now right. }
           rewrite R. cbn. eauto.
    + split; [intros [x X]; discriminate|]. intros H. destruct (H m (or_introl eq_refl)) as [O _].
      apply (member_override_ok sname) in O. destruct O as [ov O]. congruence.
    + split; [intros [x X]; discriminate|]. intros H. destruct (H m (or_introl eq_refl)) as [O _].
      apply (member_override_ok sname) in O. destruct O as [ov O]. congruence.
Qed.

Lemma check_linear_spec ms : Forall ordered ms -> forall last,
  (check_linear last ms = Ok true /\ one_go last ms) \/ (check_linear last ms = Ok false /\ ~ one_go last ms).
Proof.
  induction 1 as [|m ms [b Hb] _ IH]; intros last; cbn [check_linear one_go]; [auto|].
  destruct (is_composite m); cbn [orb]; [right; split; auto; intros [X _]; discriminate|].
  destruct (is_padding m); [right; split; auto; intros (_ & X & _); discriminate|].
  rewrite Hb. destruct (negb (is_native last) && negb (is_native b) && negb (bo_eqb last b)) eqn:E.
  - right. split; auto. intros (_ & _ & H). destruct (H b eq_refl) as [O _]. destruct last, b; cbn in E; intuition congruence.
  - assert (O : last = BONative \/ b = BONative \/ last = b) by (destruct last, b; cbn in E; auto; discriminate).
    destruct (IH b) as [[C G]|[C G]]; rewrite C; [left|right]; split; auto.
    + repeat split; auto; congruence.
    + intros (_ & _ & H). destruct (H b eq_refl) as [_ H']. tauto.
Qed.

(** The tokens of one member of a structure that is read in one go. *)
Lemma member_tokens orc sname bo m r : is_composite m = false ->
  create orc (used_type sname bo m) None = Ok r ->
  (semantic (type_of m) /\ exists x, r = Some x /\ map_tokens x = Raise AttributeError) \/
  (~ semantic (type_of m) /\ unit_size (type_of m) = None /\ (r = None \/ exists x, r = Some x /\ map_tokens x = Ok None)) \/
  (~ semantic (type_of m) /\ exists x c, r = Some x /\ map_tokens x = Ok (Some [(1, c)]) /\ unit_size (type_of m) = Some (Z.of_nat (code_size c))).
Proof.
  intros NC C.
  destruct (used_as_ov sname bo m) as [ov U]. destruct (U orc) as [U1 U2]. rewrite U1 in C. clear U U1.
  assert (NC' : is_composite (type_of m) = false).
  { destruct m; auto. cbn in NC. apply orb_false_iff in NC. apply NC. }
  assert (P : forall d o, r = Some (MPrim d o) -> prim_code d = prim_code (type_of m) -> ~ semantic (type_of m) ->
    (~ semantic (type_of m) /\ unit_size (type_of m) = None /\ (r = None \/ exists x, r = Some x /\ map_tokens x = Ok None)) \/
    (~ semantic (type_of m) /\ exists x c, r = Some x /\ map_tokens x = Ok (Some [(1, c)]) /\ unit_size (type_of m) = Some (Z.of_nat (code_size c)))).
  { intros d o -> Q S. rewrite unit_code. destruct (prim_code (type_of m)) as [c|] eqn:E.
    - right. split; auto. exists (MPrim d o), c. cbn. rewrite Q. auto.
    - left. split; auto. split; auto. right. exists (MPrim d o). cbn. rewrite Q. auto. }
  assert (V : forall d, prim_code (apply_ov ov d) = prim_code d) by (intros d; destruct ov as [[? ?]|]; [apply prim_code_ov|reflexivity]).
  destruct (type_of m); try discriminate NC'; cbn [create] in C;
    repeat match type of C with
      | match ?x with _ => _ end = _ => destruct x eqn:?; try discriminate
      | bind ?r _ = _ => apply bind_ok in C; destruct C as (? & ? & C)
      end; inversion C; subst;
    try (right; eapply P; [reflexivity|apply V|cbn; tauto]).
  - right. left. split; [cbn; tauto|]. split; [reflexivity|]. right. eexists. split; reflexivity.
  - right. left. split; [cbn; tauto|]. split; [reflexivity|]. auto.
  - left. split; [exact I|]. eexists. split; reflexivity.
  - left. split; [exact I|]. eexists. split; reflexivity.
Qed.

Lemma struct_tokens_ok orc sname bo ms attrs :
  Forall (fun m => is_composite m = false) ms ->
  Forall2 (fun m a => create orc (used_type sname bo m) None = Ok (snd a)) ms attrs ->
  match struct_tokens attrs with
  | Ok None => exists before m after, ms = before ++ m :: after /\ unit_size (type_of m) = None /\
       Forall (fun x => ~ semantic (type_of x)) (before ++ [m]) /\ Forall (fun x => unit_size (type_of x) <> None) before
  | Ok (Some t) => exists cs, t = map (fun c => (1, c)) cs /\
       Forall2 (fun m c => ~ semantic (type_of m) /\ unit_size (type_of m) = Some (Z.of_nat (code_size c))) ms cs
  | Raise _ | OutOfFuel => exists before m after, ms = before ++ m :: after /\ semantic (type_of m) /\
       Forall (fun x => unit_size (type_of x) <> None) before
  end.
Proof.
  intros NC F. induction F as [|m [n r] ms attrs C F IH]; cbn [struct_tokens].
  - exists []. split; [reflexivity|constructor].
  - inversion NC; subst. specialize (IH H2). cbn [snd] in C.
    destruct (member_tokens orc sname bo m r H1 C) as [(S & x & -> & T)|[(S & U & [->|(x & -> & T)])|(S & x & c & -> & T & U)]].
    + rewrite T. cbn. exists [], m, ms. auto.
    + exists [], m, ms. repeat split; auto. constructor; auto.
    + rewrite T. cbn. exists [], m, ms. repeat split; auto. constructor; auto.
    + rewrite T. cbn [bind]. destruct (struct_tokens attrs) as [[t|]|e|]; cbn [bind].
      * destruct IH as (cs & -> & G). exists (c :: cs). split; [reflexivity|]. constructor; auto.
      * destruct IH as (b & y & a & -> & V1 & V2 & V3). exists (m :: b), y, a. repeat split; auto; constructor; auto; congruence.
      * destruct IH as (b & y & a & -> & V1 & V2). exists (m :: b), y, a. repeat split; auto; constructor; auto; congruence.
      * destruct IH as (b & y & a & -> & V1 & V2). exists (m :: b), y, a. repeat split; auto; constructor; auto; congruence.
Qed.

Lemma make_ones en cs : (exists o, make_op en (map (fun c => (1, c)) cs) = Ok o) <->
  fold_right Z.add 0 (map (fun c => Z.of_nat (code_size c)) cs) < 2 ^ 63.
Proof.
  unfold make_op, op_size. cbn [op_tokens].
  assert (A : forallb (fun '(n, _) => 0 <=? n) (map (fun c => (1, c)) cs) = true) by (induction cs; cbn; auto).
  assert (B : fold_right (fun '(n, c) a => n * Z.of_nat (code_size c) + a) 0 (map (fun c => (1, c)) cs) =
    fold_right Z.add 0 (map (fun c => Z.of_nat (code_size c)) cs)).
  { induction cs; cbn [map fold_right]; auto. cbn [map fold_right forallb] in A. rewrite IHcs by exact A. lia. }
  rewrite A, B. cbn [andb]. destruct (Z.leb_spec (fold_right Z.add 0 (map (fun c => Z.of_nat (code_size c)) cs)) (2 ^ 63 - 1)).
  - split; [lia|eauto].
  - split; [intros [o X]; discriminate|lia].
Qed.

Lemma struct_op_ok orc sname bo ms attrs : ms <> [] ->
  Forall (fun m => is_composite m = false) ms ->
  Forall2 (fun m a => create orc (used_type sname bo m) None = Ok (snd a)) ms attrs ->
  ((exists o, struct_op orc bo attrs = Ok o) <-> one_go_fits ms).
Proof.
  intros NE NC F. pose proof (struct_tokens_ok orc sname bo ms attrs NC F) as T. unfold struct_op.
  destruct (struct_tokens attrs) as [[t|]|e|]; cbn [bind].
  - destruct T as (cs & -> & G).
    assert (S : forall sizes, Forall2 (fun m n => unit_size (type_of m) = Some n) ms sizes <->
       sizes = map (fun c => Z.of_nat (code_size c)) cs).
    { clear - G. induction G as [|m c ms cs [_ U] G IH]; intros sizes; split.
      - intros X; inversion X; reflexivity.
      - intros ->. constructor.
      - intros X; inversion X; subst. cbn. f_equal; [congruence|]. now apply IH.
      - intros ->. constructor; auto. now apply IH. }
    transitivity (exists o, make_op (resolve orc bo) (map (fun c => (1, c)) cs) = Ok o).
    { destruct cs as [|c cs]; [inversion G; congruence|]. cbn [map]. 
      destruct (make_op (resolve orc bo) _) as [o1|x|]; cbn; split; intros [y Y]; try discriminate; eauto. }
    rewrite make_ones. split.
    + intros L. split; [|intros sizes X; apply S in X; subst; exact L].
      intros b m a E Sm. exfalso. clear - G E Sm. revert b E. induction G as [|x c ms cs [N _] G IH]; intros b E.
      * destruct b; discriminate.
      * destruct b as [|y b]; cbn in E; inversion E; subst; [tauto|]. eapply IH; eauto.
    + intros [_ H]. apply H. now apply S.
  - apply ok_none_ex. destruct T as (b & m & a & -> & U & N & V). split.
    + intros b' m' a' E S.
      destruct (list_split _ _ _ _ _ _ E) as [(-> & -> & ->)|[[t ->]|[t ->]]].
      * exfalso. apply Forall_app in N. destruct N as [_ N]. inversion N; tauto.
      * exists m. split; auto. apply in_or_app. right. now left.
      * exfalso. rewrite Forall_forall in N. apply (N m'); auto. rewrite <- app_assoc. apply in_or_app. right. now left.
    + intros sizes X. exfalso. apply Forall2_app_inv_l in X. destruct X as (l1 & l2 & _ & X & _). inversion X; congruence.
  - apply raise_ex. intros [H _]. destruct T as (b & m & a & -> & S & V). destruct (H b m a eq_refl S) as (x & I & U).
    rewrite Forall_forall in V. exact (V x I U).
  - destruct T as (b & m & a & -> & S & V). split; [intros [o X]; discriminate|]. intros [H _].
    destruct (H b m a eq_refl S) as (x & I & U). rewrite Forall_forall in V. exfalso. exact (V x I U).
Qed.

Lemma one_go_plain last ms : Forall ordered ms -> one_go last ms -> Forall (fun m => is_composite m = false) ms.
Proof.
  intros O. revert last. induction O as [|m ms [b Hb] _ IH]; intros last G; constructor; cbn in G; [tauto|].
  destruct G as (_ & _ & G). destruct (G b Hb) as [_ G']. eauto.
Qed.

Lemma Forall2_in_impl {A B} (P Q : A -> B -> Prop) l l' : Forall2 P l l' ->
  (forall a b, In a l -> P a b -> Q a b) -> Forall2 Q l l'.
Proof. induction 1; intros K; constructor; [apply K; [now left|assumption]|]. apply IHForall2. intros; apply K; auto. now right. Qed.

Lemma structure_ok orc name bo d ms : distinct_types name bo ms -> Forall ordered ms ->
  ((exists r, create_structure orc name bo d (map (fun m => (m, inner_maker orc m)) ms) = Ok r) <->
   (assignable name /\ ms <> [] /\ Forall SpecContainers.usable (map dt_name ms) /\
    Forall (fun n => forall r, n <> String "_"%char r) (map dt_name ms) /\
    NoDup (map dt_name ms) /\ Forall describable ms /\ ~ In "self"%string (map dt_name ms)) /\
   (forall m, In m ms -> (bo = BONative \/ ordered (type_of m)) /\
      exists r, create orc (used_type name bo m) None = Ok r) /\
   (one_go bo ms -> one_go_fits ms)).
Proof.
  intros D O. unfold create_structure. rewrite map_fst_pair'.
  destruct (class_created name ms) as (CC & CR & _). cbv zeta in CC.
  assert (NE : map dt_name ms <> [] <-> ms <> []) by (destruct ms; cbn; intuition congruence).
  rewrite NE in CC. rewrite <- CC. clear NE.
  destruct (create_class name ms) as [cls|e|] eqn:K; cbn [bind].
  2,3: split; [intros [x X]; discriminate|intros [X _]; discriminate].
  pose proof (member_maps_ok orc name bo ms ms D (fun m H => H) [] ltac:(cbn; discriminate)) as M.
  pose proof (create_class_shape _ _ _ K) as (-> & NE & ND).
  rewrite <- M. destruct (member_maps name bo _ []) as [attrs|e|] eqn:A; cbn [bind].
  2,3: split; [intros [x X]; discriminate|intros (_ & [x X] & _); discriminate].
  assert (F : Forall2 (fun m a => create orc (used_type name bo m) None = Ok (snd a)) ms attrs).
  { pose proof (member_maps_spec orc name bo ms ms [] attrs ltac:(cbn; discriminate) (fun m H => H) A) as F.
    refine (Forall2_in_impl _ _ _ _ F _). cbn. intros m a I (N & m' & I' & Q & C). rewrite <- (D m' m); auto. }
  destruct (check_linear_spec ms O bo) as [[L G]|[L G]]; rewrite L; cbn [bind].
  - rewrite <- (struct_op_ok orc name bo ms attrs NE (one_go_plain _ _ O G) F).
    destruct (struct_op orc bo attrs) as [o|e|]; cbn [bind].
    + split; [|eauto]. intros _. repeat split; eauto.
    + split; [intros [x X]; discriminate|]. intros (_ & _ & H). destruct (H G) as [o X]; discriminate.
    + split; [intros [x X]; discriminate|]. intros (_ & _ & H). destruct (H G) as [o X]; discriminate.
  - split; [|eauto]. intros _. repeat split; eauto; tauto.
Qed.

(** ** Groups *)

Lemma identifies_ok i x vs : shaped x -> (group_member_values i x = Ok vs <-> identifies i x vs).
Proof.
  intros SH.
  assert (L : forall ms, NoDup (map dt_name ms) ->
    ((match find_member i ms with
      | None => Raise FormatError
      | Some (DMember _ _ _ _ (Some vs) _) => Ok vs
      | Some (DMember _ _ _ _ None _) => Raise FormatError
      | Some _ => Raise AttributeError
      end) = Ok vs <-> exists m bo' cond ty inner, In (DMember m bo' cond ty (Some vs) inner) ms /\ m_name m = i)).
  { intros ms ND. unfold find_member. split.
    - destruct (find _ ms) as [y|] eqn:F; [|discriminate]. apply find_some in F. destruct F as [I E]. apply String.eqb_eq in E.
      destruct y; try discriminate. destruct values as [vs'|]; [|discriminate]. intros [= <-]. do 5 eexists. split; eauto.
    - intros (m & bo' & cond & ty & inner & I & E).
      assert (F : find (fun d => String.eqb (dt_name d) i) ms = Some (DMember m bo' cond ty (Some vs) inner)); [|rewrite F; reflexivity].
      clear SH. induction ms as [|y ms IH]; [destruct I|]. cbn [find map] in *. inversion ND as [|? ? N1 N2]; subst.
      destruct I as [->|I].
      + replace (String.eqb (dt_name (DMember m bo' cond ty (Some vs) inner)) (m_name m)) with true; auto. symmetry. apply String.eqb_refl.
      + destruct (String.eqb_spec (dt_name y) (m_name m)) as [Q|Q]; [|now apply IH].
        exfalso. apply N1. rewrite Q. apply in_map_iff. eexists. split; [|exact I]. reflexivity. }
  unfold identifies, lists. destruct x; cbn [group_member_values]; try (split; [discriminate|]; intros (?&?&?&?&?&?&?&?&[X|X]&_); discriminate).
  - rewrite L by apply SH. split.
    + intros (m0 & bo' & c & t & inn & I & E). do 8 eexists. split; [left; reflexivity|]. eauto.
    + intros (mt & b & l & m0 & bo' & c & t & inn & [X|X] & I & E); inversion X; subst. do 5 eexists. eauto.
  - rewrite L by apply SH. split.
    + intros (m0 & bo' & c & t & inn & I & E). do 8 eexists. split; [right; reflexivity|]. eauto.
    + intros (mt & b & l & m0 & bo' & c & t & inn & [X|X] & I & E); inversion X; subst. do 5 eexists. eauto.
Qed.

Lemma fop_app {A} (R : A -> A -> Prop) l1 l2 : ForallOrdPairs R (l1 ++ l2) <->
  ForallOrdPairs R l1 /\ ForallOrdPairs R l2 /\ forall a b, In a l1 -> In b l2 -> R a b.
Proof.
  induction l1 as [|x l1 IH]; cbn.
  - split; [intros H; repeat split; auto; [constructor|intros a b []]|tauto].
  - split.
    + intros H. inversion H as [|? ? F G]; subst. apply IH in G. destruct G as (G1 & G2 & G3). apply Forall_app in F. destruct F as [F1 F2].
      repeat split; auto; [constructor; auto|]. intros a b [<-|I] J; auto. rewrite Forall_forall in F2. auto.
    + intros (H1 & H2 & H3). inversion H1; subst. constructor.
      * apply Forall_app. split; auto. apply Forall_forall. intros b J. apply H3; auto.
      * apply IH. repeat split; auto.
Qed.

Lemma val_get_none {A} v (acc : list (pyval * A)) : val_get v acc = None <-> Forall (fun k => py_eq v k = false) (map fst acc).
Proof.
  unfold val_get. induction acc as [|[k a] acc IH]; cbn [find map fst]; [split; auto|].
  destruct (py_eq v k) eqn:E.
  - split; [discriminate|]. intros H; inversion H; congruence.
  - rewrite IH. split; [intros; constructor; auto|intros H; inversion H; auto].
Qed.

Lemma group_values_ok vs (mk : maker) : forall acc, all_different (map fst acc) ->
  ((exists out, group_values vs mk acc = Ok out) <->
   all_different (map fst acc ++ vs) /\ (vs <> [] -> exists r, mk None = Ok r)) /\
  (forall out, group_values vs mk acc = Ok out -> map fst out = map fst acc ++ vs).
Proof.
  unfold all_different. induction vs as [|v vs IH]; intros acc AD; cbn [group_values].
  - rewrite app_nil_r. split; [|congruence]. apply ok_none_ex. split; auto. congruence.
  - destruct (val_get v acc) as [x|] eqn:G.
    + split; [|discriminate]. apply raise_ex. intros [H _]. apply fop_app in H. destruct H as (_ & _ & H).
      assert (val_get v acc = None); [|congruence]. apply val_get_none. apply Forall_forall. intros k I. apply H; auto. now left.
    + apply val_get_none in G. destruct (mk None) as [r|e|]; cbn [bind].
      * assert (AD' : ForallOrdPairs (fun a b => py_eq b a = false) (map fst (acc ++ [(v, r)]))).
        { rewrite map_app. apply fop_app. split; auto. split; [constructor; constructor|]. cbn. intros a b I [<-|[]].
          rewrite Forall_forall in G. auto. }
        destruct (IH (acc ++ [(v, r)]) AD') as [A B]. rewrite map_app in A, B. cbn [map fst] in A, B. split.
        -- rewrite A. rewrite <- app_assoc. cbn [app]. split; intros [H1 H2]; split; eauto.
        -- intros out H. rewrite (B out H), <- app_assoc. reflexivity.
      * split; [|discriminate]. apply raise_ex. intros [_ H]. destruct H; discriminate.
      * split; [|discriminate]. split; [intros [x X]; discriminate|]. intros [_ H]. destruct H; discriminate.
Qed.

Lemma group_maps_ok i (mk : dtype -> maker) ms : Forall shaped ms -> forall acc, all_different (map fst acc) ->
  ((exists out, group_maps i (map (fun m => (m, mk m)) ms) acc = Ok out) <->
   exists vss, Forall2 (identifies i) ms vss /\ all_different (map fst acc ++ concat vss) /\
     Forall2 (fun d vs => vs <> [] -> exists r, mk d None = Ok r) ms vss).
Proof.
  induction 1 as [|m ms S _ IH]; intros acc AD; cbn [map group_maps].
  - apply ok_none_ex. exists []. cbn. rewrite app_nil_r. auto.
  - destruct (group_member_values i m) as [vs|e|] eqn:V; cbn [bind].
    + destruct (group_values_ok vs (mk m) acc AD) as [A B].
      destruct (group_values vs (mk m) acc) as [acc'|e|] eqn:G; cbn [bind].
      * specialize (B _ eq_refl). destruct (proj1 A ltac:(eauto)) as [A1 A2].
        rewrite (IH acc') by (rewrite B; exact A1). rewrite B. split.
        -- intros (vss & F1 & F2 & F3). exists (vs :: vss). cbn [concat]. rewrite app_assoc.
           split; [constructor; auto; now apply identifies_ok|]. split; auto.
        -- intros (vss' & F1 & F2 & F3). inversion F1 as [|? vs' ? vss I1 I2]; subst. inversion F3; subst. exists vss.
           assert (vs' = vs) by (apply identifies_ok in I1; [congruence|exact S]). subst vs'.
           cbn [concat] in F2. rewrite app_assoc in F2. auto.
      * apply raise_ex. intros (vss' & F1 & F2 & F3). inversion F1 as [|? vs' ? vss I1 I2]; subst. inversion F3; subst.
        assert (vs' = vs) by (apply identifies_ok in I1; [congruence|exact S]). subst vs'.
        cbn [concat] in F2. rewrite app_assoc in F2. unfold all_different in *. apply fop_app in F2.
        destruct A as [_ A]. destruct A; [tauto|discriminate].
      * split; [intros [x X]; discriminate|]. intros (vss' & F1 & F2 & F3). inversion F1 as [|? vs' ? vss I1 I2]; subst. inversion F3; subst.
        assert (vs' = vs) by (apply identifies_ok in I1; [congruence|exact S]). subst vs'.
        cbn [concat] in F2. rewrite app_assoc in F2. unfold all_different in *. apply fop_app in F2.
        destruct A as [_ A]. destruct A; [tauto|discriminate].
    + apply raise_ex. intros (vss' & F1 & _). inversion F1 as [|? vs' ? vss I1 I2]; subst. apply identifies_ok in I1; [congruence|exact S].
    + split; [intros [x X]; discriminate|]. intros (vss' & F1 & _). inversion F1 as [|? vs' ? vss I1 I2]; subst.
      apply identifies_ok in I1; [congruence|exact S].
Qed.

(** ** All definitions *)

Lemma apply_elems ov k e el : apply_ov ov (DElems k e el) = DElems k (elems_of ov e) el.
Proof. destruct ov as [[n bo]|]; reflexivity. Qed.

Lemma element_override_ok e el : (exists ov, element_override e el = Ok ov) <-> ordered el.
Proof.
  unfold element_override, ordered. destruct (dt_byte_order el) as [b|].
  - destruct (_ && _); split; eauto.
  - split; intros [x X]; discriminate.
Qed.

Lemma ok_iff {A B C} (r : res A) (k : A -> res B) (P : A -> Prop) (Q : Prop) (f : C) :
  (forall a, r = Ok a -> ((exists b, k a = Ok b) <-> P a)) -> ((exists a, r = Ok a /\ P a) <-> Q) ->
  ((exists b, bind r k = Ok b) <-> Q).
Proof.
  intros H1 <-. split.
  - intros [b H]. apply bind_ok in H. destruct H as (a & E & H). exists a. split; auto. apply H1; eauto.
  - intros (a & E & H). apply H1 in H; auto. destruct H as [b H]. exists b. rewrite E. exact H.
Qed.

Lemma prim_op_ok orc d bo : exists o, prim_op orc d bo = Ok o.
Proof.
  unfold prim_op. destruct (prim_code d) as [c|]; [|eauto].
  destruct (proj2 (make_one (resolve orc bo) 1 c)) as [o E]; [|rewrite E; cbn; eauto].
  split; [lia|]. destruct c; cbn; reflexivity.
Qed.

Lemma mappable_elems orc k e el : mappable orc (DElems k e el) ->
  ordered el /\ mappable orc (element_type e el) /\ readable orc (e_data_size_expr e) /\ readable orc (e_number_expr e) /\
  match k with
  | KSequence => seq_one_go e el -> seq_one_go_fits e el
  | KStream | KString => is_composite el = false
  end.
Proof. intros M. inversion M; subst. auto. Qed.

Lemma mappable_group orc m bo base i default ms : mappable orc (DGroup m bo base i default ms) ->
  (forall d, default = Some d -> mappable orc d) /\ mappable orc base /\ ms <> [] /\
  exists vss, Forall2 (identifies i) ms vss /\ all_different (concat vss) /\
    Forall2 (fun d (vs : list pyval) => vs <> [] -> mappable orc d) ms vss.
Proof. intros M. inversion M; subst. repeat (split; auto). eauto. Qed.

Theorem creation orc d : forall ov, everywhere sound d -> everywhere shaped d ->
  ((exists r, create orc d ov = Ok r) <-> mappable orc (apply_ov ov d)).
Proof.
  induction d as [d IH] using dtype_ind_type. intros ov SO SH.
  assert (MP : forall f, match d with DCharacter _ | DFloat _ | DInteger _ _ => True | _ => False end ->
    dt_byte_order d = Some (f_bo f) ->
    create orc d ov = bind (prim_op orc d (ov_bo ov (f_bo f))) (fun o => Ok (Some (MPrim (apply_ov ov d) o))) ->
    exists r, create orc d ov = Ok r).
  { intros f _ _ E. destruct (prim_op_ok orc d (ov_bo ov (f_bo f))) as [o P]. rewrite E, P. cbn. eauto. }
  assert (YES : (exists r, create orc d ov = Ok r) -> mappable orc (apply_ov ov d) ->
     ((exists r, create orc d ov = Ok r) <-> mappable orc (apply_ov ov d))) by tauto.
  destruct d.
  - (* boolean *) cbn [create]. destruct (prim_op_ok orc (DBoolean f false_value true_value) (ov_bo ov (f_bo f))) as [o P]. rewrite P. cbn [bind].
    assert (Q : mappable orc (apply_ov ov (DBoolean f false_value true_value)) <-> false_value <> None \/ true_value <> None).
    { destruct ov as [[n b]|]; cbn; (split; [intros X; inversion X; auto|intros; now constructor]). }
    rewrite Q. destruct false_value, true_value; try (split; [intros _; (left; discriminate) || (right; discriminate)|eauto]).
    split; [intros [x X]; discriminate|intros [X|X]; congruence].
  - apply YES; [eapply MP; [exact I|reflexivity|reflexivity]|]. destruct ov as [[n b]|]; constructor.
  - apply YES; [eapply MP; [exact I|reflexivity|reflexivity]|]. destruct ov as [[n b]|]; constructor.
  - apply YES; [eapply MP; [exact I|reflexivity|reflexivity]|]. destruct ov as [[n b]|]; constructor.
  - apply YES; [cbn; eauto|]. destruct ov as [[n b]|]; constructor.
  - apply YES; [cbn; eauto|]. destruct ov as [[n b]|]; constructor.
  - (* elements *)
    rewrite apply_elems. cbn [everywhere] in SO, SH. destruct SO as [SO SOe], SH as [SH SHe].
    destruct SO as [(_ & PS & PN & _) _].
    cbn [create].
    replace (match apply_ov ov (DElems k e d) with DElems _ e' _ => e' | _ => e end) with (elems_of ov e)
      by (destruct ov as [[n bo]|]; reflexivity).
    assert (PS' : forall n, e_data_size (elems_of ov e) = Some n -> 0 < n) by (destruct ov as [[? ?]|]; exact PS).
    assert (PN' : forall n, e_number (elems_of ov e) = Some n -> 0 < n) by (destruct ov as [[? ?]|]; exact PN).
    set (e' := elems_of ov e) in *. clearbody e'. clear PS PN MP YES.
    destruct (element_override e' d) as [eov|x|] eqn:EO; cbn [bind].
    2,3: split; [intros [? X]; discriminate|]; intros M; apply mappable_elems in M; destruct M as (H & _);
         apply (element_override_ok e') in H; destruct H; congruence.
    assert (OD : ordered d) by (apply (element_override_ok e'); eauto).
    specialize (IH eov SOe SHe). rewrite (element_override_type _ _ _ EO) in IH |- *.
    destruct (create orc d eov) as [em|x|] eqn:CE; cbn [bind].
    2,3: split; [intros [? X]; discriminate|]; intros M; apply mappable_elems in M; destruct M as (_ & H & _);
         apply IH in H; destruct H; congruence.
    assert (ME : mappable orc (element_type e' d)) by (apply IH; eauto).
    pose proof (expressions_ok orc e') as XO.
    destruct (expressions_cases orc e') as [X|X]; rewrite X in *; cbn [bind].
    2:{ apply raise_ex. intros M. apply mappable_elems in M. assert (Raise SyntaxError = Ok tt) by (apply XO; tauto). discriminate. }
    assert (XR : readable orc (e_data_size_expr e') /\ readable orc (e_number_expr e')) by (apply XO; auto).
    assert (CT : is_composite (element_type e' d) = is_composite d).
    { rewrite <- (element_override_type _ _ _ EO). destruct eov as [[? ?]|]; [apply set_name_bo_composite|reflexivity]. }
    assert (CC : create orc (element_type e' d) None = Ok em).
    { rewrite <- (element_override_type _ _ _ EO), <- create_apply. exact CE. }
    assert (UT : unit_size (element_type e' d) = unit_size d).
    { rewrite <- (element_override_type _ _ _ EO). destruct eov as [[? ?]|]; [apply unit_copy|reflexivity]. }
    assert (PT : is_padding (element_type e' d) = is_padding d).
    { rewrite <- (element_override_type _ _ _ EO). destruct eov as [[? ?]|]; [destruct d; reflexivity|reflexivity]. }
    assert (GT : get_byte_size (element_type e' d) = get_byte_size d).
    { rewrite <- (element_override_type _ _ _ EO). apply apply_ov_size. }
    destruct k.
    + assert (SF : seq_one_go_fits e' (element_type e' d) <-> seq_one_go_fits e' d).
      { unfold seq_one_go_fits. rewrite UT, PT, GT. tauto. }
      assert (SG : seq_one_go e' (element_type e' d) <-> seq_one_go e' d).
      { unfold seq_one_go. rewrite CT. tauto. }
      assert (MM : mappable orc (DElems KSequence e' d) <-> (seq_one_go e' d -> seq_one_go_fits e' d)).
      { split; [intros M; apply mappable_elems in M; tauto|]. intros H. constructor; tauto. }
      rewrite MM. destruct (sequence_is_linear e' (element_type e' d)) eqn:SL.
      * pose proof (proj1 (seq_linear_spec _ _) SL) as G.
        assert (SD : sound (element_type e' d)).
        { rewrite <- (element_override_type _ _ _ EO). apply everywhere_here in SOe. destruct eov as [[? ?]|]; [|exact SOe].
          clear - SOe. destruct d; exact SOe. }
        assert (OD' : ordered (element_type e' d)).
        { rewrite <- (element_override_type _ _ _ EO). destruct eov as [[? ?]|]; [apply ordered_copy; auto|exact OD]. }
        pose proof (sequence_op_ok orc e' (element_type e' d) em (proj1 G) OD' CC PS' PN' SD) as Q. rewrite SF in Q.
        transitivity (exists o, sequence_op orc e' (element_type e' d) em = Ok o); [|rewrite Q; tauto].
        destruct (sequence_op orc e' (element_type e' d) em); cbn; split; intros [? Y]; try discriminate; eauto.
      * apply ok_none_ex. intros G. exfalso. apply SG in G. apply seq_linear_spec in G. congruence.
    + rewrite CT. destruct (is_composite d) eqn:K1.
      * apply raise_ex. intros M; apply mappable_elems in M. destruct M as (_ & _ & _ & _ & M). congruence.
      * apply ok_none_ex. constructor; tauto.
    + rewrite CT. destruct (is_composite d) eqn:K1.
      * apply raise_ex. intros M; apply mappable_elems in M. destruct M as (_ & _ & _ & _ & M). congruence.
      * apply ok_none_ex. constructor; tauto.
  - (* structures *)
    clear MP YES. cbn [everywhere] in SO, SH. destruct SO as [[_ WN] SOm], SH as [[ND OR] SHm].
    apply everywhere_list in SOm, SHm. rewrite Forall_forall in SOm, SHm, IH.
    assert (SH' : apply_ov ov (DStructure m bo members) =
       DStructure (mkMeta (ov_name ov (m_name m)) (m_aliases m) (m_desc m)) (ov_bo ov bo) members).
    { destruct ov as [[n b]|]; cbn; [reflexivity|destruct m; reflexivity]. }
    set (n' := ov_name ov (m_name m)) in *. set (b' := ov_bo ov bo) in *.
    pose proof (structure_ok orc n' b' (apply_ov ov (DStructure m bo members)) members
       (well_named_distinct m bo members WN n' b') OR) as S.
    transitivity (exists r, create_structure orc n' b' (apply_ov ov (DStructure m bo members))
       (map (fun m => (m, inner_maker orc m)) members) = Ok r).
    { cbn [create]. fold n' b'. unfold inner_maker.
      destruct (create_structure orc n' b' _ _); cbn; split; intros [? Y]; try discriminate; eauto. }
    rewrite S. rewrite SH'. clear S.
    assert (EQ : forall x, In x members -> ((exists r, create orc (used_type n' b' x) None = Ok r) <-> mappable orc (used_type n' b' x))).
    { intros x I. destruct (used_as_ov n' b' x) as [ov' U]. destruct (U orc) as [U1 U2]. rewrite U1, U2.
      apply IH; auto; apply everywhere_type; auto. }
    split.
    + intros ((U & NE & F1 & F2 & F3 & F4 & F5) & M & O). constructor; cbn [m_name]; auto.
      * intros x I. apply M; auto.
      * intros x I. apply EQ; auto. apply M; auto.
    + intros M. inversion M; subst. cbn [m_name] in *. repeat (split; [tauto|]). split; [|assumption].
      intros x I. split; auto. apply EQ; auto.
  - apply YES; [cbn; eauto|]. destruct ov as [[n b]|]; constructor.
  - apply YES; [cbn; eauto|]. destruct ov as [[n b]|]; constructor.
  - apply YES; [cbn; eauto|]. destruct ov as [[n b]|]; constructor.
  - apply YES; [cbn; eauto|]. destruct ov as [[n b]|]; constructor.
  - apply YES; [cbn; eauto|]. destruct ov as [[n b]|]; constructor.
  - apply YES; [cbn; eauto|]. destruct ov as [[n b]|]; constructor.
  - (* groups *)
    rename d into base.
    clear MP YES. cbn [everywhere] in SO, SH. destruct SO as (_ & SOb & SOd & SOm), SH as (_ & SHb & SHd & SHm).
    apply everywhere_list in SOm, SHm. destruct IH as (IHb & IHd & IHm). rewrite Forall_forall in IHm.
    assert (SH' : exists mt bo', apply_ov ov (DGroup m bo base identifier default members) = DGroup mt bo' base identifier default members).
    { destruct ov as [[n b]|]; cbn; eauto. }
    destruct SH' as (mt & bo' & SH'). rewrite SH'. cbn [create]. rewrite SH'.
    assert (QD : (exists df, match default with Some x => create orc x None | None => Ok None end = Ok df) <->
       (forall d, default = Some d -> mappable orc d)).
    { destruct default as [x|]; cbn in IHd.
      - specialize (IHd None SOd SHd). cbn in IHd. rewrite IHd. split; [intros H d [= <-]; exact H|auto].
      - split; [discriminate|eauto]. }
    assert (QB : (exists b, create orc base None = Ok b) <-> mappable orc base) by apply (IHb None SOb SHb).
    destruct (match default with Some x => create orc x None | None => Ok None end) as [df|e|] eqn:ED; cbn [bind].
    2,3: split; [intros [? X]; discriminate|]; intros M; apply mappable_group in M; destruct M as (H & _);
         apply QD in H; destruct H; discriminate.
    destruct (create orc base None) as [b|e|] eqn:EB; cbn [bind].
    2,3: split; [intros [? X]; discriminate|]; intros M; apply mappable_group in M; destruct M as (_ & H & _);
         apply QB in H; destruct H; discriminate.
    assert (QD' : forall d, default = Some d -> mappable orc d) by (apply QD; eauto).
    assert (QB' : mappable orc base) by (apply QB; eauto).
    assert (SM : Forall shaped members) by (eapply Forall_impl; [|exact SHm]; intros; now apply everywhere_here).
    pose proof (group_maps_ok identifier (create orc) members SM [] ltac:(constructor)) as GM. cbn [map app] in GM.
    destruct members as [|m1 members'].
    { apply raise_ex. intros M; apply mappable_group in M. destruct M as (_ & _ & M & _). congruence. }
    set (members := m1 :: members') in *.
    transitivity (exists out, group_maps identifier (map (fun m => (m, create orc m)) members) [] = Ok out).
    { destruct (group_maps identifier _ []); cbn; split; intros [? Y]; try discriminate; eauto. }
    rewrite GM.
    assert (EX : forall vss, Forall2 (fun d vs => vs <> [] -> exists r, create orc d None = Ok r) members vss <->
                             Forall2 (fun d (vs : list pyval) => vs <> [] -> mappable orc d) members vss).
    { intros vss. rewrite Forall_forall in SOm, SHm.
      split; intros F; refine (Forall2_in_impl _ _ _ _ F _); intros x vs I H NE; apply (IHm x I None (SOm x I) (SHm x I)); auto. }
    split.
    + intros (vss & F1 & F2 & F3). apply EX in F3. econstructor; eauto. discriminate.
    + intros M. apply mappable_group in M. destruct M as (_ & _ & _ & vss & F1 & F2 & F3). exists vss. split; [assumption|]. split; [assumption|]. now apply EX.
Qed.

(** ** The exceptions *)

Definition within {A} (l : list exc) (r : res A) : Prop :=
  match r with Ok _ => True | Raise e => In e l | OutOfFuel => False end.

Lemma within_bind {A B} l (r : res A) (k : A -> res B) : within l r -> (forall a, r = Ok a -> within l (k a)) -> within l (bind r k).
Proof. destruct r; cbn; auto. Qed.

Ltac inn := unfold creation_errors; cbn; tauto.

Lemma make_op_within en toks : within creation_errors (make_op en toks).
Proof. unfold make_op. destruct (_ && _); cbn; auto; inn. Qed.

Lemma map_tokens_within m : within creation_errors (map_tokens m).
Proof. destruct m; cbn; auto; inn. Qed.

Lemma map_endian_within orc m : within creation_errors (map_endian orc m).
Proof. destruct m; cbn; auto; try destruct (dt_byte_order d); cbn; auto; inn. Qed.

Lemma sequence_op_within orc e ed em : (forall n, get_byte_size ed = Some n -> n <> 0) -> within creation_errors (sequence_op orc e ed em).
Proof.
  intros NZ. destruct em as [em|]; cbn; auto. apply within_bind; [apply map_endian_within|]. intros en _.
  apply within_bind.
  - unfold sequence_tokens.
    assert (F : forall n, within creation_errors (let* f := map_tokens em in
       match truthy_Z n, f with Some n, Some [(_, c)] => Ok (Some [(n, c)]) | _, _ => Ok None end)).
    { intros n. apply within_bind; [apply map_tokens_within|]. intros f _. destruct (truthy_Z n); cbn; auto. destruct f as [[|[] [|? ?]]|]; cbn; auto. }
    destruct (truthy_Z (e_data_size e)); [|apply F]. destruct (get_byte_size ed) as [b|]; [|cbn; auto].
    destruct (b =? 0) eqn:Z; [|apply F]. apply Z.eqb_eq in Z. destruct (NZ b); auto.
  - intros [t|] _; [|exact I]. apply within_bind; [apply make_op_within|]. cbn; auto.
Qed.

Lemma member_maps_within sname sbo (mk : dtype -> maker) ms : (forall m ov, In m ms -> within creation_errors (mk m ov)) ->
  forall cache, within creation_errors (member_maps sname sbo (map (fun m => (m, mk m)) ms) cache).
Proof.
  induction ms as [|m ms IH]; intros H cache; cbn [map member_maps]; [exact I|].
  apply within_bind.
  - unfold member_override. destruct (is_native sbo); [exact I|]. destruct (dt_byte_order _) as [b|]; [destruct (is_native b); exact I|cbn; inn].
  - intros ov _. destruct (dict_get _ cache); (apply within_bind; [|intros ? _]).
    + apply IH. intros; apply H; now right.
    + exact I.
    + apply H. now left.
    + apply within_bind; [|intros ? _; exact I]. apply IH. intros; apply H; now right.
Qed.

Lemma check_linear_within ms : forall last, within creation_errors (check_linear last ms).
Proof.
  induction ms as [|m ms IH]; intros last; cbn; auto. destruct (_ || _); cbn; auto.
  destruct (dt_byte_order m); cbn; [|inn]. destruct (_ && _); cbn; auto.
Qed.

Lemma struct_tokens_within attrs : within creation_errors (struct_tokens attrs).
Proof.
  induction attrs as [|[n [m|]] attrs IH]; cbn; auto.
  apply within_bind; [apply map_tokens_within|]. intros [t|] _; [|exact I].
  apply within_bind; [exact IH|]. intros [u|] _; exact I.
Qed.

Lemma create_class_within name ms : within creation_errors (create_class name ms).
Proof.
  unfold create_class. apply within_bind.
  - unfold validate_class. destruct (negb _); [cbn; inn|]. destruct (is_keyword _); [cbn; inn|].
    assert (V : forall l seen, within creation_errors (validate_members seen l)).
    { induction l as [|n l IH]; intros seen; cbn [validate_members]; [exact I|].
      repeat match goal with |- context [if ?b then _ else _] => destruct b end; auto; cbn; inn. }
    destruct (map dt_name ms); [cbn; inn|apply V].
  - intros _ _. apply within_bind.
    + induction ms as [|m ms IH]; cbn; auto. apply within_bind; auto.
      unfold template_member. apply within_bind; [|intros; exact I]. unfold type_indicator.
      repeat match goal with |- context [match ?b with _ => _ end] => destruct b end; cbn; auto; inn.
    + intros _ _. destruct (str_nodup _ && _); cbn; auto; inn.
Qed.

Lemma group_maps_within i (mk : dtype -> maker) ms : (forall m, In m ms -> within creation_errors (mk m None)) ->
  forall acc, within creation_errors (group_maps i (map (fun m => (m, mk m)) ms) acc).
Proof.
  induction ms as [|m ms IH]; intros H acc; cbn [map group_maps]; [exact I|].
  apply within_bind.
  - destruct m; cbn; try inn; destruct (find_member i members) as [[]|]; cbn; try inn; destruct values; cbn; auto; inn.
  - intros vs _. apply within_bind; [|intros acc' _; apply IH; intros; apply H; now right].
    clear IH. revert acc. induction vs as [|v vs IHv]; intros acc; cbn; auto. destruct (val_get v acc); cbn; [inn|].
    apply within_bind; [apply H; now left|]. intros r _. apply IHv.
Qed.

Lemma create_within orc d : forall ov, everywhere sound d -> within creation_errors (create orc d ov).
Proof.
  induction d as [d IH] using dtype_ind_type. intros ov SO.
  assert (P : forall d bo, within creation_errors (prim_op orc d bo)).
  { intros d0 bo. destruct (prim_op_ok orc d0 bo) as [o E]. rewrite E. exact I. }
  destruct d; cbn [create]; try exact I.
  1: destruct false_value, true_value; [| | |cbn; inn].
  1-6: (apply within_bind; [apply P|intros; exact I]).
  - cbn [everywhere] in SO. destruct SO as [SO SOe].
    apply within_bind.
    { unfold element_override. destruct (dt_byte_order _); [destruct (_ && _); exact I|cbn; inn]. }
    intros eov EO. apply within_bind; [apply IH; exact SOe|]. intros em CE.
    apply within_bind.
    { unfold check_expressions. destruct (_ && _); [exact I|cbn; inn]. }
    intros _ _. destruct k.
    + destruct (sequence_is_linear _ _) eqn:SL; [|exact I]. apply within_bind; [|intros; exact I].
      rewrite (create_apply orc d eov) in CE.
      destruct (is_some em) eqn:EM.
      * apply sequence_op_within. intros n GN. apply seq_linear_spec in SL. destruct SL as [NC _].
        assert (SD : sound (apply_ov eov d)).
        { apply everywhere_here in SOe. destruct eov as [[? ?]|]; [|exact SOe]. clear - SOe. destruct d; exact SOe. }
        destruct (apply_ov eov d); cbn in NC, GN, CE; try discriminate; try (destruct SD as [SD _]; specialize (SD _ GN); lia).
        -- injection CE as <-. discriminate.
      * destruct em; [discriminate|exact I].
    + destruct (is_composite _); [cbn; inn|exact I].
    + destruct (is_composite _); [cbn; inn|exact I].
  - cbn [everywhere] in SO. destruct SO as [_ SOm]. apply everywhere_list in SOm. rewrite Forall_forall in SOm, IH.
    apply within_bind; [|intros; exact I]. unfold create_structure. apply within_bind; [apply create_class_within|]. intros cls _.
    apply within_bind; [|intros attrs _].
    { apply (member_maps_within _ _ (inner_maker orc)). intros x ov' I. rewrite inner_maker_type.
      apply (IH x I ov'). apply everywhere_type. auto. }
    apply within_bind; [apply check_linear_within|]. intros [|] _; [|exact I].
    apply within_bind; [|intros; exact I]. unfold struct_op. apply within_bind; [apply struct_tokens_within|].
    intros [[|]|] _; try exact I. apply within_bind; [apply make_op_within|intros; exact I].
  - cbn [everywhere] in SO. destruct SO as (_ & SOb & SOd & SOm). apply everywhere_list in SOm. destruct IH as (IHb & IHd & IHm).
    rewrite Forall_forall in SOm, IHm.
    apply within_bind.
    { destruct default as [x|]; [|exact I]. apply IHd. exact SOd. }
    intros df _. apply within_bind; [apply IHb; exact SOb|]. intros b _.
    destruct members as [|m1 ms]; [cbn; inn|]. apply within_bind; [|intros; exact I].
    apply (group_maps_within _ (create orc)). intros x I. apply IHm; auto.
Qed.

(** C51 *)

Lemma creation_succeeds orc d : everywhere sound d -> everywhere shaped d ->
  ((exists r, create orc d None = Ok r) <-> mappable orc d).
Proof. intros SO SH. exact (creation orc d None SO SH). Qed.

Lemma creation_fails orc d : everywhere sound d -> everywhere shaped d -> ~ mappable orc d ->
  exists e, create orc d None = Raise e /\ In e creation_errors.
Proof.
  intros SO SH N. pose proof (create_within orc d None SO) as W.
  destruct (create orc d None) as [r|e|] eqn:C; cbn in W; [|eauto|destruct W].
  exfalso. apply N. apply creation_succeeds; eauto.
Qed.

Lemma creation_none orc d : create orc d None = Ok None <-> ~ has_map d.
Proof.
  destruct d; cbn [create]; unfold has_map; try (split; [discriminate|tauto]); try tauto.
  all: split; [|tauto]; intros H; try (destruct false_value, true_value; try discriminate);
    repeat (apply bind_ok in H; destruct H as (? & ? & H)); try discriminate.
  - destruct k; [destruct (sequence_is_linear _ _); [apply bind_ok in H; destruct H as (? & ? & H)|]| |]; try discriminate;
      destruct (is_composite _); discriminate.
  - destruct members; [discriminate|]. apply bind_ok in H; destruct H as (? & ? & H). discriminate.
Qed.
