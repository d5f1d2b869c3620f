(** Proofs about the definitions reader: the exceptions it raises. *)
From Coq Require Import String Ascii List ZArith Bool Lia.
From Verif Require Import Base Ieee BytesProofs Yaml DataTypes Reader SpecReader ReaderProofs
  ReaderTotal ReadFileProofs ReaderRefs.
Import ListNotations.
Open Scope Z_scope.

Definition formattable (v : yval) : Prop := v = YNull \/ text v.

(** The outcome is no exception other than a DefinitionReaderError, except an
    AttributeError if G holds. *)
Definition clean {A} (G : Prop) (r : rd A) : Prop :=
  match r with
  | ROk _ | RFuel => True
  | RErr (DefErr n) => formattable n
  | RErr (Err x) => x = AttributeError /\ G
  end.

Lemma clean_bind : forall A B G (r : rd A) (k : A -> rd B),
  clean G r -> (forall a, r = ROk a -> clean G (k a)) -> clean G (rbind r k).
Proof. intros A B G [a|[n|x]|] k H K; cbn in *; auto. Qed.

Lemma clean_lift_ok : forall A G (r : res A), (exists a, r = Ok a) -> clean G (lift r).
Proof. intros A G r [a ->]. exact I. Qed.

Lemma clean_raise : forall A G name l,
  formattable name -> Forall text l -> clean G (@raise_def A name l).
Proof.
  intros A G name l N F. unfold raise_def. induction F as [|v l [s ->] F IH]; [exact N|].
  exact IH.
Qed.

Lemma text_hashed : forall G v, formattable v -> clean G (hashed v).
Proof. intros G v [->|[s ->]]; exact I. Qed.

Lemma text_nameless : forall v, formattable v -> text (nameless v).
Proof.
  intros v [->|[s ->]]; unfold nameless; [eexists; reflexivity|].
  destruct (y_truthy _); eexists; reflexivity.
Qed.

Lemma text_formattable : forall v, text v -> formattable v.
Proof. right. assumption. Qed.

Lemma keys_map : forall v, text_keys v -> exists l, v = YMap l.
Proof. intros v [l [-> _]]. exists l. reflexivity. Qed.

Lemma get_total : forall d k v, text_keys v -> exists x, y_get_or d k v = Ok x.
Proof. intros d k v [l [-> _]]. eexists. reflexivity. Qed.

Lemma get_optional : forall P k v x,
  optional P k v -> y_get k v = Ok x -> x = YNull \/ P x.
Proof.
  intros P k v x O G. apply y_get_or_ok in G. destruct G as [l [-> [M|[M ->]]]].
  - apply O. exists l. auto.
  - left. reflexivity.
Qed.

Lemma clean_get : forall G d k v, text_keys v -> clean G (lift (y_get_or d k v)).
Proof. intros G d k v K. apply clean_lift_ok, get_total, K. Qed.

Lemma clean_keys : forall G name v l,
  text_keys v -> formattable name -> clean G (check_keys name v l).
Proof.
  intros G name v l [kv [-> F]] N. unfold check_keys. apply clean_bind; [exact I|].
  intros keys E. cbn in E. injection E as <-.
  destruct (filter _ _) as [|a u] eqn:Q; [exact I|]. rewrite <- Q.
  assert (T : forallb is_ystr (filter (fun k => negb (y_in k (map Y l))) (map fst kv)) = true).
  { apply forallb_forall. intros x Hx. apply filter_In in Hx. destruct Hx as [Hx _].
    apply in_map_iff in Hx. destruct Hx as [p [<- Hp]]. rewrite Forall_forall in F.
    destruct (F _ Hp) as [s ->]. reflexivity. }
  rewrite T. exact N.
Qed.

Lemma clean_lookup : forall G env r n, text n -> clean G (rlookup env r n).
Proof. intros G env r n [s ->]. exact I. Qed.

Lemma int_number_or_text : forall env v, number_or_text v ->
  (exists z, y_int env v = Ok z) \/ y_int env v = Raise ValueError.
Proof.
  intros env v [[z ->]|[s ->]]; cbn; [left; eexists; reflexivity|].
  destruct (y_int_str env s); [left; eexists; reflexivity|right; reflexivity].
Qed.

Lemma truthy_null : forall v, negb (y_truthy v) = false -> v <> YNull.
Proof. intros v H ->. discriminate H. Qed.

Lemma clean_meta : forall G v n, text_keys v -> clean G (read_meta v n).
Proof.
  intros G v n K. unfold read_meta. do 3 (apply clean_bind; [apply clean_get, K|intros ? _]).
  exact I.
Qed.

Lemma clean_data_type : forall G v n l,
  text_keys v -> formattable n -> clean G (read_data_type v n l).
Proof.
  intros G v n l K N. unfold read_data_type. apply clean_bind; [apply clean_keys; assumption|].
  intros _ _. apply clean_meta, K.
Qed.

Lemma clean_byte_order : forall G n a l,
  tidy_attributes a -> formattable n -> clean G (read_byte_order n a l).
Proof.
  intros G n a l [K [B _]] N. unfold read_byte_order.
  apply clean_bind; [apply clean_keys; assumption|]. intros _ _.
  apply clean_bind; [apply clean_get, K|]. intros bo E. apply lift_ok in E.
  apply clean_bind.
  - apply text_hashed. apply y_get_or_ok in E. destruct E as [kv [-> [M|[M ->]]]].
    + destruct (B bo) as [->|T]; [exists kv; auto|left; reflexivity|right; exact T].
    + right. eexists. reflexivity.
  - intros _ _. destruct (y_in bo byte_orders); [exact I|exact N].
Qed.

Lemma clean_storage : forall G v n l b,
  text_keys v -> optional tidy_attributes "attributes" v -> formattable n ->
  clean G (read_storage v n l b).
Proof.
  intros G v n l b K A N. unfold read_storage.
  apply clean_bind; [apply clean_data_type; assumption|]. intros m _.
  apply clean_bind; [apply clean_get, K|]. intros a E. apply lift_ok in E.
  destruct (y_truthy a) eqn:T; [|exact I].
  apply clean_bind; [|intros; exact I]. apply clean_byte_order; [|exact N].
  destruct (get_optional _ _ _ _ A E) as [->|Q]; [discriminate T|exact Q].
Qed.

Lemma clean_fixed : forall G env v n l ds cs b sizes,
  text_keys v -> optional tidy_attributes "attributes" v -> formattable n ->
  (ds = y_native \/ exists z, ds = YInt z) ->
  clean G (read_fixed env v n l ds cs b sizes).
Proof.
  intros G env v n l ds cs b sizes K A N D. unfold read_fixed.
  apply clean_bind; [apply clean_storage; assumption|]. intros mb _.
  apply clean_bind; [apply clean_get, K|]. intros a E. apply lift_ok in E.
  destruct (y_truthy a) eqn:T; [|exact I].
  destruct (get_optional _ _ _ _ A E) as [->|[Ka [_ [_ S]]]]; [discriminate T|].
  apply clean_bind; [apply clean_get, Ka|]. intros size Es. apply lift_ok in Es.
  apply clean_bind; [|intros _ _; apply clean_bind; [apply clean_get, Ka|intros; exact I]].
  destruct (y_eqb size y_native) eqn:Q; [exact I|].
  assert (Z : number_or_text size).
  { apply y_get_or_ok in Es. destruct Es as [kv [-> [M|[M ->]]]].
    - apply S. exists kv. auto.
    - destruct D as [->|[z ->]]; [right; eexists; reflexivity|left; eexists; reflexivity]. }
  destruct (int_number_or_text env _ Z) as [[z ->] | ->]; [|exact N].
  destruct (y_in size _); [exact I|exact N].
Qed.

Lemma clean_int_or_expr : forall G env v, number_or_text v -> clean G (int_or_expr env v).
Proof.
  intros G env v Z. unfold int_or_expr. destruct (int_number_or_text env _ Z) as [[z ->] | ->];
    exact I.
Qed.

Lemma encode_ok : forall n s, Forall (fun c => 0 <= c < n) s -> exists b, u_encode n s = Ok b.
Proof.
  intros n s F. unfold u_encode.
  replace (forallb _ s) with true; [eexists; reflexivity|]. symmetry.
  apply forallb_forall. intros c Hc. rewrite Forall_forall in F. specialize (F c Hc).
  apply andb_true_iff. split; [apply Z.leb_le|apply Z.ltb_lt]; lia.
Qed.

Lemma clean_elements : forall G env r v n l,
  text_keys v -> tidy_elements v -> formattable n -> clean G (read_elements env r v n l).
Proof.
  intros G env r v n l K [T1 [T2 [T3 T4]]] N. unfold read_elements.
  apply clean_bind; [apply clean_keys; assumption|]. intros _ _.
  apply clean_bind; [apply clean_get, K|]. intros ed E. apply lift_ok in E.
  destruct (negb (y_truthy ed)) eqn:Te; [exact N|].
  assert (Ted : text ed).
  { destruct (get_optional _ _ _ _ T1 E) as [->|Q]; [discriminate Te|exact Q]. }
  apply clean_bind; [apply clean_get, K|]. intros ds Eds. apply lift_ok in Eds.
  apply clean_bind; [apply clean_get, K|]. intros term Et. apply lift_ok in Et.
  apply clean_bind; [apply clean_get, K|]. intros nr Enr. apply lift_ok in Enr.
  destruct (y_is_none ds && _ && _); [exact N|].
  destruct (negb (y_is_none ds) && _); [exact N|].
  apply clean_bind; [apply clean_lookup, Ted|]. intros [elem|] _;
    [|apply clean_raise; [exact N|constructor; [exact Ted|constructor]]].
  apply clean_bind; [apply clean_meta, K|]. intros m _.
  apply clean_bind.
  { destruct (y_is_none ds) eqn:Q; [exact I|]. apply clean_int_or_expr.
    destruct (get_optional _ _ _ _ T2 Eds) as [->|P]; [discriminate Q|exact P]. }
  intros dsp _. apply clean_bind.
  { destruct (y_is_none nr) eqn:Q; [rewrite orb_true_r; exact I|].
    destruct (negb (y_is_none ds)); cbn [orb]; [exact I|]. apply clean_int_or_expr.
    destruct (get_optional _ _ _ _ T3 Enr) as [->|P]; [discriminate Q|exact P]. }
  intros nrp _. apply clean_bind; [|intros; exact I].
  destruct term; try exact I. apply clean_bind; [|intros; exact I]. apply clean_lift_ok.
  apply encode_ok. destruct (get_optional _ _ _ _ T4 Et) as [C|P]; [discriminate C|].
  exact (P s eq_refl).
Qed.

Lemma clean_elems : forall G env r k v n b,
  text_keys v -> tidy_elements v -> formattable n -> clean G (read_elems env r k v n b).
Proof.
  intros G env r k v n b K T N. destruct k; unfold read_elems;
    (apply clean_bind; [apply clean_elements; assumption|intros ee _]); try exact I.
  apply clean_bind; [apply clean_get, K|]. intros enc _.
  destruct (negb (y_truthy enc)); [exact N|exact I].
Qed.

Lemma clean_enum_aliases : forall G n known l,
  formattable n -> Forall text l -> clean G (check_enum_aliases n known l).
Proof.
  intros G n known l N F. induction F as [|a l T F IH]; cbn [check_enum_aliases]; [exact I|].
  apply clean_bind; [apply text_hashed, text_formattable, T|]. intros _ _.
  destruct (y_in a known); [|exact IH].
  apply clean_raise; [exact N|constructor; [exact T|constructor]].
Qed.

Lemma or_empty_texts : forall v, v = YNull \/ texts v ->
  exists l, y_iter (or_empty v) = Ok l /\ Forall text l.
Proof.
  intros v [->|[l [-> F]]].
  - exists []. split; [reflexivity|constructor].
  - unfold or_empty. destruct (y_truthy (YList l)) eqn:T.
    + exists l. auto.
    + exists []. split; [reflexivity|constructor].
Qed.

Lemma clean_enum_values : forall G n l last vs,
  formattable n -> (y_truthy last = true -> text last) -> Forall tidy_enum_value l ->
  clean G (read_enum_values n last vs l).
Proof.
  intros G n l last vs N L F. revert last vs L.
  induction F as [|x l [K [Tn [Tm Ta]]] F IH]; intros last vs L; cbn [read_enum_values]; [exact I|].
  apply clean_bind; [apply clean_get, K|]. intros al Ea. apply lift_ok in Ea.
  apply clean_bind; [apply clean_get, K|]. intros de _.
  apply clean_bind; [apply clean_get, K|]. intros nm En. apply lift_ok in En.
  apply clean_bind; [apply clean_get, K|]. intros nu Eu. apply lift_ok in Eu.
  destruct (negb (y_truthy nm) || y_is_none nu) eqn:Q.
  - apply clean_raise; [exact N|]. destruct (y_truthy last) eqn:Tl; [|constructor].
    constructor; [exact (L eq_refl)|constructor].
  - apply orb_false_iff in Q. destruct Q as [Q1 Q2].
    assert (Xn : text nm).
    { destruct (get_optional _ _ _ _ Tn En) as [->|P]; [discriminate Q1|exact P]. }
    assert (Xu : number_or_text nu).
    { destruct (get_optional _ _ _ _ Tm Eu) as [->|P]; [discriminate Q2|exact P]. }
    destruct (or_empty_texts _ (get_optional _ _ _ _ Ta Ea)) as [la [Ia Fa]].
    apply clean_bind; [|intros vs' _; apply IH; intros _; exact Xn].
    unfold add_value. cbn [rv_name rv_number rv_aliases].
    apply clean_bind; [apply text_hashed, text_formattable, Xn|]. intros _ _.
    destruct (y_in nm _);
      [apply clean_raise; [exact N|constructor; [exact Xn|constructor]]|].
    apply clean_bind.
    { destruct Xu as [[z ->]|T]; [exact I|apply text_hashed, text_formattable, T]. }
    intros _ _. destruct (y_in nu _); [exact N|].
    apply clean_bind; [apply clean_lift_ok; exists la; exact Ia|].
    intros l0 E0. apply lift_ok in E0. rewrite Ia in E0. injection E0 as <-.
    apply clean_bind; [apply clean_enum_aliases; assumption|]. intros; exact I.
Qed.

Lemma clean_layout : forall G n l, formattable n -> Forall text_keys l -> clean G (read_layout n l).
Proof.
  intros G n l N F. induction F as [|x l K F IH]; cbn [read_layout]; [exact I|].
  do 2 (apply clean_bind; [apply clean_get, K|intros ? _]).
  destruct (negb _); [exact N|].
  apply clean_bind; [apply clean_keys; assumption|]. intros _ _.
  apply clean_bind; [exact IH|]. intros; exact I.
Qed.

Lemma clean_add_member : forall G n ms d,
  formattable n -> text (rd_name d) -> clean G (add_member n ms d).
Proof.
  intros G n ms d N T. unfold add_member.
  apply clean_bind; [apply text_hashed, text_formattable, T|]. intros _ _.
  destruct (y_in _ _); [apply clean_raise; [exact N|constructor; [exact T|constructor]]|exact I].
Qed.

Definition all_named (r : rreg) : Prop := Forall (fun d => text (rd_name d)) (registered r).

Lemma named_lookup : forall env r n d, all_named r -> rlookup env r n = ROk (Some d) ->
  text (rd_name d).
Proof.
  intros env r n d A L. apply rlookup_in in L. unfold all_named in A.
  rewrite Forall_forall in A. exact (A d L).
Qed.

Lemma clean_family_members : forall G env r n l ms,
  all_named r -> formattable n -> Forall text l -> clean G (read_family_members env r n ms l).
Proof.
  intros G env r n l ms A N F. revert ms.
  induction F as [|x l T F IH]; intros ms; cbn [read_family_members]; [exact I|].
  apply clean_bind; [apply clean_lookup, T|]. intros [d|] L;
    [|apply clean_raise; [exact N|constructor; [exact T|constructor]]].
  apply clean_bind; [apply clean_add_member; [exact N|exact (named_lookup _ _ _ _ A L)]|].
  intros; apply IH.
Qed.

(** A group lists a definition that has no members. *)
Definition member_without_members (env : yenv) (r : rreg) (l : list yval) : Prop :=
  exists x d, In x l /\ In d (registered r) /\ names_definition env x d /\ rd_members d = None.

Lemma clean_group_members : forall env r n i l ms,
  reg_ok env r -> all_named r -> formattable n -> text i -> Forall text l ->
  clean (member_without_members env r l) (read_group_members env r n i ms l).
Proof.
  intros env r n i l ms R A N Ti F.
  assert (Gen : forall l0, incl l0 l -> Forall text l0 -> forall ms,
    clean (member_without_members env r l) (read_group_members env r n i ms l0)).
  { clear F ms. intros l0 Hl F. induction F as [|x l0 T F IH]; intros ms;
      cbn [read_group_members]; [exact I|].
    apply clean_bind; [apply clean_lookup, T|]. intros [d|] L;
      [|apply clean_raise; [exact N|constructor; [exact T|constructor]]].
    destruct (rd_members d) eqn:M.
    - destruct (negb _);
        [apply clean_raise; [exact N|constructor; [exact T|constructor; [exact Ti|constructor]]]|].
      apply clean_bind; [apply clean_add_member; [exact N|exact (named_lookup _ _ _ _ A L)]|].
      intros; apply IH. intros y Hy. apply Hl. right. exact Hy.
    - destruct (lookup_names _ _ _ _ R L) as [I1 I2]. split; [reflexivity|].
      exists x, d. split; [apply Hl; left; reflexivity|auto]. }
  apply Gen; [apply incl_refl|exact F].
Qed.

Lemma clean_members : forall G read n l ms ss,
  (forall x d, read x = ROk d -> In x l -> ~ (exists s, entry x "section" s /\ ~ falsy s) ->
     text (rd_name d)) ->
  (forall x, In x l -> ~ (exists s, entry x "section" s /\ ~ falsy s) ->
     text_keys x /\ clean G (read x)) ->
  (forall x, In x l -> exists kv, x = YMap kv) ->
  formattable n -> clean G (read_members read n ms ss l).
Proof.
  intros G read n l. induction l as [|x l IH]; intros ms ss HN HC HM N; cbn [read_members];
    [exact I|].
  destruct (HM x (or_introl eq_refl)) as [kv ->].
  apply clean_bind; [exact I|]. intros s E. apply lift_ok in E.
  destruct (y_truthy s) eqn:T.
  - apply IH; [intros y d Q Hy; apply (HN y d Q); right; exact Hy
      |intros y Hy; apply HC; right; exact Hy|intros y Hy; apply HM; right; exact Hy|exact N].
  - assert (NS : ~ (exists s, entry (YMap kv) "section" s /\ ~ falsy s)).
    { intros [s' [Es Fs]]. apply entry_get in Es. rewrite Es in E. injection E as ->.
      apply Fs. exact T. }
    apply clean_bind; [exact (proj2 (HC _ (or_introl eq_refl) NS))|]. intros d Ed.
    apply clean_bind.
    + apply clean_add_member; [exact N|]. apply (HN _ _ Ed (or_introl eq_refl) NS).
    + intros; apply IH; [intros y d' Q Hy; apply (HN y d' Q); right; exact Hy
        |intros y Hy; apply HC; right; exact Hy|intros y Hy; apply HM; right; exact Hy|exact N].
Qed.

Lemma tidy_member_map : forall v, tidy_member v -> exists kv, v = YMap kv.
Proof.
  intros v H. destruct H as [v x [l [-> _]]|v [l [-> _]]]; eexists; reflexivity.
Qed.

Lemma clean_with_members : forall G read v n,
  text_keys v -> optional tidy_attributes "attributes" v -> formattable n ->
  optional (fun x => exists l, x = YList l /\ Forall tidy_member l) "members" v ->
  (forall x d, tidy_member x -> ~ (exists s, entry x "section" s /\ ~ falsy s) ->
     read x = ROk d -> text (rd_name d)) ->
  (forall l x, items v "members" l -> In x l -> tidy_member x ->
     ~ (exists s, entry x "section" s /\ ~ falsy s) -> clean G (read x)) ->
  clean G (read_with_members read v n).
Proof.
  intros G read v n K A N M HN HC. unfold read_with_members.
  apply clean_bind; [apply clean_get, K|]. intros mv E. apply lift_ok in E.
  destruct (negb (y_truthy mv)) eqn:T; [exact N|].
  destruct (get_optional _ _ _ _ M E) as [->|[l [-> F]]]; [discriminate T|].
  apply clean_bind; [apply clean_data_type; assumption|]. intros m _.
  apply clean_bind; [apply clean_get, K|]. intros a Ea. apply lift_ok in Ea.
  apply clean_bind.
  { destruct (y_truthy a) eqn:Ta; [|exact I]. apply clean_byte_order; [|exact N].
    destruct (get_optional _ _ _ _ A Ea) as [->|Q]; [discriminate Ta|exact Q]. }
  intros bo _. apply clean_bind; [exact I|]. intros l0 E0. apply lift_ok in E0.
  injection E0 as <-. apply clean_bind; [|intros; exact I].
  rewrite Forall_forall in F.
  assert (It : items v "members" l).
  { exists (YList l). split; [exact (truthy_entry _ _ _ E T)|reflexivity]. }
  apply clean_members; [| | |exact N].
  - intros x d Q Hx NS. exact (HN x d (F x Hx) NS Q).
  - intros x Hx NS. split; [|exact (HC l x It Hx (F x Hx) NS)].
    destruct (F x Hx) as [x s Es Fs|x Kx]; [|exact Kx]. exfalso. apply NS. exists s. auto.
  - intros x Hx. exact (tidy_member_map _ (F x Hx)).
Qed.

Lemma clean_encode_values : forall G l, Forall (encodable 256) l -> clean G (encode_values l).
Proof.
  intros G l F. induction F as [|x l P F IH]; cbn [encode_values]; [exact I|].
  apply clean_bind; [|intros; apply clean_bind; [exact IH|intros; exact I]].
  destruct x; try exact I. apply clean_bind; [|intros; exact I].
  apply clean_lift_ok, encode_ok, P. reflexivity.
Qed.

Lemma clean_padding : forall G env v n b,
  text_keys v -> optional number_or_text "alignment_size" v -> formattable n ->
  clean G (read_padding env v n b).
Proof.
  intros G env v n b K A N. unfold read_padding. destruct (negb b); [exact N|].
  apply clean_bind; [apply clean_data_type; assumption|]. intros m _.
  apply clean_bind; [apply clean_get, K|]. intros a E. apply lift_ok in E.
  destruct (negb (y_truthy a)) eqn:T; [exact N|].
  destruct (get_optional _ _ _ _ A E) as [->|Z]; [discriminate T|].
  destruct (int_number_or_text env _ Z) as [[z ->] | ->]; [|exact N].
  destruct (y_in a _); [exact I|exact N].
Qed.

Lemma clean_integer : forall G env v n b,
  text_keys v -> optional tidy_attributes "attributes" v -> formattable n ->
  clean G (read_integer env v n b).
Proof.
  intros G env v n b K A N. unfold read_integer.
  apply clean_bind; [apply clean_fixed; auto|]. intros f _.
  apply clean_bind; [apply clean_get, K|]. intros a E. apply lift_ok in E.
  destruct (y_truthy a) eqn:T; [|exact I].
  destruct (get_optional _ _ _ _ A E) as [->|[Ka [_ [Fo _]]]]; [discriminate T|].
  apply clean_bind; [apply clean_get, Ka|]. intros fo Ef. apply lift_ok in Ef.
  apply clean_bind.
  - apply text_hashed. apply y_get_or_ok in Ef. destruct Ef as [kv [-> [M|[M ->]]]].
    + destruct (Fo fo) as [->|Q]; [exists kv; auto|left; reflexivity|right; exact Q].
    + right. eexists. reflexivity.
  - intros _ _. destruct (y_in fo _); [exact I|exact N].
Qed.

(** Members of a structure or union. *)
Lemma member_name_text : forall env r fuel v dn c d,
  tidy_member v -> ~ (exists s, entry v "section" s /\ ~ falsy s) ->
  read_member env r fuel v dn c = ROk d -> text (rd_name d).
Proof.
  intros env r fuel v dn c d T NS H.
  destruct T as [v s Es Fs|v K [nm En] _ _ _ _ _ _ _ _]; [exfalso; apply NS; exists s; auto|].
  destruct fuel as [|fuel]; cbn [read_member] in H; [discriminate H|]. inv_rd.
  rename x into name, x0 into ti, x1 into dt, x2 into cond, x3 into val, x4 into vals, x5 into sup.
  assert (Q : name = YStr nm).
  { apply entry_get in En. congruence. }
  subst name. destruct (negb (y_is_none ti)) eqn:Ti; inv_rd.
  - match goal with T : find_callback _ = ROk ?o |- _ => destruct o as [k|]; inv_rd end.
    match goal with T : in_member _ _ = ROk _ |- _ => apply in_member_ok in T;
      apply callback_name in T; rename T into C end.
    match goal with H : (if ?c then _ else _) = ROk _ |- _ => destruct c; inv_rd end.
    + eexists. reflexivity.
    + rewrite C. eexists. reflexivity.
  - match goal with H : match ?o with Some _ => _ | None => _ end = ROk _ |- _ =>
      destruct o as [d0|]; inv_rd end. eexists. reflexivity.
Qed.

Lemma clean_in_member : forall A G dn (r : rd A),
  formattable dn -> clean G r -> clean G (in_member dn r).
Proof.
  intros A G dn [a|[n|x]|] N C; try exact C. cbn [in_member].
  apply clean_raise; [exact N|]. constructor; [apply text_nameless, C|constructor].
Qed.

Lemma clean_member : forall env r fuel v dn c,
  tidy_member v -> ~ (exists s, entry v "section" s /\ ~ falsy s) -> formattable dn ->
  clean False (read_member env r fuel v dn c).
Proof.
  intros env r fuel. induction fuel as [|fuel IH]; intros v dn c T NS N; [exact I|].
  destruct T as [v s Es Fs|v K [nm En] Ty Dt Va Vs At El Al Me];
    [exfalso; apply NS; exists s; auto|].
  cbn [read_member]. destruct (negb (y_truthy v)); [exact N|].
  apply clean_bind; [apply clean_get, K|]. intros name E1. apply lift_ok in E1.
  assert (Q : name = YStr nm) by (apply entry_get in En; congruence).
  assert (Tn : text name) by (subst; eexists; reflexivity).
  assert (Tnn : text (nameless name)) by (apply text_nameless, text_formattable, Tn).
  assert (R1 : forall A, clean False (@raise_def A dn [nameless name])).
  { intros A. apply clean_raise; [exact N|constructor; [exact Tnn|constructor]]. }
  apply clean_bind; [apply clean_get, K|]. intros ti E2. apply lift_ok in E2.
  destruct (negb (y_truthy name) && _); [exact N|].
  apply clean_bind; [apply clean_get, K|]. intros dt E3. apply lift_ok in E3.
  destruct (y_is_none dt && y_is_none ti) eqn:B1; [apply R1|].
  destruct (negb (y_is_none dt) && negb (y_is_none ti)); [apply R1|].
  apply clean_bind; [apply clean_get, K|]. intros cond E4.
  destruct (negb c && y_truthy cond); [apply R1|].
  apply clean_bind; [apply clean_get, K|]. intros val E5. apply lift_ok in E5.
  apply clean_bind; [apply clean_get, K|]. intros vals E6. apply lift_ok in E6.
  destruct (negb (y_is_none val) && negb (y_is_none vals)); [apply R1|].
  apply clean_bind.
  { cbv zeta. match goal with |- clean _ (if y_truthy ?w then _ else _) =>
      assert (W : w = YNull \/ exists l, w = YList l /\ Forall (encodable 256) l) end.
    { destruct (y_is_none val) eqn:Qv; cbn [negb andb].
      - exact (get_optional _ _ _ _ Vs E6).
      - destruct (y_is_none vals) eqn:Qs; [|exact (get_optional _ _ _ _ Vs E6)].
        right. exists [val]. split; [reflexivity|]. constructor; [|constructor].
        destruct (get_optional _ _ _ _ Va E5) as [->|P]; [discriminate Qv|exact P]. }
    match goal with |- clean _ (if y_truthy ?w then _ else _) => generalize dependent w end.
    intros w W. destruct (y_truthy w) eqn:Tw; [|exact I].
    destruct W as [->|[l [-> F]]]; [discriminate Tw|].
    apply clean_bind; [exact I|]. intros l0 E0. apply lift_ok in E0. injection E0 as <-.
    apply clean_bind; [apply clean_encode_values, F|]. intros; exact I. }
  intros sup _. destruct (negb (y_is_none ti)) eqn:Ti.
  - assert (Tt : text ti).
    { destruct (get_optional _ _ _ _ Ty E2) as [->|P]; [discriminate Ti|exact P]. }
    apply clean_bind.
    { unfold find_callback. apply clean_bind; [apply text_hashed, text_formattable, Tt|].
      intros; exact I. }
    intros [k|] Ek; [|apply clean_raise; [right; exact Tn|constructor; [exact Tt|constructor]]].
    apply find_callback_ok in Ek.
    apply clean_bind; [|intros d _; destruct (_ || _); exact I].
    apply clean_in_member; [exact N|].
    assert (Nn : formattable name) by (right; exact Tn).
    destruct k; cbn [callback].
    + unfold read_boolean. apply clean_bind; [apply clean_fixed; auto|intros; exact I].
    + unfold read_character. apply clean_bind; [apply clean_fixed; auto|intros; exact I].
    + exact Nn.
    + exact Nn.
    + unfold read_float. apply clean_bind; [apply clean_fixed; auto|intros; exact I].
    + exact Nn.
    + apply clean_integer; assumption.
    + apply clean_padding; assumption.
    + apply clean_elems; assumption.
    + exact Nn.
    + exact Nn.
    + exact Nn.
    + apply clean_bind; [|intros [[[? ?] ?] ?] _; exact I].
      apply clean_with_members; try assumption.
      * unfold optional; refine (Me _). subst ti. apply y_get_entry; [exact E2|discriminate].
      * intros x d Tx NSx Ex. exact (member_name_text _ _ _ _ _ _ _ Tx NSx Ex).
      * intros l x _ _ Tx NSx. apply IH; assumption.
    + unfold read_uuid. apply clean_bind; [|intros; exact I].
      apply clean_fixed; auto. right. exists 16. reflexivity.
  - assert (Td : text dt).
    { destruct (get_optional _ _ _ _ Dt E3) as [->|P]; [|exact P].
      apply negb_false_iff in Ti. rewrite Ti in B1. discriminate B1. }
    apply clean_bind; [apply clean_lookup, Td|].
    intros [d|] _; [|apply clean_raise; [exact N|]].
    + apply clean_bind; [apply clean_keys; assumption|]. intros _ _.
      do 2 (apply clean_bind; [apply clean_get, K|intros ? _]). exact I.
    + constructor; [exact Tnn|constructor; [exact Td|constructor]].
Qed.

Lemma optional_mono : forall (P Q : yval -> Prop) k v,
  (forall x, P x -> Q x) -> optional P k v -> optional Q k v.
Proof. intros P Q k v PQ O x E. destruct (O x E); auto. Qed.

(** What may go wrong beside a DefinitionReaderError. *)
Definition group_trouble (env : yenv) (r : rreg) (doc : yval) : Prop :=
  entry doc "type" (Y "structure-group") /\
  exists l, items doc "members" l /\ member_without_members env r l.

Lemma clean_weaken : forall A (G G' : Prop) (r : rd A), (G -> G') -> clean G r -> clean G' r.
Proof. intros A G G' [a|[n|x]|] W C; cbn in *; auto. destruct C. auto. Qed.

Lemma clean_definition : forall env r doc,
  reg_ok env r -> all_named r -> tidy_document doc ->
  clean (group_trouble env r doc) (read_definition env r doc).
Proof.
  intros env r doc R A [K Na Ty Ali At El Ba De Id Me Va La]. unfold read_definition.
  destruct (negb (y_truthy doc)); [left; reflexivity|].
  apply clean_bind; [apply clean_get, K|]. intros name E1. apply lift_ok in E1.
  destruct (negb (y_truthy name)) eqn:T1; [left; reflexivity|].
  assert (N : formattable name) by exact (get_optional _ _ _ _ Na E1).
  apply clean_bind; [apply clean_get, K|]. intros ti E2. apply lift_ok in E2.
  destruct (negb (y_truthy ti)) eqn:T2; [exact N|].
  assert (Tt : text ti).
  { destruct (get_optional _ _ _ _ Ty E2) as [->|P]; [discriminate T2|exact P]. }
  apply clean_bind.
  { unfold find_callback. apply clean_bind; [apply text_hashed, text_formattable, Tt|].
    intros; exact I. }
  intros [k|] Ek; [|apply clean_raise; [exact N|constructor; [exact Tt|constructor]]].
  apply find_callback_ok in Ek. subst ti.
  assert (Et : entry doc "type" (Y (kind_name k))) by exact (truthy_entry _ _ _ E2 T2).
  specialize (Me _ Et).
  destruct k; cbn [callback kind_name] in *.
  - unfold read_boolean. apply clean_bind; [apply clean_fixed; auto|intros; exact I].
  - unfold read_character. apply clean_bind; [apply clean_fixed; auto|intros; exact I].
  - unfold read_constant. apply clean_bind; [apply clean_get, K|]. intros v _.
    destruct (y_is_none v); [exact N|].
    apply clean_bind; [apply clean_data_type; assumption|intros; exact I].
  - unfold read_enumeration. apply clean_bind; [apply clean_get, K|]. intros v Ev.
    apply lift_ok in Ev. destruct (negb (y_truthy v)) eqn:Tv; [exact N|].
    destruct (get_optional _ _ _ _ (Va Et) Ev) as [->|[l [-> F]]]; [discriminate Tv|].
    apply clean_bind; [apply clean_data_type; assumption|]. intros m _.
    apply clean_bind; [exact I|]. intros l0 E0. apply lift_ok in E0. injection E0 as <-.
    apply clean_bind; [|intros; exact I].
    apply clean_enum_values; [exact N|discriminate|exact F].
  - unfold read_float. apply clean_bind; [apply clean_fixed; auto|intros; exact I].
  - unfold read_format. apply clean_bind; [apply clean_data_type; assumption|]. intros m _.
    apply clean_bind; [apply clean_get, K|]. intros la El'. apply lift_ok in El'.
    assert (L : exists l, la = YList l /\ Forall text_keys l).
    { apply y_get_or_ok in El'. destruct El' as [kv [-> [M|[M ->]]]].
      - apply (La Et). exists kv. auto.
      - exists []. split; [reflexivity|constructor]. }
    destruct L as [l [-> F]]. apply clean_bind; [exact I|]. intros l0 E0.
    apply lift_ok in E0. injection E0 as <-.
    apply clean_bind; [apply clean_layout; assumption|]. intros els _.
    apply clean_bind; [apply clean_get, K|]. intros md _.
    apply clean_bind; [apply clean_get, K|]. intros a Ea. apply lift_ok in Ea.
    destruct (y_truthy a) eqn:Ta; [|exact I].
    apply clean_bind; [|intros; exact I]. apply clean_byte_order; [|exact N].
    destruct (get_optional _ _ _ _ At Ea) as [->|Q]; [discriminate Ta|exact Q].
  - apply clean_integer; assumption.
  - exact N.
  - apply clean_elems; assumption.
  - apply clean_bind; [|intros [[[? ?] ?] ?] _; exact I].
    eapply (clean_weaken _ False); [intros []|].
    apply clean_with_members; try assumption.
    + intros x d Tx NSx Ex. exact (member_name_text _ _ _ _ _ _ _ Tx NSx Ex).
    + intros l x _ _ Tx NSx. apply clean_member; assumption.
  - unfold read_family. apply clean_bind; [apply clean_keys; assumption|]. intros _ _.
    apply clean_bind; [apply clean_get, K|]. intros b Eb. apply lift_ok in Eb.
    destruct (negb (y_truthy b)) eqn:Tb; [exact N|].
    assert (Xb : text b).
    { destruct (get_optional _ _ _ _ Ba Eb) as [->|P]; [discriminate Tb|exact P]. }
    apply clean_bind; [apply clean_lookup, Xb|].
    intros [d|] _; [|apply clean_raise; [exact N|constructor; [exact Xb|constructor]]].
    apply clean_bind; [apply clean_meta, K|]. intros m _.
    apply clean_bind; [apply clean_get, K|]. intros mv Em. apply lift_ok in Em.
    destruct (negb (y_truthy mv)) eqn:Tm; [exact N|].
    destruct (get_optional _ _ _ _ Me Em) as [->|[l [-> F]]]; [discriminate Tm|].
    apply clean_bind; [exact I|]. intros l0 E0. apply lift_ok in E0. injection E0 as <-.
    apply clean_bind; [apply clean_family_members; assumption|intros; exact I].
  - unfold read_group. apply clean_bind; [apply clean_keys; assumption|]. intros _ _.
    apply clean_bind; [apply clean_get, K|]. intros b Eb. apply lift_ok in Eb.
    destruct (negb (y_truthy b)) eqn:Tb; [exact N|].
    assert (Xb : text b).
    { destruct (get_optional _ _ _ _ Ba Eb) as [->|P]; [discriminate Tb|exact P]. }
    apply clean_bind; [apply clean_lookup, Xb|].
    intros [d|] _; [|apply clean_raise; [exact N|constructor; [exact Xb|constructor]]].
    apply clean_bind; [apply clean_get, K|]. intros i Ei. apply lift_ok in Ei.
    destruct (negb (y_truthy i)) eqn:Tii; [exact N|].
    assert (Xi : text i).
    { destruct (get_optional _ _ _ _ Id Ei) as [->|P]; [discriminate Tii|exact P]. }
    apply clean_bind; [apply clean_get, K|]. intros df Ed. apply lift_ok in Ed.
    apply clean_bind.
    { destruct (negb (y_truthy df)) eqn:Td; [exact I|].
      assert (Xd : text df).
      { destruct (get_optional _ _ _ _ De Ed) as [->|P]; [discriminate Td|exact P]. }
      apply clean_bind; [apply clean_lookup, Xd|].
      intros [d'|] _; [exact I|apply clean_raise; [exact N|constructor; [exact Xd|constructor]]]. }
    intros dl _. apply clean_bind; [apply clean_meta, K|]. intros m _.
    apply clean_bind; [apply clean_get, K|]. intros mv Em. apply lift_ok in Em.
    destruct (negb (y_truthy mv)) eqn:Tm; [exact N|].
    destruct (get_optional _ _ _ _ Me Em) as [->|[l [-> F]]]; [discriminate Tm|].
    apply clean_bind; [exact I|]. intros l0 E0. apply lift_ok in E0. injection E0 as <-.
    apply clean_bind; [|intros; exact I].
    eapply clean_weaken; [|apply clean_group_members; eassumption].
    intros W. split; [exact Et|]. exists l. split; [|exact W].
    exists (YList l). split; [exact (truthy_entry _ _ _ Em Tm)|reflexivity].
  - apply clean_bind; [|intros [[[? ?] ?] ?] _; exact I].
    eapply (clean_weaken _ False); [intros []|].
    apply clean_with_members; try assumption.
    + intros x d Tx NSx Ex. exact (member_name_text _ _ _ _ _ _ _ Tx NSx Ex).
    + intros l x _ _ Tx NSx. apply clean_member; assumption.
  - unfold read_uuid. apply clean_bind; [|intros; exact I].
    apply clean_fixed; auto. right. exists 16. reflexivity.
Qed.

(** * Registration *)

Lemma read_elements_meta : forall env r values name supported e elem,
  read_elements env r values name supported = ROk (e, elem) ->
  read_meta values name = ROk (re_meta e).
Proof.
  intros env r values name supported e elem H. unfold read_elements in H. inv_rd.
  match goal with H : match ?o with Some _ => _ | None => _ end = ROk _ |- _ =>
    destruct o; inv_rd end. assumption.
Qed.

Lemma read_data_type_meta : forall values name l m,
  read_data_type values name l = ROk m -> read_meta values name = ROk m.
Proof.
  intros values name l m H. unfold read_data_type in H. apply rbind_ok in H.
  destruct H as [u [_ H]]. exact H.
Qed.

Lemma read_fixed_meta : forall env values name attrs ds cs b sizes f,
  read_fixed env values name attrs ds cs b sizes = ROk f ->
  read_meta values name = ROk (rf_meta f).
Proof.
  intros env values name attrs ds cs b sizes f H. unfold read_fixed in H.
  apply rbind_ok in H. destruct H as [[m bo] [S H]]. cbn [fst snd] in H.
  assert (M : read_meta values name = ROk m).
  { unfold read_storage in S. apply rbind_ok in S. destruct S as [m' [D S]].
    apply read_data_type_meta in D. apply rbind_ok in S. destruct S as [a [_ S]].
    destruct (y_truthy a).
    - apply rbind_ok in S. destruct S as [bo' [_ S]]. injection S as -> _. exact D.
    - injection S as -> _. exact D. }
  apply rbind_ok in H. destruct H as [a [_ H]]. destruct (y_truthy a).
  - apply rbind_ok in H. destruct H as [sz [_ H]].
    apply rbind_ok in H. destruct H as [u [_ H]].
    apply rbind_ok in H. destruct H as [un [_ H]]. injection H as <-. exact M.
  - injection H as <-. exact M.
Qed.

Lemma callback_meta : forall env r rm k values name d,
  callback env r rm k values name false = ROk d -> read_meta values name = ROk (rd_meta d).
Proof.
  intros env r rm k values name d H. destruct k; cbn [callback] in H.
  - unfold read_boolean in H. inv_rd. eapply read_fixed_meta. eassumption.
  - unfold read_character in H. inv_rd. eapply read_fixed_meta. eassumption.
  - unfold read_constant in H. inv_rd. eapply read_data_type_meta. eassumption.
  - unfold read_enumeration in H. inv_rd. eapply read_data_type_meta. eassumption.
  - unfold read_float in H. inv_rd. eapply read_fixed_meta. eassumption.
  - unfold read_format in H. inv_rd.
    match goal with H : (if ?c then _ else _) = ROk _ |- _ => destruct c; inv_rd end;
      eapply read_data_type_meta; eassumption.
  - unfold read_integer in H. inv_rd. destruct (y_truthy x0); inv_rd;
      eapply read_fixed_meta; eassumption.
  - discriminate H.
  - destruct k; unfold read_elems in H; inv_rd;
      match goal with H : read_elements _ _ _ _ _ = ROk ?p |- _ =>
        destruct p; cbn [rd_meta re_meta fst];
        eapply read_elements_meta; eassumption end.
  - inv_rd. destruct x as [[[m bo] ss] ms]. inv_rd.
    unfold read_with_members in E. inv_rd. eapply read_data_type_meta; eassumption.
  - unfold read_family in H. inv_rd.
    match goal with H : match ?o with Some _ => _ | None => _ end = ROk _ |- _ =>
      destruct o; inv_rd end. assumption.
  - unfold read_group in H. inv_rd.
    match goal with H : match ?o with Some _ => _ | None => _ end = ROk _ |- _ =>
      destruct o; inv_rd end. assumption.
  - inv_rd. destruct x as [[[m bo] ss] ms]. inv_rd.
    unfold read_with_members in E. inv_rd. eapply read_data_type_meta; eassumption.
  - unfold read_uuid in H. inv_rd. eapply read_fixed_meta. eassumption.
Qed.

(** The definition of a well-typed document has a name and aliases that can be
    registered. *)
Definition registrable (d : rdef) : Prop :=
  text (rd_name d) /\ exists l, y_iter (rd_aliases d) = Ok l /\ Forall text l.

Lemma definition_registrable : forall env r doc d,
  tidy_document doc -> read_definition env r doc = ROk d -> registrable d.
Proof.
  intros env r doc d T H. unfold read_definition in H.
  destruct (negb (y_truthy doc)); [discriminate H|].
  apply rbind_ok in H. destruct H as [name [N H]]. apply lift_ok in N.
  destruct (negb (y_truthy name)) eqn:Tn; [discriminate H|].
  apply rbind_ok in H. destruct H as [ti [_ H]].
  destruct (negb (y_truthy ti)); [discriminate H|].
  apply rbind_ok in H. destruct H as [[k|] [_ H]]; [|exfalso; exact (raise_def_ok _ _ _ _ H)].
  split.
  - rewrite (callback_name _ _ _ _ _ _ _ _ H).
    destruct (get_optional _ _ _ _ (td_name _ T) N) as [->|P]; [discriminate Tn|exact P].
  - apply callback_meta in H. unfold rd_aliases. unfold read_meta in H. inv_rd.
    rewrite <- H. cbn [rm_aliases].
    apply or_empty_texts. exact (get_optional _ _ _ _ (td_aliases _ T) E).
Qed.

Lemma register_error : forall env r d x,
  registrable d -> rregister env r d = Raise x -> x = KeyError.
Proof.
  intros env r d x [[s N] [l [I F]]] H. unfold rregister in H. rewrite N in H.
  cbn [y_lower bind] in H.
  destruct (assoc_mem _ (rg_definitions r)); [injection H as <-; reflexivity|].
  destruct (assoc_mem _ (rg_aliases r)); [injection H as <-; reflexivity|].
  rewrite I in H. cbn [bind] in H.
  destruct (check_aliases (rg_aliases r) l) as [u|e|] eqn:C; cbn [bind] in H;
    [discriminate H| |discriminate H]. injection H as ->. clear I. revert C.
  induction F as [|a l [s' ->] F IH]; cbn [check_aliases]; [discriminate|].
  cbn [y_hashable negb]. destruct (assoc_mem _ _); [|exact IH].
  intros C. injection C as <-. reflexivity.
Qed.

Lemma tidy_doc_fails : forall env r doc x,
  reg_ok env r -> all_named r -> tidy_document doc -> doc_fails env r doc x ->
  x = FormatError \/ x = KeyError \/ (x = AttributeError /\ group_trouble env r doc).
Proof.
  intros env r doc x R A T F. pose proof (clean_definition env r doc R A T) as C.
  destruct F as [[n [E ->]]|[E|[d [E G]]]]; rewrite E in C; cbn in C.
  - left. unfold format_error. destruct (text_nameless _ C) as [s ->]. reflexivity.
  - right. right. exact C.
  - right. left. exact (register_error _ _ _ _ (definition_registrable _ _ _ _ T E) G).
Qed.

Lemma reads_tidy : forall env docs r ds r',
  reads env r docs ds r' -> reg_ok env r -> all_named r -> Forall tidy_document docs ->
  reg_ok env r' /\ all_named r'.
Proof.
  intros env docs r ds r' H. induction H as [|r doc docs d ds r1 r' R G H IH]; intros O A F; [auto|].
  inversion F as [|? ? T F']; subst. apply IH; [|  |exact F'].
  - exact (reg_ok_register _ _ _ _ O G).
  - unfold all_named. rewrite (registered_snoc _ _ _ _ G). apply Forall_app.
    split; [exact A|]. constructor; [|constructor].
    exact (proj1 (definition_registrable _ _ _ _ T R)).
Qed.

Lemma reads_firstn_named : forall env docs r ds r',
  reads env r docs ds r' -> Forall tidy_document docs ->
  Forall (fun d => text (rd_name d)) ds.
Proof.
  intros env docs r ds r' H. induction H as [|r doc docs d ds r1 r' R G H IH]; intros F;
    [constructor|].
  inversion F as [|? ? T F']; subst. constructor; [|exact (IH F')].
  exact (proj1 (definition_registrable _ _ _ _ T R)).
Qed.

Lemma scan_error_text : forall ds,
  Forall (fun d => text (rd_name d)) ds ->
  scan_error (List.last (map Some ds) None) = FormatError.
Proof.
  intros ds F.
  assert (Q : forall ds o, Forall (fun d => text (rd_name d)) ds ->
    scan_error o = FormatError -> scan_error (List.last (map Some ds) o) = FormatError).
  { clear. intros ds. induction ds as [|d ds IH]; intros o F O; [exact O|].
    cbn [map]. rewrite last_cons. inversion F as [|? ? [s E] F']; subst.
    apply IH; [exact F'|]. cbn. rewrite E. reflexivity. }
  apply Q; [exact F|reflexivity].
Qed.

Theorem tidy_errors : forall env docs e x r,
  Forall tidy_document docs -> (e = YEnd \/ e = YScan) ->
  read_file env rreg_empty (Some (docs, e)) = (Raise x, r) ->
  x = FormatError \/ x = KeyError \/
  (x = AttributeError /\ exists doc l name d,
     In doc docs /\ entry doc "type" (Y "structure-group") /\ items doc "members" l
     /\ In name l /\ In d (registered r) /\ names_definition env name d
     /\ rd_members d = None).
Proof.
  intros env docs e x r F He H. cbn [read_file] in H. apply read_docs_split in H.
  destruct H as [n [ds [L [R O]]]].
  assert (Ff : Forall tidy_document (firstn n docs)).
  { rewrite <- (firstn_skipn n docs) in F. apply Forall_app in F. exact (proj1 F). }
  destruct O as [[_ O]|[doc [y [N [D O]]]]].
  - left. destruct He as [->| ->]; [discriminate O|]. injection O as ->.
    apply scan_error_text. exact (reads_firstn_named _ _ _ _ _ R Ff).
  - injection O as <-.
    destruct (reads_tidy _ _ _ _ _ R (reg_ok_empty env) (Forall_nil _) Ff) as [Ro Rn].
    assert (T : tidy_document doc).
    { rewrite Forall_forall in F. apply F. eapply nth_error_In. exact N. }
    destruct (tidy_doc_fails _ _ _ _ Ro Rn T D) as [->|[->|[-> [Et [l [It [nm [d [I1 I2]]]]]]]]];
      auto.
    right. right. split; [reflexivity|]. exists doc, l, nm, d.
    split; [eapply nth_error_In; exact N|]. auto.
Qed.

(** A reference that nothing earlier answers to makes reading fail with
    FormatError. *)
Theorem unresolved_format_error : forall env prior r doc rest e,
  Forall tidy_document prior -> tidy_document doc ->
  ~ entry doc "type" (Y "structure-group") ->
  read_file env rreg_empty (Some (prior, YEnd)) = (Ok tt, r) ->
  (forall d, ~ resolved env (registered r) doc d) ->
  read_file env rreg_empty (Some (prior ++ doc :: rest, e)) = (Raise FormatError, r).
Proof.
  intros env prior r doc rest e Fp T NG P N.
  rewrite (reading_concatenation _ _ _ (doc :: rest) e _ P) by (left; discriminate).
  cbn [read_file] in P. apply read_docs_split in P.
  destruct P as [n [ds [L [R O]]]].
  destruct O as [[-> _]|[d [x [_ [_ O]]]]]; [|discriminate O]. rewrite firstn_all in R.
  destruct (reads_tidy _ _ _ _ _ R (reg_ok_empty env) (Forall_nil _) Fp) as [Ro Rn].
  pose proof (clean_definition env r doc Ro Rn T) as C.
  cbn [read_file read_docs].
  destruct (read_definition env r doc) as [d|[k|x]|] eqn:E.
  - exfalso. exact (N d (definition_resolved _ _ _ _ Ro E)).
  - cbn in C. unfold format_error. destruct (text_nameless _ C) as [s ->]. reflexivity.
  - exfalso. destruct C as [_ [C _]]. exact (NG C).
  - exfalso. exact (read_definition_total _ _ _ E).
Qed.
