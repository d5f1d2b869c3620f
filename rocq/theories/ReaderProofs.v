(** Proofs about the definitions reader. *)
From Coq Require Import String Ascii List ZArith Bool Lia.
From Verif Require Import Base Ieee Yaml DataTypes Reader SpecReader.
Import ListNotations.
Open Scope Z_scope.

(** * Strings and equality *)

Lemma list_eqb_Z : forall a b, list_eqb Z.eqb a b = true <-> a = b.
Proof.
  induction a as [|x a IH]; intros [|y b]; cbn; split; intros H;
    try discriminate H; try reflexivity.
  - apply andb_true_iff in H. destruct H as [H1 H2].
    apply Z.eqb_eq in H1. apply IH in H2. congruence.
  - injection H as -> ->. rewrite Z.eqb_refl. cbn. apply IH. reflexivity.
Qed.

Lemma y_eqb_str : forall v s, y_eqb v (YStr s) = true <-> v = YStr s.
Proof.
  intros v s. split.
  - destruct v; cbn; intros H; try discriminate H. apply list_eqb_Z in H. congruence.
  - intros ->. cbn. apply list_eqb_Z. reflexivity.
Qed.

Lemma y_eqb_str_l : forall v s, y_eqb (YStr s) v = true <-> v = YStr s.
Proof.
  intros v s. split.
  - destruct v; cbn; intros H; try discriminate H. apply list_eqb_Z in H. congruence.
  - intros ->. cbn. apply list_eqb_Z. reflexivity.
Qed.

Lemma us_inj : forall a b, us a = us b -> a = b.
Proof.
  unfold us. induction a as [|x a IH]; intros [|y b]; cbn; intros H; try discriminate H.
  - reflexivity.
  - injection H as H1 H2. apply IH in H2. subst b. f_equal.
    apply N2Z.inj in H1.
    rewrite <- (ascii_N_embedding x), <- (ascii_N_embedding y). congruence.
Qed.

Lemma Y_inj : forall a b, Y a = Y b -> a = b.
Proof. intros a b H. injection H as H. apply us_inj, H. Qed.

Lemma y_in_names : forall v names,
  y_in v (map Y names) = true <-> one_of names v.
Proof.
  intros v names. unfold y_in, one_of. rewrite existsb_exists. split.
  - intros [x [I E]]. apply in_map_iff in I. destruct I as [s [<- I]].
    apply y_eqb_str in E. subst v. exists s. split; [reflexivity|exact I].
  - intros [s [-> I]]. exists (Y s). split; [apply in_map, I|].
    apply y_eqb_str. reflexivity.
Qed.

Lemma y_eqb_int : forall v z, y_eqb v (YInt z) = true -> equals_number v z.
Proof.
  intros v z H. destruct v; cbn in H; try discriminate H.
  - apply Z.eqb_eq in H. subst z. constructor.
  - apply Z.eqb_eq in H. subst z. constructor.
  - constructor. exact H.
Qed.

Lemma y_in_numbers : forall v sizes,
  y_in v (map YInt sizes) = true -> exists z, In z sizes /\ equals_number v z.
Proof.
  intros v sizes H. unfold y_in in H. apply existsb_exists in H.
  destruct H as [x [I E]]. apply in_map_iff in I. destruct I as [z [<- I]].
  exists z. split; [exact I|]. apply y_eqb_int, E.
Qed.

(** * Inversion of outcomes *)

Lemma rbind_ok : forall A B (r : rd A) (k : A -> rd B) b,
  rbind r k = ROk b -> exists a, r = ROk a /\ k a = ROk b.
Proof.
  intros A B [a|e|] k b H; cbn in H; try discriminate H. exists a. auto.
Qed.

Lemma lift_ok : forall A (r : res A) a, lift r = ROk a <-> r = Ok a.
Proof. intros A [x|e|] a; cbn; split; intros H; congruence. Qed.

Lemma raise_def_ok : forall A name l (a : A), raise_def name l = ROk a -> False.
Proof.
  intros A name l a. unfold raise_def. induction l as [|v l IH]; cbn.
  - discriminate.
  - destruct (y_format_s v); [exact IH|discriminate|discriminate].
Qed.

Lemma hashed_ok : forall v, hashed v = ROk tt <-> y_hashable v = true.
Proof. intros v. unfold hashed. destruct (y_hashable v); split; congruence. Qed.

Lemma y_get_or_ok : forall d k v x, y_get_or d k v = Ok x ->
  exists l, v = YMap l /\
    (map_get (Y k) l = Some x \/ (map_get (Y k) l = None /\ x = d)).
Proof.
  intros d k v x H. destruct v; cbn in H; try discriminate H.
  injection H as H. exists l. split; [reflexivity|].
  destruct (map_get (Y k) l); [left|right]; subst; auto.
Qed.

(** A value other than the default is an entry. *)
Lemma y_get_entry : forall k v x, y_get k v = Ok x -> x <> YNull -> entry v k x.
Proof.
  intros k v x H N. apply y_get_or_ok in H. destruct H as [l [-> [H|[_ ->]]]].
  - exists l. auto.
  - congruence.
Qed.

Lemma y_truthy_null : forall v, y_truthy v = true -> v <> YNull.
Proof. intros v H ->. discriminate H. Qed.

Lemma entry_get : forall k v x, entry v k x -> y_get k v = Ok x.
Proof. intros k v x [l [-> H]]. unfold y_get, y_get_or. rewrite H. reflexivity. Qed.

Lemma entry_fun : forall k v x y, entry v k x -> entry v k y -> x = y.
Proof. intros k v x y [l [-> H]] [l' [E H']]. injection E as <-. congruence. Qed.

(** Decompose a successful run step by step. *)
Ltac inv_rd :=
  repeat match goal with
  | H : rbind _ _ = ROk _ |- _ =>
      let a := fresh "x" in let E := fresh "E" in
      apply rbind_ok in H; destruct H as [a [E H]]
  | H : lift _ = ROk _ |- _ => apply lift_ok in H
  | H : raise_def _ _ = ROk _ |- _ => exfalso; exact (raise_def_ok _ _ _ _ H)
  | H : RErr _ = ROk _ |- _ => discriminate H
  | H : RFuel = ROk _ |- _ => discriminate H
  | H : ROk _ = ROk _ |- _ => injection H as H; subst
  | H : hashed _ = ROk ?u |- _ => destruct u; apply hashed_ok in H
  | H : (if ?c then RErr _ else _) = ROk _ |- _ =>
      let E := fresh "E" in destruct c eqn:E; [discriminate H|]
  | H : (if ?c then _ else RErr _) = ROk _ |- _ =>
      let E := fresh "E" in destruct c eqn:E; [|discriminate H]
  | H : (if ?c then raise_def _ _ else _) = ROk _ |- _ =>
      let E := fresh "E" in destruct c eqn:E; [exfalso; exact (raise_def_ok _ _ _ _ H)|]
  end.

(** * Keys *)

Lemma check_keys_ok : forall name v supported,
  check_keys name v supported = ROk tt -> only_keys supported v.
Proof.
  intros name v supported H. unfold check_keys in H. inv_rd.
  destruct v; cbn in E; try discriminate E. injection E as <-.
  exists l. split; [reflexivity|]. apply Forall_forall. intros kv I.
  apply y_in_names.
  destruct (filter _ _) as [|b bs] eqn:F.
  - destruct (y_in (fst kv) (map Y supported)) eqn:Q; [reflexivity|].
    assert (C : In (fst kv) (filter (fun k => negb (y_in k (map Y supported))) (map fst l))).
    { apply filter_In. split; [apply in_map, I|]. rewrite Q. reflexivity. }
    rewrite F in C. destruct C.
  - exfalso. destruct (forallb is_ystr (b :: bs)); discriminate H.
Qed.

Lemma check_keys_iff : forall name v supported,
  check_keys name v supported = ROk tt <-> only_keys supported v.
Proof.
  intros name v supported. split; [apply check_keys_ok|].
  intros [l [-> F]]. unfold check_keys. cbn.
  replace (filter _ _) with (@nil yval); [reflexivity|].
  symmetry. induction F as [|kv l H F IH]; [reflexivity|].
  cbn. apply y_in_names in H. rewrite H. cbn. exact IH.
Qed.

Lemma only_keys_map : forall names v, only_keys names v -> exists l, v = YMap l.
Proof. intros names v [l [-> _]]. eauto. Qed.

Lemma only_keys_incl : forall a b v, incl a b -> only_keys a v -> only_keys b v.
Proof.
  intros a b v I [l [-> F]]. exists l. split; [reflexivity|].
  eapply Forall_impl; [|exact F]. intros kv [s [E H]]. exists s. split; [exact E|]. auto.
Qed.

(** A key that is present is among the supported ones. *)
Lemma only_keys_entry : forall names v key x,
  only_keys names v -> entry v key x -> In key names.
Proof.
  intros names v key x [l [-> F]] [l' [E H]]. injection E as <-.
  induction F as [|kv l [s [E I]] F IH]; cbn [map_get] in H; [discriminate H|].
  destruct kv as [k w]. cbn [fst] in E. subst k. cbn [map_get] in H.
  destruct (y_eqb (Y key) (Y s)) eqn:Q.
  - apply y_eqb_str in Q. apply Y_inj in Q. subst s. exact I.
  - exact (IH H).
Qed.

(** * Well-formed definitions *)

Lemma native_order : a_byte_order y_native.
Proof. exists "native"%string. split; [reflexivity|]. cbn. auto. Qed.

Lemma read_byte_order_ok : forall name attributes supported bo,
  read_byte_order name attributes supported = ROk bo ->
  a_byte_order bo /\ only_keys supported attributes.
Proof.
  intros name attributes supported bo H. unfold read_byte_order in H. inv_rd.
  destruct x. apply check_keys_ok in E. split; [|exact E].
  apply y_in_names. assumption.
Qed.

Lemma read_data_type_ok : forall values name supported m,
  read_data_type values name supported = ROk m ->
  only_keys supported values /\ rm_name m = name.
Proof.
  intros values name supported m H. unfold read_data_type, read_meta in H. inv_rd.
  destruct x. apply check_keys_ok in E. auto.
Qed.

Lemma read_meta_ok : forall values name m,
  read_meta values name = ROk m -> rm_name m = name.
Proof. intros values name m H. unfold read_meta in H. inv_rd. reflexivity. Qed.

Lemma read_storage_ok : forall values name attrs is_member m bo,
  read_storage values name attrs is_member = ROk (m, bo) ->
  a_byte_order bo /\ rm_name m = name
  /\ only_keys (if is_member then keys_member else keys_storage) values
  /\ attribute_keys attrs values.
Proof.
  intros values name attrs is_member m bo H. unfold read_storage in H. inv_rd.
  apply read_data_type_ok in E. destruct E as [K N].
  destruct (y_truthy x0) eqn:T; inv_rd.
  - apply read_byte_order_ok in E. destruct E as [O A].
    repeat split; try assumption.
    intros a Ea Fa. apply entry_get in Ea. rewrite E0 in Ea. injection Ea as <-. exact A.
  - repeat split; try assumption; [apply native_order|].
    intros a Ea Fa. apply entry_get in Ea. rewrite E0 in Ea. injection Ea as <-.
    contradiction.
Qed.

Lemma read_fixed_ok : forall env values name attrs ds cs is_member sizes f,
  a_size sizes cs ->
  read_fixed env values name attrs ds cs is_member sizes = ROk f ->
  fixed_ok sizes f /\ rm_name (rf_meta f) = name
  /\ only_keys (if is_member then keys_member else keys_storage) values
  /\ attribute_keys attrs values.
Proof.
  intros env values name attrs ds cs is_member sizes f C H. unfold read_fixed in H. inv_rd.
  destruct x as [m bo]. apply read_storage_ok in E. destruct E as [O [N [K A]]].
  destruct (y_truthy x0) eqn:T; inv_rd; cbn; repeat split; try assumption.
  destruct (y_eqb x y_native) eqn:Q.
  - left. apply y_eqb_str in Q. exact Q.
  - right. destruct (y_int env x) as [z|e|]; [|destruct e; discriminate|discriminate].
    apply y_in_numbers. cbn [rf_size].
    destruct (y_in x (map YInt sizes)); [reflexivity|discriminate].
Qed.

Lemma native_size : forall sizes, a_size sizes y_native.
Proof. intros sizes. left. reflexivity. Qed.

Lemma registered_assoc : forall k l (d : rdef), assoc k l = Some d -> In d (map snd l).
Proof.
  intros k l d H. induction l as [|[k' v] l IH]; cbn in H; [discriminate H|].
  destruct (y_eqb k k'); cbn; [left; congruence|right; auto].
Qed.

Lemma rlookup_in : forall env r n d,
  rlookup env r n = ROk (Some d) -> In d (registered r).
Proof.
  intros env r n d H. unfold rlookup in H. inv_rd.
  apply registered_assoc in H. exact H.
Qed.

Lemma well_formed_order : forall d, well_formed d -> a_byte_order (rd_byte_order d).
Proof.
  intros d H. destruct H; cbn; try assumption; try apply native_order;
    try (destruct H; assumption).
  destruct bo; [auto|apply native_order].
Qed.

(** * Members in order *)

Lemma distinct_snoc : forall l a,
  distinct l -> y_in a l = false -> distinct (l ++ [a]).
Proof.
  intros l a D N i j x y L Hi Hj.
  destruct (Nat.lt_ge_cases j (List.length l)) as [J|J].
  - rewrite nth_error_app1 in Hj by lia. rewrite nth_error_app1 in Hi by lia.
    exact (D i j x y L Hi Hj).
  - rewrite nth_error_app2 in Hj by lia.
    destruct (j - List.length l)%nat as [|n] eqn:Q; cbn in Hj;
      [|destruct n; discriminate Hj].
    injection Hj as <-. rewrite nth_error_app1 in Hi by lia.
    unfold y_in in N. apply nth_error_In in Hi.
    destruct (y_eqb a x) eqn:P; [|reflexivity].
    assert (C : existsb (y_eqb a) l = true) by (apply existsb_exists; eauto).
    congruence.
Qed.

Lemma distinct_nil : distinct [].
Proof. intros i j a b _ H. destruct i; discriminate H. Qed.

Lemma add_member_ok : forall dname ms d ms',
  add_member dname ms d = ROk ms' ->
  ms' = ms ++ [d] /\ (distinct (map rd_name ms) -> distinct (map rd_name ms')).
Proof.
  intros dname ms d ms' H. unfold add_member in H. inv_rd.
  split; [reflexivity|]. intros D. rewrite map_app. apply distinct_snoc; assumption.
Qed.

(** What the reader of one member guarantees holds of all members. *)
Lemma read_members_ok : forall (P : rdef -> Prop) read dname l ms ss ms' ss',
  (forall x d, In x l -> (forall s, y_get "section" x = Ok s -> falsy s) ->
    read x = ROk d -> P d) ->
  read_members read dname ms ss l = ROk (ms', ss') ->
  distinct (map rd_name ms) -> Forall P ms ->
  distinct (map rd_name ms') /\ Forall P ms'
  /\ (l <> [] \/ ms <> [] \/ ss <> [] -> ms' <> [] \/ ss' <> []).
Proof.
  intros P read dname l. induction l as [|x l IH]; intros ms ss ms' ss' R H D F;
    cbn [read_members] in H; inv_rd.
  - repeat split; try assumption. intuition congruence.
  - destruct (y_truthy x0) eqn:T; inv_rd.
    + apply IH in H; [|intros; eapply R; eauto; right; assumption|assumption|assumption].
      destruct H as [D' [F' N]]. repeat split; try assumption.
      intros _. apply N. right. right. destruct ss; discriminate.
    + apply add_member_ok in E1. destruct E1 as [-> D'].
      apply IH in H; [|intros; eapply R; eauto; right; assumption|auto|].
      * destruct H as [D'' [F' N]]. repeat split; try assumption.
        intros _. apply N. right. left. destruct ms; discriminate.
      * apply Forall_app. split; [exact F|]. constructor; [|constructor].
        eapply R; [left; reflexivity| |exact E0].
        intros s Hs. rewrite E in Hs. injection Hs as <-. exact T.
Qed.

(** * Each kind of definition *)

(** The type indicator of a kind. *)
Definition kind_name (k : kind) : string :=
  match k with
  | KBoolean => "boolean" | KCharacter => "character" | KConstant => "constant"
  | KEnumeration => "enumeration" | KFloat => "floating-point" | KFormat => "format"
  | KInteger => "integer" | KPadding => "padding" | KElems KSequence => "sequence"
  | KElems KStream => "stream" | KElems KString => "string" | KStructure => "structure"
  | KFamily => "structure-family" | KGroup => "structure-group" | KUnion => "union"
  | KUUID => "uuid"
  end%string.

Lemma assoc_callbacks : forall ti k,
  assoc ti callbacks = Some k -> ti = Y (kind_name k).
Proof.
  intros ti k. unfold callbacks. cbn [assoc].
  repeat match goal with
  | |- (if ?c then _ else _) = _ -> _ =>
      let E := fresh in destruct c eqn:E;
        [apply y_eqb_str in E; intros H'; injection H' as <-; exact E|clear E]
  end.
  discriminate.
Qed.

Lemma find_callback_ok : forall ti k,
  find_callback ti = ROk (Some k) -> ti = Y (kind_name k).
Proof.
  intros ti k H. unfold find_callback in H. inv_rd. apply assoc_callbacks. assumption.
Qed.

Lemma is_none_iff : forall v, y_is_none v = true <-> v = YNull.
Proof. intros []; cbn; split; congruence. Qed.

Lemma read_constant_ok : forall values name is_member d,
  read_constant values name is_member = ROk d ->
  well_formed d /\ rd_name d = name /\ is_member = false
  /\ only_keys keys_constant values.
Proof.
  intros values name [] d H; unfold read_constant in H; inv_rd; [].
  match goal with H : read_data_type _ _ _ = _ |- _ =>
    apply read_data_type_ok in H; destruct H as [K N] end.
  repeat split; try assumption. constructor. intros ->.
  match goal with H : y_is_none YNull = _ |- _ => discriminate H end.
Qed.

Lemma in_false : forall v l, y_in v l = false <-> forall x, In x l -> y_eqb v x = false.
Proof.
  intros v l. unfold y_in. split.
  - intros H x I. destruct (y_eqb v x) eqn:E; [|reflexivity].
    rewrite <- H. symmetry. apply existsb_exists. eauto.
  - intros H. destruct (existsb _ l) eqn:E; [|reflexivity].
    apply existsb_exists in E. destruct E as [x [I Q]]. rewrite (H x I) in Q. discriminate Q.
Qed.

Lemma enum_aliases_in : forall vs a, In a (enum_aliases vs) <->
  exists x l, In x vs /\ y_iter (rv_aliases x) = Ok l /\ In a l.
Proof.
  intros vs a. unfold enum_aliases. rewrite in_flat_map. split.
  - intros [x [I Q]]. destruct (y_iter (rv_aliases x)) eqn:E; [|destruct Q|destruct Q]. eauto.
  - intros [x [l [I [E Q]]]]. exists x. rewrite E. auto.
Qed.

Lemma check_enum_iff : forall dname known l, check_enum_aliases dname known l = ROk tt <->
  Forall (fun a => y_hashable a = true) l /\ Forall (fun a => y_in a known = false) l.
Proof.
  intros dname known l. induction l as [|a l IH]; cbn [check_enum_aliases]; [split; auto|]. split.
  - intros H. inv_rd. apply IH in H. destruct H. split; constructor; assumption.
  - intros [F G]. inversion F; inversion G; subst. unfold hashed.
    match goal with H : y_hashable a = true |- _ => rewrite H end. cbn [rbind].
    match goal with H : y_in a known = false |- _ => rewrite H end. apply IH. auto.
Qed.

Lemma unique_snoc : forall vs x l, unique_aliases vs -> y_iter (rv_aliases x) = Ok l ->
  Forall (fun a => y_in a (enum_aliases vs) = false) l -> unique_aliases (vs ++ [x]).
Proof.
  intros vs x l U E F i j y z ly lz a b L Hi Hj Ey Ez Ia Ib.
  destruct (Nat.lt_ge_cases j (List.length vs)) as [J|J].
  - rewrite nth_error_app1 in Hj by lia. rewrite nth_error_app1 in Hi by lia.
    exact (U i j y z ly lz a b L Hi Hj Ey Ez Ia Ib).
  - rewrite nth_error_app2 in Hj by lia.
    destruct (j - List.length vs)%nat as [|n] eqn:Q; cbn in Hj;
      [|destruct n; discriminate Hj].
    injection Hj as <-. rewrite nth_error_app1 in Hi by lia.
    rewrite E in Ez. injection Ez as <-. rewrite Forall_forall in F.
    apply (proj1 (in_false _ _) (F b Ib)). apply enum_aliases_in.
    apply nth_error_In in Hi. eauto.
Qed.

Lemma unique_nil : unique_aliases [].
Proof. intros i j x y l l' a b _ H. destruct i; discriminate H. Qed.

Lemma add_value_ok : forall dname vs v vs',
  add_value dname vs v = ROk vs' ->
  vs' = vs ++ [v]
  /\ (distinct (map rv_name vs) -> distinct (map rv_name vs'))
  /\ (distinct (map rv_number vs) -> distinct (map rv_number vs'))
  /\ (unique_aliases vs -> unique_aliases vs').
Proof.
  intros dname vs v vs' H. unfold add_value in H. inv_rd.
  match goal with H : check_enum_aliases _ _ _ = ROk ?u |- _ =>
    destruct u; apply check_enum_iff in H; destruct H as [_ G] end.
  split; [reflexivity|].
  split; [|split]; intros D; [rewrite map_app; apply distinct_snoc; assumption..|].
  eapply unique_snoc; eassumption.
Qed.

Lemma read_enum_values_ok : forall dname l last vs vs',
  read_enum_values dname last vs l = ROk vs' ->
  Forall (fun v => ~ falsy (rv_name v) /\ rv_number v <> YNull) vs ->
  distinct (map rv_name vs) -> distinct (map rv_number vs) -> unique_aliases vs ->
  Forall (fun v => ~ falsy (rv_name v) /\ rv_number v <> YNull) vs'
  /\ distinct (map rv_name vs') /\ distinct (map rv_number vs') /\ unique_aliases vs'
  /\ List.length vs' = (List.length vs + List.length l)%nat.
Proof.
  intros dname l. induction l as [|x l IH]; intros last vs vs' H F D1 D2 U;
    cbn [read_enum_values] in H; inv_rd.
  - repeat split; try assumption. cbn. lia.
  - match goal with H : add_value _ _ _ = _ |- _ =>
      apply add_value_ok in H; destruct H as [-> [A [B B']]] end.
    match goal with H : _ || _ = false |- _ =>
      apply orb_false_iff in H; destruct H as [T N] end.
    apply IH in H; [|apply Forall_app; split; [exact F|]|auto|auto|auto].
    + destruct H as [F' [D1' [D2' [U' L]]]]. repeat split; try assumption.
      rewrite app_length in L. cbn in L |- *. lia.
    + constructor; [|constructor]. cbn. split.
      * unfold falsy; change truth with y_truthy. intros C. rewrite C in T. discriminate T.
      * intros ->. discriminate N.
Qed.

Lemma truthy_iter : forall v l, y_truthy v = true -> y_iter v = Ok l -> l <> [].
Proof.
  intros v l T I E. subst l. destruct v; cbn in T, I; try discriminate I;
    injection I as I; try (apply map_eq_nil in I); subst; discriminate T.
Qed.

Lemma read_enumeration_ok : forall values name is_member d,
  read_enumeration values name is_member = ROk d ->
  well_formed d /\ rd_name d = name /\ is_member = false
  /\ only_keys keys_enumeration values.
Proof.
  intros values name [] d H; unfold read_enumeration in H; inv_rd; [].
  match goal with H : read_data_type _ _ _ = _ |- _ =>
    apply read_data_type_ok in H; destruct H as [K N] end.
  match goal with H : read_enum_values _ _ _ _ = _ |- _ =>
    apply read_enum_values_ok in H; [|constructor|apply distinct_nil|apply distinct_nil|apply unique_nil];
    destruct H as [F [D1 [D2 [U L]]]] end.
  repeat split; try assumption. constructor. repeat split; try assumption.
  intros ->.
  match goal with T : negb _ = false, I : y_iter _ = Ok ?l |- _ =>
    apply negb_false_iff in T; pose proof (truthy_iter _ _ T I); destruct l;
      [congruence|discriminate L] end.
Qed.

Lemma int_or_expr_ok : forall env v a b,
  int_or_expr env v = ROk (a, b) ->
  (exists z, a = Some z /\ b = None) \/ (a = None /\ b = Some v).
Proof.
  intros env v a b H. unfold int_or_expr in H.
  destruct (y_int env v) as [z|e|]; [|destruct e|]; try discriminate H;
    injection H as <- <-; eauto.
Qed.

Lemma given_none : forall A, ~ given (@None A).
Proof. intros A [a H]. discriminate H. Qed.

Lemma given_some : forall A (a : A), given (Some a).
Proof. intros A a. exists a. reflexivity. Qed.

(** Both parts of an integer-or-expression pair. *)
Lemma int_or_expr_given : forall env v p,
  int_or_expr env v = ROk p ->
  (given (fst p) \/ given (snd p)) /\ ~ (given (fst p) /\ given (snd p)).
Proof.
  intros env v [a b] H. apply int_or_expr_ok in H. cbn.
  destruct H as [[z [-> ->]]|[-> ->]].
  - split; [left; apply given_some|intros [_ C]; exact (given_none _ C)].
  - split; [right; apply given_some|intros [C _]; exact (given_none _ C)].
Qed.

Lemma read_elements_ok : forall env r values name supported e elem,
  Forall well_formed (registered r) ->
  read_elements env r values name supported = ROk (e, elem) ->
  only_keys supported values /\ rm_name (re_meta e) = name /\ governed e
  /\ a_byte_order (re_bo e) /\ In elem (registered r)
  /\ rlookup env r (re_data_type e) = ROk (Some elem)
  /\ entry values "element_data_type" (re_data_type e).
Proof.
  intros env r values name supported e elem R H. unfold read_elements in H. inv_rd.
  destruct x. apply check_keys_ok in E. destruct x4 as [d|]; inv_rd.
  assert (I : In elem (registered r)) by (eapply rlookup_in; eassumption).
  apply read_meta_ok in E8. subst name.
  split; [exact E|]. split; [reflexivity|]. split; [|split; [|split; [exact I|split; [exact E7|]]]].
  - apply andb_false_iff in E6. unfold governed. cbn.
    destruct (y_is_none x1) eqn:N1; cbn in E6, E9.
    + injection E9 as <-. cbn [fst snd].
      destruct (y_is_none x3) eqn:N3; cbn in E10.
      * injection E10 as <-. cbn [fst snd].
        apply is_none_iff in N1, N3. subst x1 x3. cbn in E5.
        rewrite andb_true_r in E5.
        repeat split; try (intros C; decompose [and or] C; eapply given_none; eassumption).
        right. right. destruct x2; cbn in E5; try discriminate E5; inv_rd;
          apply given_some.
      * apply int_or_expr_given in E10. destruct E10 as [G N].
        repeat split; try assumption.
        -- right. left. exact G.
        -- intros [[C|C] _]; exact (given_none _ C).
        -- intros [C _]. exact (given_none _ C).
    + cbn [negb orb] in E10. injection E10 as <-. cbn [fst snd].
      apply int_or_expr_given in E9. destruct E9 as [G N].
      repeat split; try assumption.
      * left. exact G.
      * intros [_ [C|C]]; exact (given_none _ C).
      * intros [C _]. exact (given_none _ C).
  - cbn. apply well_formed_order. rewrite Forall_forall in R. auto.
  - cbn. apply y_get_entry; [exact E0|]. apply y_truthy_null.
    apply negb_false_iff in E1. exact E1.
Qed.

Definition elems_keys (k : seq_kind) (is_member : bool) : list string :=
  match k with
  | KString => if is_member then keys_string_member else keys_string
  | _ => if is_member then keys_elements_member else keys_elements
  end.

Lemma read_elems_ok : forall env r k values name is_member d,
  Forall well_formed (registered r) ->
  read_elems env r k values name is_member = ROk d ->
  exists e elem, d = RElems k e elem
  /\ well_formed d /\ rd_name d = name /\ only_keys (elems_keys k is_member) values
  /\ In elem (registered r)
  /\ rlookup env r (re_data_type e) = ROk (Some elem)
  /\ entry values "element_data_type" (re_data_type e).
Proof.
  intros env r k values name is_member d R H.
  assert (W : forall elem, In elem (registered r) -> well_formed elem).
  { rewrite Forall_forall in R. exact R. }
  destruct k; unfold read_elems in H; inv_rd;
    match goal with E : read_elements _ _ _ _ _ = ROk ?p |- _ =>
      destruct p as [e elem];
      apply read_elements_ok in E; [|exact R];
      destruct E as [K [N [G [O [I [L X]]]]]] end.
  - exists e, elem. cbn [fst snd]. repeat split; try assumption.
    constructor; auto. discriminate.
  - exists e, elem. cbn [fst snd]. repeat split; try assumption.
    constructor; auto. discriminate.
  - do 2 eexists. split; [reflexivity|]. cbn [fst snd re_data_type].
    repeat split; try assumption.
    constructor; auto. cbn. intros _ C.
    match goal with T : negb (y_truthy _) = false |- _ =>
      apply negb_false_iff in T; unfold falsy in C; change truth with y_truthy in C; congruence end.
Qed.

Lemma read_layout_ok : forall dname l out,
  read_layout dname l = ROk out ->
  Forall (fun x => ~ falsy (fst x)) out /\ Forall (only_keys ["data_type"; "offset"]%string) l.
Proof.
  intros dname l. induction l as [|x l IH]; intros out H; cbn [read_layout] in H; inv_rd.
  - split; constructor.
  - match goal with T : negb (y_truthy _) = false |- _ => apply negb_false_iff in T end.
    match goal with T : check_keys _ _ _ = ROk ?u |- _ =>
      destruct u; apply check_keys_ok in T end.
    match goal with T : read_layout _ _ = _ |- _ => apply IH in T; destruct T as [F1 F2] end.
    split; constructor; try assumption. cbn. unfold falsy; change truth with y_truthy. congruence.
Qed.

Lemma read_format_ok : forall values name is_member d,
  read_format values name is_member = ROk d ->
  well_formed d /\ rd_name d = name /\ is_member = false
  /\ only_keys keys_format values /\ attribute_keys attrs_format values
  /\ (forall l, items values "layout" l -> Forall (only_keys ["data_type"; "offset"]%string) l).
Proof.
  intros values name [] d H; unfold read_format in H; inv_rd; [].
  match goal with T : read_data_type _ _ _ = _ |- _ =>
    apply read_data_type_ok in T; destruct T as [K N] end.
  match goal with T : read_layout _ _ = _ |- _ =>
    apply read_layout_ok in T; destruct T as [F1 F2] end.
  assert (L : forall l, items values "layout" l ->
    Forall (only_keys ["data_type"; "offset"]%string) l).
  { intros l [v [En It]]. destruct En as [kvs [-> G]].
    match goal with T : y_get_or (YList []) "layout" _ = Ok _ |- _ =>
      unfold y_get_or in T; rewrite G in T; injection T as <- end.
    rewrite It in E1. injection E1 as <-. exact F2. }
  destruct (y_truthy x4) eqn:T; inv_rd.
  - apply read_byte_order_ok in E. destruct E as [O A].
    repeat split; try assumption.
    + constructor; [|exact F1]. intros b Hb. injection Hb as <-. exact O.
    + intros a Ea _. apply entry_get in Ea. rewrite E4 in Ea. injection Ea as <-. exact A.
  - repeat split; try assumption.
    + constructor; [|exact F1]. intros b Hb. discriminate Hb.
    + intros a Ea Fa. apply entry_get in Ea. rewrite E4 in Ea. injection Ea as <-.
      contradiction.
Qed.

Lemma read_padding_ok : forall env values name is_member d,
  read_padding env values name is_member = ROk d ->
  well_formed d /\ rd_name d = name /\ is_member = true
  /\ only_keys keys_padding values /\ exists m bo a, d = RPadding m bo a.
Proof.
  intros env values name [] d H; unfold read_padding in H; cbn [negb] in H; inv_rd; [].
  match goal with T : read_data_type _ _ _ = _ |- _ =>
    apply read_data_type_ok in T; destruct T as [K N] end.
  destruct (y_int env x0) as [z|e|]; [|destruct e; discriminate H|discriminate H].
  inv_rd. repeat split; try assumption; [|eauto].
  constructor; [apply native_order|]. apply y_in_numbers. assumption.
Qed.

(** What is guaranteed about one member. *)
Definition member_ok (conditions : bool) (d : rdef) : Prop :=
  well_formed d /\ is_member_def d /\ member_named d
  /\ (conditions = false -> no_condition d).

Lemma read_with_members_ok : forall c read values name m bo ss ms,
  (forall x d, read x = ROk d -> member_ok c d) ->
  read_with_members read values name = ROk (m, bo, ss, ms) ->
  rm_name m = name /\ a_byte_order bo /\ only_keys keys_with_members values
  /\ attribute_keys attrs_storage values
  /\ distinct (map rd_name ms) /\ Forall (member_ok c) ms /\ (ms = [] -> ss <> []).
Proof.
  intros c read values name m bo ss ms R H. unfold read_with_members in H. inv_rd.
  match goal with T : read_data_type _ _ _ = _ |- _ =>
    apply read_data_type_ok in T; destruct T as [K N] end.
  destruct x4 as [ms ss].
  match goal with T : read_members _ _ _ _ _ = _ |- _ =>
    apply (read_members_ok (member_ok c)) in T;
      [|intros; eapply R; eassumption|apply distinct_nil|constructor];
      destruct T as [D [F X]] end.
  cbn [fst snd].
  split; [exact N|]. split; [|split; [exact K|split; [|split; [exact D|split; [exact F|]]]]].
  - destruct (y_truthy x1); inv_rd; [|apply native_order].
    match goal with T : read_byte_order _ _ _ = _ |- _ =>
      apply read_byte_order_ok in T; apply T end.
  - intros a Ea Fa. apply entry_get in Ea.
    match goal with T : y_get "attributes" values = Ok _ |- _ =>
      rewrite T in Ea; injection Ea as <- end.
    destruct (y_truthy x1) eqn:T; [|contradiction].
    match goal with T : read_byte_order _ _ _ = _ |- _ =>
      apply read_byte_order_ok in T; apply T end.
  - intros ->. destruct X as [X|X]; [|congruence|exact X].
    left. match goal with T : negb (y_truthy _) = false, I : y_iter _ = Ok _ |- _ =>
      apply negb_false_iff in T; exact (truthy_iter _ _ T I) end.
Qed.

Lemma read_family_members_ok : forall env r dname l ms ms',
  read_family_members env r dname ms l = ROk ms' ->
  distinct (map rd_name ms) -> Forall (fun d => In d (registered r)) ms ->
  distinct (map rd_name ms') /\ Forall (fun d => In d (registered r)) ms'
  /\ List.length ms' = (List.length ms + List.length l)%nat.
Proof.
  intros env r dname l. induction l as [|x l IH]; intros ms ms' H D F;
    cbn [read_family_members] in H; inv_rd.
  - repeat split; try assumption. cbn. lia.
  - destruct x0 as [d|]; inv_rd.
    match goal with T : add_member _ _ _ = _ |- _ =>
      apply add_member_ok in T; destruct T as [-> D'] end.
    apply IH in H; [|auto|].
    + destruct H as [D2 [F2 L]]. repeat split; try assumption.
      rewrite app_length in L. cbn in L |- *. lia.
    + apply Forall_app. split; [exact F|]. constructor; [|constructor].
      eapply rlookup_in; eassumption.
Qed.

Lemma read_family_ok : forall env r values name is_member d,
  Forall well_formed (registered r) ->
  read_family env r values name is_member = ROk d ->
  well_formed d /\ rd_name d = name /\ is_member = false /\ only_keys keys_family values
  /\ exists m base ms, d = RFamily m base ms /\ Forall (fun t => In t (registered r)) (base :: ms).
Proof.
  intros env r values name is_member d R H. unfold read_family in H.
  destruct is_member; inv_rd.
  match goal with T : check_keys _ _ _ = ROk ?u |- _ =>
    destruct u; apply check_keys_ok in T end.
  match goal with T : rlookup _ _ _ = ROk ?o |- _ => destruct o as [b|]; inv_rd end.
  match goal with T : rlookup _ _ _ = ROk (Some b) |- _ => apply rlookup_in in T; rename T into I end.
  match goal with T : read_family_members _ _ _ _ _ = ROk _ |- _ =>
    apply read_family_members_ok in T; [|apply distinct_nil|constructor];
    destruct T as [D [F L]] end.
  match goal with T : read_meta _ _ = _ |- _ => apply read_meta_ok in T; subst name end.
  assert (W : forall d, In d (registered r) -> well_formed d).
  { rewrite Forall_forall in R. exact R. }
  repeat split; try assumption.
  - constructor; auto.
    + intros ->. match goal with T : negb (y_truthy _) = false, I : y_iter _ = Ok ?l |- _ =>
        apply negb_false_iff in T; pose proof (truthy_iter _ _ T I); destruct l;
        [congruence|discriminate L] end.
    + eapply Forall_impl; [|exact F]. exact W.
  - do 3 eexists. split; [reflexivity|]. constructor; assumption.
Qed.

Lemma read_group_members_ok : forall env r dname identifier l ms ms',
  let P := fun d => In d (registered r) /\
    exists inner x, rd_members d = Some inner /\ In x inner /\
      y_eqb identifier (rd_name x) = true in
  read_group_members env r dname identifier ms l = ROk ms' ->
  distinct (map rd_name ms) -> Forall P ms ->
  distinct (map rd_name ms') /\ Forall P ms'
  /\ List.length ms' = (List.length ms + List.length l)%nat.
Proof.
  intros env r dname identifier l ms ms' P. revert ms ms'.
  induction l as [|x l IH]; intros ms ms' H D F; cbn [read_group_members] in H; inv_rd.
  - repeat split; try assumption. cbn. lia.
  - destruct x0 as [d|]; inv_rd.
    destruct (rd_members d) as [inner|] eqn:M; inv_rd.
    match goal with T : add_member _ _ _ = _ |- _ =>
      apply add_member_ok in T; destruct T as [-> D'] end.
    apply IH in H; [|auto|].
    + destruct H as [D2 [F2 L]]. repeat split; try assumption.
      rewrite app_length in L. cbn in L |- *. lia.
    + apply Forall_app. split; [exact F|]. constructor; [|constructor].
      split; [eapply rlookup_in; eassumption|].
      match goal with T : negb (y_in _ _) = false |- _ =>
        apply negb_false_iff in T; unfold y_in in T; apply existsb_exists in T;
        destruct T as [nm [I Q]] end.
      apply in_map_iff in I. destruct I as [y [<- I]].
      exists inner, y. auto.
Qed.

Lemma read_group_ok : forall env r values name is_member d,
  Forall well_formed (registered r) ->
  read_group env r values name is_member = ROk d ->
  well_formed d /\ rd_name d = name /\ is_member = false /\ only_keys keys_group values
  /\ (exists m bo base i df ms, d = RGroup m bo base i df ms)
  /\ Forall (fun t => In t (registered r)) (targets d).
Proof.
  intros env r values name is_member d R H. unfold read_group in H.
  destruct is_member; inv_rd.
  match goal with T : check_keys _ _ _ = ROk ?u |- _ =>
    destruct u; apply check_keys_ok in T end.
  match goal with T : rlookup _ _ _ = ROk ?o |- _ => destruct o as [b|]; inv_rd end.
  match goal with T : rlookup _ _ _ = ROk (Some b) |- _ => apply rlookup_in in T; rename T into I end.
  match goal with T : read_group_members _ _ _ _ _ _ = ROk _ |- _ =>
    apply read_group_members_ok in T; [|apply distinct_nil|constructor];
    destruct T as [D [F L]] end.
  match goal with T : read_meta _ _ = _ |- _ => apply read_meta_ok in T; subst name end.
  assert (W : forall d, In d (registered r) -> well_formed d).
  { rewrite Forall_forall in R. exact R. }
  match goal with T : (if negb (y_truthy _) then _ else _) = ROk ?o |- _ =>
    assert (Df : forall d, o = Some d -> In d (registered r));
    [destruct (negb _) in T; inv_rd; [discriminate|];
     match goal with T : rlookup _ _ _ = ROk ?o |- _ => destruct o; inv_rd end;
     intros ? [= <-]; eapply rlookup_in; eassumption|clear T] end.
  split; [|split; [reflexivity|split; [reflexivity|split; [assumption|split; [eauto 7|]]]]].
  - constructor; auto.
    + apply well_formed_order. auto.
    + unfold falsy; change truth with y_truthy. match goal with T : negb (y_truthy ?v) = false |- ~ y_truthy ?v = false =>
        apply negb_false_iff in T; congruence end.
    + intros ->. match goal with T : negb (y_truthy ?v) = false, I : y_iter ?v = Ok ?l |- _ =>
        apply negb_false_iff in T; pose proof (truthy_iter _ _ T I); destruct l;
        [congruence|discriminate L] end.
    + eapply Forall_impl; [|exact F]. cbn. intros d [Hd He]. auto.
  - cbn. constructor; [exact I|]. apply Forall_app. split.
    + destruct x2; constructor; auto.
    + eapply Forall_impl; [|exact F]. intros d [Hd _]. exact Hd.
Qed.

Lemma callback_ok : forall env r rm k values name is_member d,
  Forall well_formed (registered r) ->
  (forall x dn c d, rm x dn c = ROk d -> member_ok c d) ->
  callback env r rm k values name is_member = ROk d ->
  well_formed d /\ rd_name d = name
  /\ (is_member = true -> inline d)
  /\ (k = KUnion -> exists m bo ss ms, d = RUnion m bo ss ms).
Proof.
  intros env r rm k values name is_member d R M H.
  destruct k; cbn [callback] in H.
  - unfold read_boolean in H. inv_rd. apply read_fixed_ok in E; [|apply native_size].
    destruct E as [F [N _]]. repeat split; try assumption; [constructor; assumption|discriminate].
  - unfold read_character in H. inv_rd. apply read_fixed_ok in E; [|apply native_size].
    destruct E as [F [N _]]. repeat split; try assumption; [constructor; assumption|discriminate].
  - apply read_constant_ok in H. destruct H as [W [N [-> _]]].
    repeat split; try assumption; discriminate.
  - apply read_enumeration_ok in H. destruct H as [W [N [-> _]]].
    repeat split; try assumption; discriminate.
  - unfold read_float in H. inv_rd. apply read_fixed_ok in E; [|apply native_size].
    destruct E as [F [N _]]. repeat split; try assumption; [constructor; assumption|discriminate].
  - apply read_format_ok in H. destruct H as [W [N [-> _]]].
    repeat split; try assumption; discriminate.
  - unfold read_integer in H. inv_rd. apply read_fixed_ok in E; [|apply native_size].
    destruct E as [F [N _]].
    destruct (y_truthy x0); inv_rd.
    + repeat split; try assumption; [|discriminate]. constructor; [assumption|].
      apply y_in_names. assumption.
    + repeat split; try assumption; [|discriminate]. constructor; [assumption|].
      eexists. split; [reflexivity|]. cbn. auto.
  - apply read_padding_ok in H. destruct H as [W [N [-> [_ [m [bo [a ->]]]]]]].
    repeat split; try assumption; discriminate.
  - apply read_elems_ok in H; [|exact R]. destruct H as [e [elem [-> [W [N _]]]]].
    repeat split; try assumption; discriminate.
  - destruct is_member; inv_rd. destruct x as [[[m bo] ss] ms]. inv_rd.
    apply (read_with_members_ok true) in E; [|intros; eapply M; eassumption].
    destruct E as [N [O [_ [_ [D [F X]]]]]].
    repeat split; try assumption; try discriminate.
    constructor; try assumption.
    eapply Forall_impl; [|exact F]. intros a [Wa [Ma [Na _]]]. auto.
  - apply read_family_ok in H; [|exact R]. destruct H as [W [N [-> _]]].
    repeat split; try assumption; discriminate.
  - apply read_group_ok in H; [|exact R]. destruct H as [W [N [-> _]]].
    repeat split; try assumption; discriminate.
  - inv_rd. destruct x as [[[m bo] ss] ms]. inv_rd.
    apply (read_with_members_ok false) in E; [|intros; eapply M; eassumption].
    destruct E as [N [O [_ [_ [D [F X]]]]]].
    repeat split; try assumption; [|eauto 6].
    constructor; try assumption.
    eapply Forall_impl; [|exact F]. intros a [Wa [Ma [Na Ca]]]. auto.
  - unfold read_uuid in H. inv_rd. apply read_fixed_ok in E.
    + destruct E as [F [N _]].
      repeat split; try assumption; [constructor; assumption|discriminate].
    + right. exists 16. split; [cbn; auto|constructor].
Qed.

Lemma in_member_ok : forall A dname (r : rd A) a, in_member dname r = ROk a -> r = ROk a.
Proof.
  intros A dname [x|[n|e]|] a H; cbn [in_member] in H; inv_rd; try assumption. reflexivity.
Qed.

Lemma encode_values_ok : forall l out,
  encode_values l = ROk out ->
  List.length out = List.length l /\ Forall (fun v => is_ystr v = false) out.
Proof.
  intros l. induction l as [|x l IH]; intros out H; cbn [encode_values] in H; inv_rd.
  - split; [reflexivity|constructor].
  - match goal with T : encode_values l = _ |- _ => apply IH in T; destruct T as [L F] end.
    split; [cbn; lia|]. constructor; [|exact F].
    destruct x; inv_rd; try reflexivity.
Qed.

Lemma read_member_ok : forall env r,
  Forall well_formed (registered r) ->
  forall fuel values dname c d,
    read_member env r fuel values dname c = ROk d -> member_ok c d.
Proof.
  intros env r R fuel. induction fuel as [|fuel IH]; intros values dname c d H;
    cbn [read_member] in H; [discriminate H|]. inv_rd.
  rename x into name, x0 into ti, x1 into dt, x2 into cond, x3 into val, x4 into vals, x5 into sup.
  assert (C : c = false -> falsy cond).
  { intros ->. match goal with T : negb false && y_truthy cond = false |- _ => exact T end. }
  assert (S : forall l, sup = Some l -> l <> [] /\ Forall (fun v => is_ystr v = false) l).
  { clear H. intros l ->.
    match goal with T : (if y_truthy ?v then _ else _) = ROk (Some l) |- _ =>
      destruct (y_truthy v) eqn:Tv; inv_rd; [|discriminate] end.
    match goal with T : encode_values ?i = ROk l |- _ =>
      apply encode_values_ok in T; destruct T as [L F];
      assert (N : i <> []) by (eapply truthy_iter; eassumption);
      split; [|exact F]; intros ->; destruct i; [congruence|discriminate L] end. }
  destruct (negb (y_is_none ti)) eqn:Ti.
  - inv_rd. match goal with T : find_callback _ = ROk ?o |- _ =>
      destruct o as [k|]; inv_rd; apply find_callback_ok in T; rename T into K end.
    match goal with T : in_member _ _ = ROk ?o |- _ =>
      apply in_member_ok in T; apply callback_ok in T;
        [|exact R|intros; eapply IH; eassumption];
      destruct T as [W [<- [Inl U]]]; rename o into dd end.
    specialize (Inl eq_refl).
    assert (MN : falsy (rd_name dd) -> k = KUnion).
    { intros Fn. unfold falsy in Fn; change truth with y_truthy in Fn. rewrite Fn in *.
      match goal with T : negb false && negb (y_eqb ti (Y "union")) = false |- _ =>
        cbn [negb andb] in T; apply negb_false_iff in T; apply y_eqb_str in T;
        subst ti end.
      match goal with T : YStr (us "union") = Y (kind_name k) |- _ =>
        apply (Y_inj "union") in T end.
      destruct k as [| | | | | | | |[]| | | | |]; cbn in K; congruence. }
    destruct (y_truthy cond || _) eqn:B; inv_rd.
    + split; [|split; [exact I|split]].
      * constructor; [apply well_formed_order, W|exact W|exact S|].
        intros _. split; [exact Inl|]. apply orb_true_iff in B.
        destruct B as [B|B]; [left; unfold falsy; change truth with y_truthy; congruence|right].
        intros ->. discriminate B.
      * intros Fn. cbn in Fn |- *. apply MN in Fn. apply U in Fn.
        destruct Fn as [? [? [? [? ->]]]]. exact I.
      * exact C.
    + split; [exact W|]. split; [destruct d; try exact Inl; exact I|]. split.
      * intros Fn. apply MN in Fn. apply U in Fn.
        destruct Fn as [? [? [? [? ->]]]]. exact I.
      * intros _. destruct d; try exact I. destruct Inl.
  - inv_rd. match goal with T : rlookup _ _ _ = ROk ?o |- _ =>
      destruct o as [dd|]; inv_rd; apply rlookup_in in T; rename T into L end.
    apply negb_false_iff, is_none_iff in Ti. subst ti.
    assert (W : well_formed dd) by (rewrite Forall_forall in R; auto).
    split; [|split; [exact I|split]].
    + constructor; [apply well_formed_order, W|exact W|exact S|].
      intros ->.
      match goal with T : y_is_none YNull && y_is_none YNull = false |- _ => discriminate T end.
    + intros Fn. cbn in Fn |- *. unfold falsy in Fn; change truth with y_truthy in Fn. rewrite Fn in *.
      match goal with T : negb false && negb (y_eqb YNull _) = false |- _ => discriminate T end.
    + exact C.
Qed.

(** What a document that is read yields. *)
Lemma read_definition_ok : forall env r doc d,
  Forall well_formed (registered r) ->
  read_definition env r doc = ROk d ->
  well_formed d /\ entry doc "name" (rd_name d) /\ ~ falsy (rd_name d).
Proof.
  intros env r doc d R H. unfold read_definition in H. inv_rd.
  match goal with T : find_callback _ = ROk ?o |- _ => destruct o as [k|]; inv_rd end.
  apply callback_ok in H; [|exact R|intros; eapply read_member_ok; eassumption].
  destruct H as [W [<- _]]. split; [exact W|].
  match goal with T : y_get "name" _ = Ok _, U : negb (y_truthy (rd_name d)) = false |- _ =>
    apply negb_false_iff in U; split;
      [apply y_get_entry; [exact T|apply y_truthy_null, U]|unfold falsy; change truth with y_truthy; congruence] end.
Qed.
