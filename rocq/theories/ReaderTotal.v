(** Reading a definition always ends: the fuel for inline unions suffices. *)
From Coq Require Import String Ascii List ZArith Bool Lia.
From Verif Require Import Base Ieee Yaml DataTypes Reader SpecReader ReaderProofs.
Import ListNotations.
Open Scope Z_scope.

Lemma nf_bind : forall A B (r : rd A) (k : A -> rd B),
  r <> RFuel -> (forall a, r = ROk a -> k a <> RFuel) -> rbind r k <> RFuel.
Proof. intros A B [a|e|] k H K; cbn; auto; discriminate. Qed.

Lemma nf_lift : forall A (r : res A), r <> OutOfFuel -> lift r <> RFuel.
Proof. intros A [a|e|] H; cbn; congruence. Qed.

Lemma nf_raise : forall A name l, @raise_def A name l <> RFuel.
Proof.
  intros A name l. unfold raise_def. induction l as [|v l IH]; [discriminate|].
  destruct v; cbn; try discriminate; exact IH.
Qed.

Lemma nf_hashed : forall v, hashed v <> RFuel.
Proof. intros v. unfold hashed. destruct (y_hashable v); discriminate. Qed.

Lemma nf_get : forall d k v, y_get_or d k v <> OutOfFuel.
Proof. intros d k []; discriminate. Qed.

Lemma nf_iter : forall v, y_iter v <> OutOfFuel.
Proof. intros []; discriminate. Qed.

Lemma nf_encode : forall n s, u_encode n s <> OutOfFuel.
Proof. intros n s. unfold u_encode. destruct (forallb _ _); discriminate. Qed.

Lemma nf_int : forall env v, y_int env v <> OutOfFuel.
Proof.
  intros env []; cbn; try discriminate.
  - destruct (ieee_decode 52 11 bits); discriminate.
  - destruct (y_int_str env s); discriminate.
  - destruct (y_int_bytes env b); discriminate.
Qed.

Lemma nf_lower : forall env v, y_lower env v <> OutOfFuel.
Proof. intros env []; discriminate. Qed.

Lemma nf_keys : forall name v l, check_keys name v l <> RFuel.
Proof.
  intros name v l. unfold check_keys. apply nf_bind.
  - apply nf_lift. destruct v; discriminate.
  - intros keys _. destruct (filter _ _); [discriminate|]. destruct (forallb _ _); discriminate.
Qed.

Lemma nf_lookup : forall env r n, rlookup env r n <> RFuel.
Proof.
  intros env r n. unfold rlookup. apply nf_bind; [apply nf_lift, nf_lower|]. discriminate.
Qed.

Lemma nf_callback : forall ti, find_callback ti <> RFuel.
Proof. intros ti. unfold find_callback. apply nf_bind; [apply nf_hashed|]. discriminate. Qed.

Create HintDb nf.
#[local] Hint Resolve nf_lift nf_raise nf_hashed nf_get nf_iter nf_encode nf_int nf_lower nf_keys
  nf_lookup nf_callback : nf.

Ltac nf :=
  repeat match goal with
  | |- rbind _ _ <> RFuel => apply nf_bind; [|let E := fresh "E" in intros ? E]
  | |- (if ?c then _ else _) <> RFuel => destruct c eqn:?
  | |- lift (y_get _ _) <> RFuel => apply nf_lift, nf_get
  | |- lift _ <> RFuel => apply nf_lift
  | |- match y_int ?e ?v with _ => _ end <> RFuel =>
      let Q := fresh "Q" in
      destruct (y_int e v) as [?|[]|] eqn:Q; [|discriminate..|exfalso; exact (nf_int _ _ Q)]
  | |- match ?o with Some _ => _ | None => _ end <> RFuel => destruct o
  | |- ROk _ <> RFuel => discriminate
  | |- RErr _ <> RFuel => discriminate
  | |- _ => solve [auto with nf]
  end.

Lemma nf_meta : forall v n, read_meta v n <> RFuel.
Proof. intros v n. unfold read_meta. nf. Qed.

Lemma nf_data_type : forall v n l, read_data_type v n l <> RFuel.
Proof. intros v n l. unfold read_data_type. nf. apply nf_meta. Qed.

Lemma nf_byte_order : forall n a l, read_byte_order n a l <> RFuel.
Proof. intros n a l. unfold read_byte_order. nf. Qed.
#[local] Hint Resolve nf_meta nf_data_type nf_byte_order : nf.

Lemma nf_fixed : forall env v n a d c b s, read_fixed env v n a d c b s <> RFuel.
Proof.
  intros env v n a d c b s. unfold read_fixed, read_storage. nf.
Qed.
#[local] Hint Resolve nf_fixed : nf.

Lemma nf_ioe : forall env v, int_or_expr env v <> RFuel.
Proof.
  intros env v. unfold int_or_expr. destruct (y_int env v) eqn:E;
    [discriminate|destruct e; discriminate|]. exfalso. exact (nf_int _ _ E).
Qed.
#[local] Hint Resolve nf_ioe : nf.

Lemma nf_elements : forall env r v n l, read_elements env r v n l <> RFuel.
Proof.
  intros env r v n l. unfold read_elements. nf.
  destruct a4; nf. destruct a2; nf.
Qed.
#[local] Hint Resolve nf_elements : nf.

Lemma nf_elems : forall env r k v n b, read_elems env r k v n b <> RFuel.
Proof. intros env r [] v n b; unfold read_elems; nf. Qed.

Lemma nf_enum_aliases : forall n k l, check_enum_aliases n k l <> RFuel.
Proof. intros n k l. induction l as [|x l IH]; cbn [check_enum_aliases]; nf. Qed.
#[local] Hint Resolve nf_enum_aliases : nf.

Lemma nf_enum_values : forall n l last vs, read_enum_values n last vs l <> RFuel.
Proof.
  intros n l. induction l as [|x l IH]; intros last vs; cbn [read_enum_values]; [discriminate|].
  unfold add_value. nf.
Qed.
#[local] Hint Resolve nf_enum_values : nf.

Lemma nf_layout : forall n l, read_layout n l <> RFuel.
Proof. intros n l. induction l as [|x l IH]; cbn [read_layout]; nf. Qed.
#[local] Hint Resolve nf_layout : nf.

Lemma nf_add_member : forall n ms d, add_member n ms d <> RFuel.
Proof. intros n ms d. unfold add_member. nf. Qed.
#[local] Hint Resolve nf_add_member : nf.

Lemma nf_family_members : forall env r n l ms, read_family_members env r n ms l <> RFuel.
Proof.
  intros env r n l. induction l as [|x l IH]; intros ms; cbn [read_family_members]; [discriminate|].
  nf.
Qed.

Lemma nf_group_members : forall env r n i l ms, read_group_members env r n i ms l <> RFuel.
Proof.
  intros env r n i l. induction l as [|x l IH]; intros ms; cbn [read_group_members]; [discriminate|].
  nf.
Qed.

Lemma nf_encode_values : forall l, encode_values l <> RFuel.
Proof.
  induction l as [|x l IH]; cbn [encode_values]; [discriminate|]. nf. destruct x; nf.
Qed.

Lemma nf_members : forall read n l ms ss,
  (forall x, In x l -> read x <> RFuel) -> read_members read n ms ss l <> RFuel.
Proof.
  intros read n l. induction l as [|x l IH]; intros ms ss R; cbn [read_members]; [discriminate|].
  nf.
  - apply IH. intros y Hy. apply R. right. exact Hy.
  - apply R. left. reflexivity.
  - apply IH. intros y Hy. apply R. right. exact Hy.
Qed.

Lemma nf_with_members : forall read v n,
  (forall l x, items v "members" l -> In x l -> read x <> RFuel) ->
  read_with_members read v n <> RFuel.
Proof.
  intros read v n R. unfold read_with_members. nf.
  apply nf_members. intros x Hx. apply (R a3); [|exact Hx].
  exists a. split.
  - apply lift_ok in E. apply y_get_entry; [exact E|]. apply y_truthy_null.
    apply negb_false_iff. assumption.
  - apply lift_ok. exact E3.
Qed.

(** The items of an entry are less deep than the mapping. *)
Lemma items_height : forall v key l x, items v key l -> In x l -> (y_height x < y_height v)%nat.
Proof.
  intros v key l x [w [[kvs [-> G]] I]] Hx.
  assert (W : (y_height w <= fold_right (fun kv n =>
    Nat.max (Nat.max (y_height (fst kv)) (y_height (snd kv))) n) O kvs)%nat).
  { clear -G. induction kvs as [|[k u] kvs IH]; cbn [map_get] in G; [discriminate G|].
    cbn [fold_right fst snd]. destruct (y_eqb (Y key) k).
    - injection G as <-. lia.
    - specialize (IH G). lia. }
  assert (Xw : (y_height x <= y_height w)%nat).
  { assert (Li : forall l, In x l ->
      (y_height x <= fold_right (fun y n => Nat.max (y_height y) n) O l)%nat).
    { induction l0 as [|y l0 IH]; cbn; [intros []|]. intros [->|H]; [lia|].
      specialize (IH H). lia. }
    destruct w; cbn in I; try discriminate I; injection I as I; subst l.
    - apply in_map_iff in Hx. destruct Hx as [c [<- _]]. cbn. lia.
    - apply in_map_iff in Hx. destruct Hx as [c [<- _]]. cbn. lia.
    - cbn. specialize (Li _ Hx). lia.
    - cbn. specialize (Li _ Hx). lia.
    - cbn. specialize (Li _ Hx). lia.
    - cbn. apply in_map_iff in Hx. destruct Hx as [kv [<- Hkv]]. clear -Hkv.
      induction l0 as [|p l0 IH]; [destruct Hkv|]. cbn. destruct Hkv as [->|H]; [lia|].
      specialize (IH H). lia. }
  cbn [y_height]. lia.
Qed.

Lemma nf_of_callback : forall env r rm k v n b,
  (forall l x dn c, items v "members" l -> In x l -> rm x dn c <> RFuel) ->
  callback env r rm k v n b <> RFuel.
Proof.
  intros env r rm k v n b R. destruct k; cbn [callback].
  - unfold read_boolean. nf.
  - unfold read_character. nf.
  - unfold read_constant. nf.
  - unfold read_enumeration. nf.
  - unfold read_float. nf.
  - unfold read_format. nf.
  - unfold read_integer. nf.
  - unfold read_padding. nf.
  - apply nf_elems.
  - nf. apply nf_with_members. intros. eapply R; eassumption.
    destruct a as [[[? ?] ?] ?]. discriminate.
  - unfold read_family. nf. apply nf_family_members.
  - unfold read_group. nf. apply nf_group_members.
  - nf. apply nf_with_members. intros. eapply R; eassumption.
    destruct a as [[[? ?] ?] ?]. discriminate.
  - unfold read_uuid. nf.
Qed.

Lemma nf_member : forall env r fuel v dn c,
  (y_height v < fuel)%nat -> read_member env r fuel v dn c <> RFuel.
Proof.
  intros env r fuel. induction fuel as [|fuel IH]; intros v dn c H; [lia|].
  cbn [read_member]. nf.
  - apply nf_encode_values.
  - unfold in_member.
    destruct (callback _ _ _ _ _ _ _) as [|[]|] eqn:Q; try discriminate; [nf|].
    exfalso. revert Q. apply nf_of_callback. intros l x dn' c' Hi Hx. apply IH.
    pose proof (items_height _ _ _ _ Hi Hx). lia.
Qed.

Theorem read_definition_total : forall env r v, read_definition env r v <> RFuel.
Proof.
  intros env r v. unfold read_definition. nf.
  apply nf_of_callback. intros l x dn c Hi Hx. apply nf_member.
  pose proof (items_height _ _ _ _ Hi Hx). lia.
Qed.

Lemma register_total : forall env r d, rregister env r d <> OutOfFuel.
Proof.
  intros env r d. unfold rregister.
  assert (K : forall v A, @raise_key A v <> OutOfFuel) by (intros [] A; discriminate).
  destruct (y_lower env (rd_name d)) as [n|e|] eqn:E; cbn; [|discriminate|exact (fun _ => nf_lower _ _ E)].
  destruct (assoc_mem n _); [apply K|]. destruct (assoc_mem _ (rg_aliases r)); [apply K|].
  destruct (y_iter (rd_aliases d)) as [l|e|] eqn:I; cbn;
    [|discriminate|exact (fun _ => nf_iter _ I)].
  assert (C : check_aliases (rg_aliases r) l <> OutOfFuel).
  { clear I. induction l as [|a l IH]; cbn [check_aliases]; [discriminate|].
    destruct (negb (y_hashable a)); [discriminate|].
    destruct (assoc_mem a (rg_aliases r)); [apply K|exact IH]. }
  destruct (check_aliases _ l); cbn; congruence.
Qed.

Theorem read_docs_total : forall env docs r last e,
  fst (read_docs env r last docs e) <> OutOfFuel.
Proof.
  intros env docs. induction docs as [|doc docs IH]; intros r last e; cbn [read_docs].
  - destruct e; discriminate.
  - destruct (read_definition env r doc) as [d|[n|x]|] eqn:E; try discriminate.
    + destruct (rregister env r d) as [r'|x|] eqn:G; [apply IH|discriminate|].
      exfalso. exact (register_total _ _ _ G).
    + exfalso. exact (read_definition_total _ _ _ E).
Qed.
