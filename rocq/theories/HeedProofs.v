(** External values at which no expression looks do not matter: mapping, folding and size
    hints are the same with any two namespaces that agree on the names that matter. *)
From Coq Require Import String List ZArith Bool Lia.
From Verif Require Import Base PyVal PyStruct DataTypes ClassFactory DataMaps.
From Verif Require Import BytesProofs ContainerProofs SpecPrim SpecMap SpecCreate SpecGrow SpecHeed MapProofs PrimProofs StructProofs ContextProofs CreateProofs SteadyProofs.
Import ListNotations.
Open Scope Z_scope.

Section Names.
Variable wanted : list string.

(** Agreement on the names, but for the entry __builtins__ that evaluation sets. *)
Definition alike (e1 e2 : env) : Prop :=
  forall k, In k wanted -> k <> "__builtins__"%string -> dict_get k e1 = dict_get k e2.

Lemma alike_same e1 e2 : same_values e1 e2 -> alike e1 e2.
Proof. intros H k _ Hk. auto. Qed.
Lemma alike_trans e1 e2 e3 : alike e1 e2 -> alike e2 e3 -> alike e1 e3.
Proof. intros H G k I Hk. now rewrite H, G. Qed.
Lemma alike_sym e1 e2 : alike e1 e2 -> alike e2 e1.
Proof. intros H k I Hk. now rewrite H. Qed.
Lemma alike_refl e : alike e e.
Proof. intros k _ _. reflexivity. Qed.
Lemma alike_ns e1 e2 : alike e1 e2 -> agree_on wanted (ns e1) (ns e2).
Proof. intros H k I. rewrite !ns_get. destruct (String.eqb_spec k "__builtins__"); auto. Qed.

(** Outcomes in two contexts with the same values of the names agree. *)
Definition minds (f : mapper) : Prop :=
  forall bs off depth c1 c2,
    clean c1 -> clean c2 -> alike (ctx_values c1) (ctx_values c2) ->
    fst (f bs off c1 depth) = fst (f bs off c2 depth) /\
    (forall v, fst (f bs off c1 depth) = Ok v ->
       clean (snd (f bs off c1 depth)) /\ clean (snd (f bs off c2 depth)) /\
       exists n, reports n (snd (f bs off c1 depth)) /\ reports n (snd (f bs off c2 depth))).

Ltac ag := repeat split; repeat (first [assumption | apply clean_done | apply clean_size
   | apply clean_sizes]);
  try (eexists; split; (apply reports_size || apply reports_done)).

Lemma minds_prim d op : minds (map_prim d op).
Proof.
  intros bs off depth c1 c2 C1 C2 V. unfold map_prim.
  destruct (get_byte_size d); cbn [fst snd]; [|split; [auto|discriminate]].
  destruct (_ <? _); cbn [fst snd]; [split; [auto|discriminate]|].
  destruct (match op with Some _ => _ | None => _ end); cbn [fst snd];
    (split; [auto|try discriminate]).
  intros v _. ag.
Qed.

Lemma minds_uuid d : minds (map_uuid d).
Proof.
  intros bs off depth c1 c2 C1 C2 V. unfold map_uuid.
  destruct (get_byte_size d); cbn [fst snd]; [|split; [auto|discriminate]].
  destruct (_ <? _); cbn [fst snd]; [split; [auto|discriminate]|].
  destruct (match dt_byte_order d with Some _ => _ | None => _ end); cbn [fst snd];
    (split; [auto|try discriminate]).
  intros v _. ag.
Qed.

Lemma minds_padding d : minds (map_padding d).
Proof.
  intros bs off depth c1 c2 C1 C2 V. unfold map_padding.
  destruct (match d with DPadding _ _ a => a | _ => None end); cbn [fst snd];
    [|split; [auto|discriminate]].
  destruct (_ =? _); cbn [fst snd]; [split; [auto|discriminate]|].
  destruct (_ <? _); cbn [fst snd]; (split; [auto|try discriminate]).
  intros v _. ag.
Qed.

Lemma minds_seq_linear e ed em op : minds (map_seq_linear e ed em op).
Proof.
  intros bs off depth c1 c2 C1 C2 V. unfold map_seq_linear.
  destruct (elems_byte_size _ _); cbn [fst snd]; [|split; [auto|discriminate]].
  destruct (_ <? _); cbn [fst snd]; [split; [auto|discriminate]|].
  destruct op; cbn [fst snd]; [|split; [auto|discriminate]].
  destruct em as [[]|]; cbn [fst snd]; try (split; [now auto|discriminate]).
  destruct (read_from _ _); cbn [fst snd]; (split; [now auto|try discriminate]).
  intros v _. ag.
Qed.

Lemma minds_struct_linear d cls ms attrs op : minds (map_struct_linear d cls ms attrs op).
Proof.
  intros bs off depth c1 c2 C1 C2 V. unfold map_struct_linear.
  destruct (get_byte_size d); cbn [fst snd]; [|split; [auto|discriminate]].
  destruct (_ <? _); cbn [fst snd]; [split; [auto|discriminate]|].
  destruct (match op with Some _ => _ | None => _ end); cbn [fst snd];
    (split; [auto|try discriminate]).
  intros v _. ag.
Qed.

Variable orc : oracle.

(** The expressions of a sequence, stream or string look at the names only. *)
Definition heedful (e : elems) : Prop :=
  (forall x, e_data_size_expr e = Some x -> looks_only_at orc wanted x) /\
  (forall x, e_number_expr e = Some x -> looks_only_at orc wanted x).

Lemma truthy_given o x : truthy_str o = Some x -> o = Some x.
Proof. destruct o as [[|]|]; cbn; congruence. Qed.

Lemma data_size_minds e v1 v2 : heedful e -> alike v1 v2 ->
  eval_data_size orc e v1 = eval_data_size orc e v2.
Proof.
  intros [H _] V. unfold eval_data_size. destruct (truthy_Z _); auto. destruct (truthy_str _) eqn:T; auto.
  apply truthy_given in T. f_equal. apply (H _ T). now apply alike_ns.
Qed.

Lemma number_minds e c1 c2 : heedful e -> alike (ctx_values c1) (ctx_values c2) ->
  fst (eval_number orc e c1) = fst (eval_number orc e c2).
Proof.
  intros [_ H] V. unfold eval_number. destruct (truthy_Z _); auto. destruct (truthy_str _) eqn:T; auto.
  apply truthy_given in T. cbn. f_equal. apply (H _ T). now apply alike_ns.
Qed.

Lemma number_clean e c : clean c -> clean (snd (eval_number orc e c)).
Proof.
  unfold eval_number. destruct (truthy_Z _); auto. destruct (truthy_str _); auto.
  destruct c; auto.
Qed.

Lemma calc_minds e ed c1 c2 : heedful e -> clean c1 -> clean c2 ->
  alike (ctx_values c1) (ctx_values c2) ->
  fst (calc_data_size orc e ed c1) = fst (calc_data_size orc e ed c2) /\
  clean (snd (calc_data_size orc e ed c1)) /\ clean (snd (calc_data_size orc e ed c2)).
Proof.
  intros HH C1 C2 V. unfold calc_data_size. rewrite (clean_state _ C1), (clean_state _ C2). cbn [s_elements_data_size st_empty truthy_Z s_number_of_elements].
  destruct (has_data_size e).
  - cbn. now rewrite (data_size_minds e _ _ HH V).
  - destruct (has_number e); [|cbn; auto].
    destruct (get_byte_size ed); [|cbn; auto].
    pose proof (number_minds e c1 c2 HH V). pose proof (number_clean e c1 C1).
    pose proof (number_clean e c2 C2).
    destruct (eval_number orc e c1), (eval_number orc e c2). cbn in *. now subst.
Qed.

Lemma bounds_minds e ed c1 c2 : heedful e -> clean c1 -> clean c2 ->
  alike (ctx_values c1) (ctx_values c2) ->
  fst (seq_bounds orc e ed c1) = fst (seq_bounds orc e ed c2) /\
  clean (snd (seq_bounds orc e ed c1)) /\ clean (snd (seq_bounds orc e ed c2)).
Proof.
  intros HH C1 C2 V. unfold seq_bounds.
  destruct (has_data_size e).
  - cbn [fst snd]. now rewrite (data_size_minds e _ _ HH V).
  - destruct (has_terminator e); [cbn; auto|]. destruct (has_number e); [|cbn; auto].
    pose proof (number_minds e c1 c2 HH V). pose proof (number_clean e c1 C1).
    pose proof (number_clean e c2 C2).
    destruct (eval_number orc e c1), (eval_number orc e c2). cbn in *. now subst.
Qed.

Lemma minds_stream e ed : heedful e -> minds (map_stream orc e ed).
Proof.
  intros HH bs off depth c1 c2 C1 C2 V. unfold map_stream.
  destruct (calc_minds e ed c1 c2 HH C1 C2 V) as (E & D1 & D2).
  destruct (calc_data_size orc e ed c1) as [r1 k1], (calc_data_size orc e ed c2) as [r2 k2].
  cbn [fst snd] in *. subst r2.
  destruct r1 as [[n|]|x|]; cbn [fst snd]; try (split; [now auto|discriminate]).
  - destruct (_ <? _); cbn [fst snd]; (split; [now auto|try discriminate]). intros v _. ag.
  - destruct (e_terminator e); cbn [fst snd]; try (split; [now auto|discriminate]).
    destruct (get_byte_size ed); cbn [fst snd]; try (split; [now auto|discriminate]).
    destruct (stream_scan _ _ _ _ _ _ _ _) as [[[found value] doff]| |]; cbn [fst snd];
      try (split; [now auto|discriminate]).
    destruct (negb _); cbn [fst snd]; try (split; [now auto|discriminate]).
    destruct found; cbn [fst snd]; (split; [now auto|try discriminate]). intros v _. ag.
Qed.

Lemma minds_string e ed : heedful e -> minds (map_string orc e ed).
Proof.
  intros HH bs off depth c1 c2 C1 C2 V. unfold map_string.
  destruct (minds_stream e ed HH bs off depth c1 c2 C1 C2 V) as (E & F).
  destruct (map_stream orc e ed bs off c1 depth) as [r1 k1],
    (map_stream orc e ed bs off c2 depth) as [r2 k2].
  cbn [fst snd] in *. subst r2.
  destruct r1 as [v|x|]; cbn [fst snd]; try (split; [now auto|discriminate]).
  destruct v; cbn [fst snd]; try (split; [now auto|discriminate]).
  destruct (match e_terminator e with Some _ => _ | None => _ end); cbn [fst snd];
    try (split; [now auto|discriminate]).
  destruct (o_decode orc _ _); cbn [fst snd]; try (split; [now auto|discriminate]).
  split; auto. intros v _. exact (F _ eq_refl).
Qed.

Lemma minds_seq fuel e ed f : heedful e -> minds (map_seq orc fuel e ed f).
Proof.
  intros HH bs off depth c1 c2 C1 C2 V. unfold map_seq.
  destruct (max_depth <? depth); cbn [fst snd]; try (split; [now auto|discriminate]).
  destruct (bounds_minds e ed c1 c2 HH C1 C2 V) as (E & D1 & D2).
  destruct (seq_bounds orc e ed c1) as [r1 k1], (seq_bounds orc e ed c2) as [r2 k2].
  cbn [fst snd] in *. subst r2.
  destruct r1 as [[[nu ds] tm]|x|]; cbn [fst snd]; try (split; [now auto|discriminate]).
  rewrite (clean_state _ D1), (clean_state _ D2).
  destruct (seq_loop _ _ _ _ _ _ _ _); cbn [fst snd]; try (split; [now auto|discriminate]).
  destruct (match nu with Some _ => _ | None => _ end); cbn [fst snd];
    try (split; [now auto|discriminate]).
  destruct (_ && _); cbn [fst snd]; try (split; [now auto|discriminate]).
  split; auto. intros v _. ag.
Qed.

(** *** Structures *)

(** The structure is not stored under a name that matters. *)
Definition aside (s : option string) : Prop :=
  forall k, s = Some k -> ~ In k wanted \/ k = "__builtins__"%string.

Definition like_self (a b : option string) : Prop := a = b \/ (aside a /\ aside b).

(** Two subcontexts of a structure. *)
Definition subs (a b : ctx) : Prop :=
  c_state a = st_empty /\ c_state b = st_empty /\
  alike (c_values a) (c_values b) /\ like_self (c_self a) (c_self b).

Lemma like_self_refl a : like_self a a.
Proof. now left. Qed.

Lemma alike_set k v e1 e2 : alike e1 e2 ->
  alike (dict_set k v e1) (dict_set k v e2).
Proof.
  intros H x Hx. rewrite !dict_get_set. destruct (String.eqb x k); auto.
Qed.

Lemma alike_set_aside k v e : aside (Some k) -> alike (dict_set k v e) e.
Proof.
  intros A x I Hx. rewrite !dict_get_set. destruct (String.eqb_spec x k); auto. subst x.
  destruct (A k eq_refl); tauto.
Qed.

Lemma subs_alias v a b : subs a b -> subs (alias_update v a) (alias_update v b).
Proof.
  intros (A & B & V & S). unfold alias_update. destruct S as [S|[Sa Sb]].
  - rewrite <- S. destruct (c_self a) eqn:E; (repeat split; cbn; auto).
    + now apply alike_set.
    + rewrite E. now left.
    + left. congruence.
  - assert (X : forall c, c_state c = st_empty -> aside (c_self c) ->
      let c' := match c_self c with Some k => set_values (dict_set k v (c_values c)) c | None => c end in
      c_state c' = st_empty /\ alike (c_values c') (c_values c) /\ aside (c_self c')).
    { intros c Hc Ac. destruct (c_self c) eqn:E; cbn; rewrite ?E; repeat split; auto using alike_refl.
      now apply alike_set_aside. }
    destruct (X a A Sa) as (X1 & X2 & X3), (X b B Sb) as (Y1 & Y2 & Y3). repeat split; auto.
    + eapply alike_trans; [exact X2|]. eapply alike_trans; [exact V|]. now apply alike_sym.
    + now right.
Qed.

Lemma subs_new mapped v1 v2 : alike v1 v2 ->
  subs (struct_subcontext mapped v1) (struct_subcontext mapped v2).
Proof.
  intros V. unfold struct_subcontext. repeat split; cbn [c_state c_values c_self].
  - intros k I Hk. rewrite !dict_get_update. now rewrite (V k I Hk).
  - unfold dict_mem.
    assert (D : aside (Some (type_name mapped)) \/ dict_get (type_name mapped) v1 = dict_get (type_name mapped) v2).
    { destruct (String.eqb_spec (type_name mapped) "__builtins__") as [E|E].
      - left. intros k Hk. right. congruence.
      - destruct (in_dec string_dec (type_name mapped) wanted) as [I|I]; [right; auto|].
        left. intros k Hk. injection Hk as <-. auto. }
    destruct D as [D|D]; [|rewrite D; apply like_self_refl].
    right. split; [destruct (dict_get _ v1)|destruct (dict_get _ v2)]; auto; intros k; discriminate.
Qed.

Lemma keeps_alike a b : keeps (Some a) (Some b) ->
  alike (c_values b) (c_values a) /\ c_self b = c_self a.
Proof.
  cbn. intros [[->| ->] H]; split; auto using alike_refl. apply alike_same, same_values_ns.
Qed.

Definition good_attr (a : attr) : Prop :=
  (forall x, a_cond a = Some x -> looks_only_at orc wanted x) /\
  match a_map a with Some f => minds f /\ keeper f | None => True end.

Lemma condition_minds c e1 e2 : (forall x, c = Some x -> looks_only_at orc wanted x) -> alike e1 e2 ->
  eval_condition orc c e1 = eval_condition orc c e2.
Proof.
  intros H V. unfold eval_condition. destruct (truthy_str c) eqn:T; auto. apply truthy_given in T.
  now rewrite (H _ T _ _ (alike_ns _ _ V)).
Qed.

Lemma loop_minds attrs : forall i bs depth s1 s2,
  Forall good_attr attrs ->
  t_off s1 = t_off s2 -> t_size s1 = t_size s2 -> t_vals s1 = t_vals s2 ->
  subs (t_sub s1) (t_sub s2) ->
  match struct_loop orc attrs i bs depth s1, struct_loop orc attrs i bs depth s2 with
  | RDone a, RDone b => t_size a = t_size b /\ t_vals a = t_vals b
  | RTooSmall i _, RTooSmall j _ => i = j
  | RExc e _, RExc e' _ => e = e'
  | RFuel, RFuel => True
  | _, _ => False
  end.
Proof.
  induction attrs as [|a r IH]; intros i bs depth s1 s2 G O Z V S; cbn [struct_loop]; auto.
  inversion G as [|? ? [Gc Ga] Gr]; subst.
  destruct S as (S1 & S2 & S3 & S4).
  rewrite (condition_minds (a_cond a) _ _ Gc S3).
  destruct (eval_condition orc (a_cond a) (c_values (t_sub s2))) as [[|]|e|]; auto.
  - destruct (a_map a) as [f|]; auto. destruct Ga as [Ga Ka].
    rewrite O. specialize (Ga bs (t_off s2) (depth + 1) (Some (t_sub s1)) (Some (t_sub s2)) S1 S2 S3).
    pose proof (Ka bs (t_off s2) (Some (t_sub s1)) (depth + 1)) as K1.
    pose proof (Ka bs (t_off s2) (Some (t_sub s2)) (depth + 1)) as K2.
    destruct (f bs (t_off s2) (Some (t_sub s1)) (depth + 1)) as [r1 c1],
      (f bs (t_off s2) (Some (t_sub s2)) (depth + 1)) as [r2 c2].
    cbn [fst snd] in *. destruct Ga as [E F]. subst r2.
    destruct c1 as [c1|]; [|cbn in K1; tauto]. destruct c2 as [c2|]; [|cbn in K2; tauto].
    destruct r1 as [v|x|]; auto.
    + destruct (F v eq_refl) as (D1 & D2 & n & R1 & R2). cbn [opt_default]. cbn in D1, D2.
      rewrite V. destruct (unsupported (a_vals a) v); auto.
      set (vals := py_setattr (t_vals s2) (a_name a) v).
      assert (B1 : c_byte_size (alias_update vals c1) = Some n)
        by (unfold alias_update; destruct (c_self c1); exact R1).
      assert (B2 : c_byte_size (alias_update vals c2) = Some n)
        by (unfold alias_update; destruct (c_self c2); exact R2).
      rewrite B1, B2. apply IH; cbn; auto; try congruence.
      apply subs_alias. apply keeps_alike in K1, K2. destruct K1 as [K1 L1], K2 as [K2 L2].
      repeat split; auto.
      * eapply alike_trans; [exact K1|]. eapply alike_trans; [exact S3|].
        now apply alike_sym.
      * now rewrite L1, L2.
    + destruct x; auto.
  - apply IH; auto. repeat split; auto.
Qed.

Lemma minds_struct cls names attrs : Forall good_attr attrs ->
  minds (map_struct orc cls names attrs).
Proof.
  intros G bs off depth c1 c2 C1 C2 V. unfold map_struct.
  destruct (max_depth <? depth); cbn [fst snd]; try (split; [now auto|discriminate]).
  rewrite (clean_state _ C1), (clean_state _ C2).
  unfold struct_values. cbn [s_attribute_index s_mapped_values s_context st_empty opt_default].
  destruct (instance_cases cls names []) as [-> | ->]; cbn [fst snd]; [|split; [now auto|discriminate]].
  destruct (len attrs <=? 0); cbn [fst snd]; try (split; [now auto|discriminate]).
  change (Z.to_nat 0) with O. cbn [skipn].
  pose proof (loop_minds attrs 0 bs depth
    (mkStr off 0 (new_struct cls names []) (struct_subcontext (new_struct cls names []) (ctx_values c1)))
    (mkStr off 0 (new_struct cls names []) (struct_subcontext (new_struct cls names []) (ctx_values c2)))
    G eq_refl eq_refl eq_refl (subs_new _ _ _ V)) as L.
  destruct (struct_loop orc attrs 0 bs depth (mkStr off 0 (new_struct cls names []) (struct_subcontext (new_struct cls names []) (ctx_values c1)))),
    (struct_loop orc attrs 0 bs depth (mkStr off 0 (new_struct cls names []) (struct_subcontext (new_struct cls names []) (ctx_values c2))));
    try contradiction; cbn [fst snd].
  - destruct L as [L1 L2]. split; [congruence|]. intros v _. rewrite L1. ag.
  - split; [auto|discriminate].
  - split; [congruence|discriminate].
  - split; [auto|discriminate].
Qed.

(** *** Groups *)

Definition good (f : mapper) : Prop := minds f /\ keeper f.

Lemma minds_group_member df maps ident :
  (forall f, df = Some f -> good f) ->
  (forall k f, In (k, Some f) maps -> good f) ->
  forall bs off depth c1 c2 v1 v2,
    opt_default (ctx_new []) (s_context (ctx_state c1)) = v1 ->
    opt_default (ctx_new []) (s_context (ctx_state c2)) = v2 ->
    clean (Some v1) -> clean (Some v2) -> alike (c_values v1) (c_values v2) ->
    fst (map_group_member df maps ident bs off c1 depth) =
    fst (map_group_member df maps ident bs off c2 depth) /\
    (forall v, fst (map_group_member df maps ident bs off c1 depth) = Ok v ->
       clean (snd (map_group_member df maps ident bs off c1 depth)) /\
       clean (snd (map_group_member df maps ident bs off c2 depth)) /\
       exists n, reports n (snd (map_group_member df maps ident bs off c1 depth)) /\
                 reports n (snd (map_group_member df maps ident bs off c2 depth))).
Proof.
  intros Hd Hm bs off depth c1 c2 v1 v2 S1 S2 C1 C2 V. unfold map_group_member. rewrite S1, S2.
  assert (A : forall f, (match val_get ident maps with Some m => m | None => df end) = Some f -> good f).
  { intros f. unfold val_get.
    destruct (find (fun kv => py_eq ident (fst kv)) maps) as [[k m]|] eqn:E.
    - cbn. intros ->. apply find_some in E. eapply Hm. apply E.
    - apply Hd. }
  destruct (match val_get ident maps with Some m => m | None => df end) as [f|];
    cbn [fst snd]; try (split; [now auto|discriminate]).
  destruct (A f eq_refl) as [G K]. clear A.
  specialize (G bs off depth (Some v1) (Some v2) C1 C2 V).
  pose proof (K bs off (Some v1) depth) as K1. pose proof (K bs off (Some v2) depth) as K2.
  destruct (f bs off (Some v1) depth) as [r1 d1], (f bs off (Some v2) depth) as [r2 d2].
  cbn [fst snd] in *. destruct G as [E G]. subst r2.
  destruct d1 as [d1|]; [|cbn in K1; tauto]. destruct d2 as [d2|]; [|cbn in K2; tauto].
  destruct r1 as [v|x|]; cbn [fst snd]; try (split; [now auto|discriminate]).
  - split; auto. intros w _. destruct (G v eq_refl) as (_ & _ & n & R1 & R2). cbn in R1, R2.
    cbn [opt_default]. rewrite R1, R2.
    destruct c1, c2; cbn; repeat split; auto; exists n; cbn; auto.
  - destruct x; cbn [fst snd]; (split; [now auto|discriminate]).
Qed.

Lemma minds_group i base df maps :
  (forall f, base = Some f -> good f) ->
  (forall f, df = Some f -> good f) ->
  (forall k f, In (k, Some f) maps -> good f) ->
  minds (map_group i base df maps).
Proof.
  intros Hb Hd Hm bs off depth c1 c2 C1 C2 V. unfold map_group.
  rewrite (clean_state _ C1), (clean_state _ C2).
  cbn [s_member_identifier s_context st_empty opt_default].
  destruct base as [f|]; cbn [fst snd]; try (split; [now auto|discriminate]).
  destruct (f bs off (Some (ctx_new [])) depth) as [[v|x|] d]; cbn [fst snd];
    try (split; [now auto|discriminate]).
  - assert (X : forall a, s_context (ctx_state (on_state (upd_identifier (Some a)) (on_state (share_context (opt_default (ctx_new []) d)) c1))) = None /\
        s_context (ctx_state (on_state (upd_identifier (Some a)) (on_state (share_context (opt_default (ctx_new []) d)) c2))) = None).
    { intros a. destruct c1 as [c1|], c2 as [c2|]; cbn in *; try rewrite C1; try rewrite C2; auto. }
    destruct (py_getattr v i) eqn:E; cbn [fst snd]; try (split; [now auto|discriminate]);
      (match goal with |- context [upd_identifier (Some ?a)] => destruct (X a) as [X1 X2] end;
       eapply minds_group_member; eauto; rewrite ?X1, ?X2; cbn; auto using alike_refl).
  - destruct x; cbn [fst snd]; (split; [now auto|discriminate]).
Qed.

Lemma attrs_of_good (ms : list dtype) (l : list (string * option dmap)) (F : dmap -> mapper) :
  Forall (fun d => forall x, member_cond d = Some x -> looks_only_at orc wanted x) ms ->
  Forall (fun a => on_opt (fun m => good (F m)) (snd a)) l ->
  Forall good_attr (attrs_of ms (map (fun x => (fst x, match snd x with Some y => Some (F y) | None => None end)) l)).
Proof.
  intros N H. unfold attrs_of. revert ms N. induction H as [|[k m] l Hk Hl IH]; intros [|d ms] N; cbn; constructor.
  - inversion N; subst. unfold good_attr. cbn. split; [auto|]. destruct m; cbn in *; auto.
  - inversion N; subst. now apply IH.
Qed.

(** The expressions of one map look at the names only. *)
Definition heedful_map (m : dmap) : Prop :=
  match m with
  | MSequence _ e _ _ _ | MStream e _ _ | MString e _ _ => heedful e
  | MStructure _ _ _ ms _ _ => Forall (fun d => forall x, member_cond d = Some x -> looks_only_at orc wanted x) ms
  | _ => True
  end.

Lemma mapbs_minds fuel m : all_maps heedful_map m -> minds (mapbs orc fuel m).
Proof.
  assert (K : forall x, minds (mapbs orc fuel x) -> good (mapbs orc fuel x)).
  { intros x Hx. split; [exact Hx|apply mapbs_keeps]. }
  assert (O : forall o, on_opt (fun x => all_maps heedful_map x -> minds (mapbs orc fuel x)) o -> on_opt (all_maps heedful_map) o ->
     forall f, (match o with Some x => Some (mapbs orc fuel x) | None => None end) = Some f -> good f).
  { intros [x|] Hx Ho f; [|discriminate]. intros E. inversion E; subst. cbn in *. now apply K, Hx. }
  induction m using dmap_rect'; intros A; pose proof (all_maps_here _ _ A) as HH; cbn [mapbs]; cbn [heedful_map] in HH.
  - apply minds_prim.
  - apply minds_uuid.
  - apply minds_padding.
  - destruct l; [apply minds_seq_linear|now apply minds_seq].
  - now apply minds_stream.
  - now apply minds_string.
  - destruct l; [apply minds_struct_linear|]. apply minds_struct. apply attrs_of_good; [exact HH|].
    apply all_maps_attrs in A. destruct A as [_ A]. rewrite Forall_forall in *. intros [k [x|]] I; cbn; auto.
    apply K. apply (H _ I). exact (A _ I).
  - intros bs off depth c1 c2 _ _ _. split; [auto|discriminate].
  - intros bs off depth c1 c2 _ _ _. split; [auto|discriminate].
  - apply all_maps_group in A. destruct A as (_ & A1 & A2 & A3). apply minds_group; eauto.
    intros k f Hin. apply in_map_iff in Hin. destruct Hin as ([k' o] & E & Hin).
    rewrite Forall_forall in *. specialize (H1 _ Hin). specialize (A3 _ Hin). inversion E. eapply O; [exact H1|exact A3|]. cbn. assumption.
Qed.

Lemma created_heedful d ov m : everywhere (heeds orc wanted) d -> create orc d ov = Ok (Some m) -> all_maps heedful_map m.
Proof.
  intros E. apply everywhere_everywhere in E. revert d ov m E. apply created_all. intros d ov m E C.
  assert (G : forall e el k, heeds orc wanted (DElems k e el) -> heedful (elems_of ov e)).
  { unfold heeds. cbn [expressions]. intros e el k H. apply Forall_app in H. destruct H as [H1 H2].
    split; intros x Hx; destruct ov as [[]|]; cbn in Hx; rewrite Hx in *; [inversion H1|inversion H1|inversion H2|inversion H2]; auto. }
  destruct d.
  - cbn in C. destruct false_value, true_value; try discriminate;
      (apply bind_ok in C; destruct C as (o & _ & C); inversion C; subst; exact I).
  - cbn in C. apply bind_ok in C; destruct C as (o & _ & C); inversion C; subst; exact I.
  - cbn in C. apply bind_ok in C; destruct C as (o & _ & C); inversion C; subst; exact I.
  - cbn in C. apply bind_ok in C; destruct C as (o & _ & C); inversion C; subst; exact I.
  - cbn in C. inversion C; subst; exact I.
  - cbn in C. inversion C; subst; exact I.
  - apply everywhere_here in E. apply G in E. apply create_elems in C. destruct C as (eov & em & _ & _ & _ & C).
    destruct k.
    + destruct (sequence_is_linear _ _); [destruct C as (o & _ & ->)|subst m]; exact E.
    + destruct C as [_ ->]; exact E.
    + destruct C as [_ ->]; exact E.
  - assert (S : exists lin d cls ms' attrs op, m = MStructure lin d cls ms' attrs op).
    { apply created_structure in C. apply create_structure_inv in C.
      destruct C as (attrs & _ & _ & _ & _ & [(_ & op & _ & ->)|(_ & ->)]); eauto 10. }
    destruct S as (lin & d & cls & ms' & attrs & op & ->).
    apply created_shape in C. destruct C as (_ & -> & _). cbn [heedful_map].
    cbn [everywhere] in E. destruct E as [_ E]. apply everywhere_list in E. eapply Forall_impl; [|exact E].
    intros y Hy x Hx. apply everywhere_here in Hy. destruct y; try discriminate. cbn in Hx. subst. unfold heeds in Hy. cbn in Hy.
    now inversion Hy.
  - discriminate.
  - discriminate.
  - cbn in C. inversion C; subst; exact I.
  - cbn in C. inversion C; subst; exact I.
  - cbn in C. inversion C; subst; exact I.
  - discriminate.
  - cbn [create] in C. apply bind_ok in C. destruct C as (df & Cd & C). apply bind_ok in C. destruct C as (b & Cb & C).
    destruct members; [discriminate|]. apply bind_ok in C. destruct C as (maps & G' & C). injection C as <-. exact I.
Qed.

Lemma hint_minds m off v1 v2 : heedful_map m -> alike v1 v2 ->
  fst (hint orc m off (Some (ctx_new v1))) = fst (hint orc m off (Some (ctx_new v2))).
Proof.
  intros HH V.
  assert (L : forall e ed h, heedful e ->
    fst (hint_elems orc e ed h off (Some (ctx_new v1))) = fst (hint_elems orc e ed h off (Some (ctx_new v2)))).
  { intros e ed h He. unfold hint_elems. cbn [opt_bind c_byte_size ctx_new ctx_state c_state s_elements_data_size truthy_Z st_empty].
    destruct (has_data_size e).
    - destruct (elems_byte_size _ _); auto. change (ctx_values (Some (ctx_new v1))) with v1. change (ctx_values (Some (ctx_new v2))) with v2. now rewrite (data_size_minds e v1 v2 He V).
    - destruct (has_terminator e).
      + destruct (get_byte_size ed); auto. destruct h as [h|]; auto. cbn. destruct (h 0 None). reflexivity.
      + destruct (has_number e); auto. cbn [s_number_of_elements st_empty].
        pose proof (number_minds e (Some (ctx_new v1)) (Some (ctx_new v2)) He V) as N.
        assert (S : forall v, ctx_state (snd (eval_number orc e (Some (ctx_new v)))) = st_empty).
        { intros v. pose proof (number_clean e (Some (ctx_new v)) eq_refl) as Cl. now apply clean_state. }
        pose proof (S v1) as S1. pose proof (S v2) as S2.
        destruct (eval_number orc e (Some (ctx_new v1))) as [r1 k1], (eval_number orc e (Some (ctx_new v2))) as [r2 k2].
        cbn [fst snd] in *. subst r2. destruct r1 as [n|x|]; auto; [|destruct x; auto].
        destruct (truthy_Z _); auto. destruct h as [h|]; auto. unfold hint_element. rewrite S1, S2. cbn [s_context st_empty].
        destruct (h 0 None). reflexivity. }
  destruct m; cbn [hint]; auto.
  - unfold hint_struct. cbn. destruct (instance _ _ _); reflexivity.
  - unfold hint_group. cbn. destruct (match val_get _ _ with Some _ => _ | None => _ end) as [h|]; [|reflexivity].
    destruct (h off _). reflexivity.
Qed.

Lemma fold_minds m v v1 v2 : heedful_map m -> alike v1 v2 ->
  fst (foldbs orc m v (Some (ctx_new v1))) = fst (foldbs orc m v (Some (ctx_new v2))).
Proof.
  intros HH V.
  assert (L : forall e ed v, heedful e ->
    fst (fold_stream orc e ed v (Some (ctx_new v1))) = fst (fold_stream orc e ed v (Some (ctx_new v2)))).
  { intros e ed x He. unfold fold_stream.
    destruct (calc_minds e ed (Some (ctx_new v1)) (Some (ctx_new v2)) He eq_refl eq_refl V) as (E & _).
    destruct (calc_data_size orc e ed (Some (ctx_new v1))) as [r1 k1], (calc_data_size orc e ed (Some (ctx_new v2))) as [r2 k2].
    cbn [fst] in E. subst r2. destruct r1 as [[n|]|x'|]; reflexivity. }
  destruct m; cbn [foldbs]; auto.
  - destruct linear; reflexivity.
  - unfold fold_string. destruct v; auto. destruct (o_encode _ _ _); auto.
  - destruct linear; [reflexivity|]. unfold fold_struct. cbn. destruct (fold_loop _ _ _ _); reflexivity.
Qed.

End Names.

(** C76 *)
Lemma overlooked_mapping orc names d m fuel bs off vals vals' depth :
  everywhere (heeds orc names) d -> create orc d None = Ok (Some m) -> agree_on names vals vals' ->
  (forall v n, maps orc fuel m bs off vals depth v n <-> maps orc fuel m bs off vals' depth v n) /\
  (forall e, fails orc fuel m bs off vals depth e <-> fails orc fuel m bs off vals' depth e).
Proof.
  intros E C A. apply created_heedful with (1 := E) in C.
  assert (V : alike names vals vals') by (intros k I _; auto).
  destruct (mapbs_minds names orc fuel m C bs off depth (Some (ctx_new vals)) (Some (ctx_new vals')) eq_refl eq_refl V) as [F G].
  split.
  - intros v n. unfold maps.
    destruct (mapbs orc fuel m bs off (Some (ctx_new vals)) depth) as [r1 k1] eqn:E1, (mapbs orc fuel m bs off (Some (ctx_new vals')) depth) as [r2 k2] eqn:E2.
    cbn [fst snd] in *. subst r2.
    pose proof (mapbs_keeps orc fuel m bs off (Some (ctx_new vals)) depth) as K1.
    pose proof (mapbs_keeps orc fuel m bs off (Some (ctx_new vals')) depth) as K2.
    rewrite E1 in K1. rewrite E2 in K2. cbn [snd] in K1, K2.
    destruct k1 as [k1|]; [|cbn in K1; tauto]. destruct k2 as [k2|]; [|cbn in K2; tauto].
    split; intros (c & Q & S); injection Q as -> ->; destruct (G v eq_refl) as (_ & _ & n' & R1 & R2); cbn in R1, R2;
      eexists; (split; [reflexivity|congruence]).
  - intros e. unfold fails. now rewrite F.
Qed.

Lemma overlooked_hint orc names d m off vals vals' :
  everywhere (heeds orc names) d -> create orc d None = Ok (Some m) -> agree_on names vals vals' ->
  fst (hint orc m off (Some (ctx_new vals))) = fst (hint orc m off (Some (ctx_new vals'))).
Proof.
  intros E C A. apply created_heedful with (1 := E) in C. apply hint_minds with (wanted := names).
  - now apply all_maps_here in C.
  - intros k I _; auto.
Qed.

Lemma overlooked_folding orc names d m v vals vals' :
  everywhere (heeds orc names) d -> create orc d None = Ok (Some m) -> agree_on names vals vals' ->
  fst (foldbs orc m v (Some (ctx_new vals))) = fst (foldbs orc m v (Some (ctx_new vals'))).
Proof.
  intros E C A. apply created_heedful with (1 := E) in C. apply fold_minds with (wanted := names).
  - now apply all_maps_here in C.
  - intros k I _; auto.
Qed.
