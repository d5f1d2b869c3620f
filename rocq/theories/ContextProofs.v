(** Independence of the context: mapping with a context that holds no pending
    state depends on the external values only. *)
From Coq Require Import String List ZArith Bool Lia.
From Verif Require Import Base PyVal PyStruct DataTypes ClassFactory DataMaps.
From Verif Require Import BytesProofs ContainerProofs SpecPrim SpecMap MapProofs.
Import ListNotations.
Open Scope Z_scope.

(** The context reports the byte size [n], if there is a context. *)
Definition reports (n : Z) (c : option ctx) : Prop :=
  match c with None => True | Some x => c_byte_size x = Some n end.

(** Outcomes in two contexts with the same values agree. *)
Definition agrees (f : mapper) : Prop :=
  forall bs off depth c1 c2,
    clean c1 -> clean c2 -> same_values (ctx_values c1) (ctx_values c2) ->
    fst (f bs off c1 depth) = fst (f bs off c2 depth) /\
    (forall v, fst (f bs off c1 depth) = Ok v ->
       clean (snd (f bs off c1 depth)) /\ clean (snd (f bs off c2 depth)) /\
       exists n, reports n (snd (f bs off c1 depth)) /\ reports n (snd (f bs off c2 depth))).

Lemma clean_sizes a b c : clean (option_map (set_sizes a b) c) <-> clean c.
Proof. destruct c; cbn; tauto. Qed.
Lemma clean_size b c : clean (option_map (set_byte_size b) c) <-> clean c.
Proof. destruct c; cbn; tauto. Qed.
Lemma clean_done n c : clean (ctx_done n c).
Proof. destruct c; cbn; auto. Qed.
Lemma reports_size n c : reports n (option_map (set_byte_size (Some n)) c).
Proof. destruct c; cbn; auto. Qed.
Lemma reports_done n c : reports n (ctx_done n c).
Proof. destruct c; cbn; auto. Qed.
Lemma clean_state c : clean c -> ctx_state c = st_empty.
Proof. destruct c; cbn; auto. Qed.

Ltac ag := repeat split; repeat (first [assumption | apply clean_done | apply clean_size
   | apply clean_sizes]);
  try (eexists; split; (apply reports_size || apply reports_done)).

Lemma agrees_prim d op : agrees (map_prim d op).
Proof.
  intros bs off depth c1 c2 C1 C2 V. unfold map_prim.
  destruct (get_byte_size d); cbn [fst snd]; [|split; [auto|discriminate]].
  destruct (_ <? _); cbn [fst snd]; [split; [auto|discriminate]|].
  destruct (match op with Some _ => _ | None => _ end); cbn [fst snd];
    (split; [auto|try discriminate]).
  intros v _. ag.
Qed.

Lemma agrees_uuid d : agrees (map_uuid d).
Proof.
  intros bs off depth c1 c2 C1 C2 V. unfold map_uuid.
  destruct (get_byte_size d); cbn [fst snd]; [|split; [auto|discriminate]].
  destruct (_ <? _); cbn [fst snd]; [split; [auto|discriminate]|].
  destruct (match dt_byte_order d with Some _ => _ | None => _ end); cbn [fst snd];
    (split; [auto|try discriminate]).
  intros v _. ag.
Qed.

Lemma agrees_padding d : agrees (map_padding d).
Proof.
  intros bs off depth c1 c2 C1 C2 V. unfold map_padding.
  destruct (match d with DPadding _ _ a => a | _ => None end); cbn [fst snd];
    [|split; [auto|discriminate]].
  destruct (_ =? _); cbn [fst snd]; [split; [auto|discriminate]|].
  destruct (_ <? _); cbn [fst snd]; (split; [auto|try discriminate]).
  intros v _. ag.
Qed.

Lemma agrees_seq_linear e ed em op : agrees (map_seq_linear e ed em op).
Proof.
  intros bs off depth c1 c2 C1 C2 V. unfold map_seq_linear.
  destruct (elems_byte_size _ _); cbn [fst snd]; [|split; [auto|discriminate]].
  destruct (_ <? _); cbn [fst snd]; [split; [auto|discriminate]|].
  destruct op; cbn [fst snd]; [|split; [auto|discriminate]].
  destruct em as [[]|]; cbn [fst snd]; try (split; [now auto|discriminate]).
  destruct (read_from _ _); cbn [fst snd]; (split; [now auto|try discriminate]).
  intros v _. ag.
Qed.

Lemma agrees_struct_linear d cls ms attrs op : agrees (map_struct_linear d cls ms attrs op).
Proof.
  intros bs off depth c1 c2 C1 C2 V. unfold map_struct_linear.
  destruct (get_byte_size d); cbn [fst snd]; [|split; [auto|discriminate]].
  destruct (_ <? _); cbn [fst snd]; [split; [auto|discriminate]|].
  destruct (match op with Some _ => _ | None => _ end); cbn [fst snd];
    (split; [auto|try discriminate]).
  intros v _. ag.
Qed.

Section WithOracle.
Variable orc : oracle.
Hypothesis ext : extensional orc.

Lemma data_size_agrees e v1 v2 : same_values v1 v2 ->
  eval_data_size orc e v1 = eval_data_size orc e v2.
Proof.
  intros V. unfold eval_data_size. destruct (truthy_Z _); auto. destruct (truthy_str _); auto.
  now rewrite (same_values_eval orc s v1 v2).
Qed.

Lemma number_agrees e c1 c2 : same_values (ctx_values c1) (ctx_values c2) ->
  fst (eval_number orc e c1) = fst (eval_number orc e c2).
Proof.
  intros V. unfold eval_number. destruct (truthy_Z _); auto. destruct (truthy_str _); auto.
  cbn. now rewrite (same_values_eval orc s _ _ ext V).
Qed.

Lemma number_clean e c : clean c -> clean (snd (eval_number orc e c)).
Proof.
  unfold eval_number. destruct (truthy_Z _); auto. destruct (truthy_str _); auto.
  destruct c; auto.
Qed.

Lemma calc_agrees e ed c1 c2 : clean c1 -> clean c2 ->
  same_values (ctx_values c1) (ctx_values c2) ->
  fst (calc_data_size orc e ed c1) = fst (calc_data_size orc e ed c2) /\
  clean (snd (calc_data_size orc e ed c1)) /\ clean (snd (calc_data_size orc e ed c2)).
Proof.
  intros C1 C2 V. unfold calc_data_size. rewrite (clean_state _ C1), (clean_state _ C2). cbn [s_elements_data_size st_empty truthy_Z s_number_of_elements].
  destruct (has_data_size e).
  - cbn. now rewrite (data_size_agrees e _ _ V).
  - destruct (has_number e); [|cbn; auto].
    destruct (get_byte_size ed); [|cbn; auto].
    pose proof (number_agrees e c1 c2 V). pose proof (number_clean e c1 C1).
    pose proof (number_clean e c2 C2).
    destruct (eval_number orc e c1), (eval_number orc e c2). cbn in *. now subst.
Qed.

Lemma bounds_agrees e ed c1 c2 : clean c1 -> clean c2 ->
  same_values (ctx_values c1) (ctx_values c2) ->
  fst (seq_bounds orc e ed c1) = fst (seq_bounds orc e ed c2) /\
  clean (snd (seq_bounds orc e ed c1)) /\ clean (snd (seq_bounds orc e ed c2)).
Proof.
  intros C1 C2 V. unfold seq_bounds.
  destruct (has_data_size e).
  - cbn [fst snd]. now rewrite (data_size_agrees e _ _ V).
  - destruct (has_terminator e); [cbn; auto|]. destruct (has_number e); [|cbn; auto].
    pose proof (number_agrees e c1 c2 V). pose proof (number_clean e c1 C1).
    pose proof (number_clean e c2 C2).
    destruct (eval_number orc e c1), (eval_number orc e c2). cbn in *. now subst.
Qed.

Lemma agrees_stream e ed : agrees (map_stream orc e ed).
Proof.
  intros bs off depth c1 c2 C1 C2 V. unfold map_stream.
  destruct (calc_agrees e ed c1 c2 C1 C2 V) as (E & D1 & D2).
  destruct (calc_data_size orc e ed c1) as [r1 k1], (calc_data_size orc e ed c2) as [r2 k2].
  cbn [fst snd] in *. subst r2.
  destruct r1 as [[n|]|x|]; cbn [fst snd]; try (split; [now auto|discriminate]).
  - destruct (_ <? _); cbn [fst snd]; (split; [now auto|try discriminate]). intros v _. ag.
  - destruct (e_terminator e); cbn [fst snd]; try (split; [now auto|discriminate]).
    destruct (get_byte_size ed); cbn [fst snd]; try (split; [now auto|discriminate]).
    destruct (stream_scan _ _ _ _ _ _ _ _) as [[[found value] doff]| |]; cbn [fst snd];
      try (split; [now auto|discriminate]).
    destruct (negb _); cbn [fst snd]; try (split; [now auto|discriminate]).
    destruct found; cbn [fst snd]; (split; [now auto|try discriminate]). intros v _. ag.
Qed.

Lemma agrees_string e ed : agrees (map_string orc e ed).
Proof.
  intros bs off depth c1 c2 C1 C2 V. unfold map_string.
  destruct (agrees_stream e ed bs off depth c1 c2 C1 C2 V) as (E & F).
  destruct (map_stream orc e ed bs off c1 depth) as [r1 k1],
    (map_stream orc e ed bs off c2 depth) as [r2 k2].
  cbn [fst snd] in *. subst r2.
  destruct r1 as [v|x|]; cbn [fst snd]; try (split; [now auto|discriminate]).
  destruct v; cbn [fst snd]; try (split; [now auto|discriminate]).
  destruct (match e_terminator e with Some _ => _ | None => _ end); cbn [fst snd];
    try (split; [now auto|discriminate]).
  destruct (o_decode orc _ _); cbn [fst snd]; try (split; [now auto|discriminate]).
  split; auto. intros v _. exact (F _ eq_refl).
Qed.

Lemma agrees_seq fuel e ed f : agrees (map_seq orc fuel e ed f).
Proof.
  intros bs off depth c1 c2 C1 C2 V. unfold map_seq.
  destruct (max_depth <? depth); cbn [fst snd]; try (split; [now auto|discriminate]).
  destruct (bounds_agrees e ed c1 c2 C1 C2 V) as (E & D1 & D2).
  destruct (seq_bounds orc e ed c1) as [r1 k1], (seq_bounds orc e ed c2) as [r2 k2].
  cbn [fst snd] in *. subst r2.
  destruct r1 as [[[nu ds] tm]|x|]; cbn [fst snd]; try (split; [now auto|discriminate]).
  rewrite (clean_state _ D1), (clean_state _ D2).
  destruct (seq_loop _ _ _ _ _ _ _ _); cbn [fst snd]; try (split; [now auto|discriminate]).
  destruct (match nu with Some _ => _ | None => _ end); cbn [fst snd];
    try (split; [now auto|discriminate]).
  destruct (_ && _); cbn [fst snd]; try (split; [now auto|discriminate]).
  split; auto. intros v _. ag.
Qed.

(** *** Structures *)

Definition same_self (a b : option string) : Prop :=
  a = b \/ ((a = None \/ a = Some "__builtins__"%string) /\
            (b = None \/ b = Some "__builtins__"%string)).

(** Two subcontexts of a structure. *)
Definition subs (a b : ctx) : Prop :=
  c_state a = st_empty /\ c_state b = st_empty /\
  same_values (c_values a) (c_values b) /\ same_self (c_self a) (c_self b).

Lemma same_self_refl a : same_self a a.
Proof. now left. Qed.

Lemma same_values_set k v e1 e2 : same_values e1 e2 ->
  same_values (dict_set k v e1) (dict_set k v e2).
Proof.
  intros H x Hx. rewrite !dict_get_set. destruct (String.eqb x k); auto.
Qed.

Lemma same_values_set_builtins v e : same_values (dict_set "__builtins__" v e) e.
Proof.
  intros x Hx. rewrite !dict_get_set. destruct (String.eqb_spec x "__builtins__"); congruence.
Qed.

Lemma subs_alias v a b : subs a b -> subs (alias_update v a) (alias_update v b).
Proof.
  intros (A & B & V & S). unfold alias_update. destruct S as [S|[Sa Sb]].
  - rewrite <- S. destruct (c_self a) eqn:E; (repeat split; cbn; auto).
    + now apply same_values_set.
    + rewrite E. now left.
    + left. congruence.
  - destruct Sa as [Sa|Sa], Sb as [Sb|Sb]; rewrite Sa, Sb; (repeat split; cbn; auto);
      try rewrite Sa; try rewrite Sb; try (right; tauto).
    + eapply same_values_trans; [exact V|]. apply same_values_sym, same_values_set_builtins.
    + eapply same_values_trans; [|exact V]. apply same_values_set_builtins.
    + eapply same_values_trans; [apply same_values_set_builtins|].
      eapply same_values_trans; [exact V|]. apply same_values_sym, same_values_set_builtins.
Qed.

Lemma subs_new mapped v1 v2 : same_values v1 v2 ->
  subs (struct_subcontext mapped v1) (struct_subcontext mapped v2).
Proof.
  intros V. unfold struct_subcontext. repeat split; cbn [c_state c_values c_self].
  - intros k Hk. rewrite !dict_get_update. now rewrite (V k Hk).
  - unfold dict_mem. destruct (String.eqb_spec (type_name mapped) "__builtins__") as [E|E].
    + rewrite E. right. destruct (dict_get _ v1), (dict_get _ v2); tauto.
    + rewrite (V _ E). apply same_self_refl.
Qed.

Lemma keeps_same a b : keeps (Some a) (Some b) ->
  same_values (c_values b) (c_values a) /\ c_self b = c_self a.
Proof.
  cbn. intros [[->| ->] H]; split; auto using same_values_refl, same_values_ns.
Qed.

Definition good_attr (a : attr) : Prop :=
  match a_map a with Some f => agrees f /\ keeper f | None => True end.

Lemma condition_agrees c e1 e2 : same_values e1 e2 ->
  eval_condition orc c e1 = eval_condition orc c e2.
Proof.
  intros V. unfold eval_condition. destruct (truthy_str c); auto.
  now rewrite (same_values_eval orc s e1 e2).
Qed.

Lemma loop_agrees attrs : forall i bs depth s1 s2,
  Forall good_attr attrs ->
  t_off s1 = t_off s2 -> t_size s1 = t_size s2 -> t_vals s1 = t_vals s2 ->
  subs (t_sub s1) (t_sub s2) ->
  match struct_loop orc attrs i bs depth s1, struct_loop orc attrs i bs depth s2 with
  | RDone a, RDone b => t_size a = t_size b /\ t_vals a = t_vals b
  | RTooSmall i _, RTooSmall j _ => i = j
  | RExc e _, RExc e' _ => e = e'
  | RFuel, RFuel => True
  | _, _ => False
  end.
Proof.
  induction attrs as [|a r IH]; intros i bs depth s1 s2 G O Z V S; cbn [struct_loop]; auto.
  inversion G as [|? ? Ga Gr]; subst.
  destruct S as (S1 & S2 & S3 & S4).
  rewrite (condition_agrees (a_cond a) _ _ S3).
  destruct (eval_condition orc (a_cond a) (c_values (t_sub s2))) as [[|]|e|]; auto.
  - unfold good_attr in Ga. destruct (a_map a) as [f|]; auto. destruct Ga as [Ga Ka].
    rewrite O. specialize (Ga bs (t_off s2) (depth + 1) (Some (t_sub s1)) (Some (t_sub s2)) S1 S2 S3).
    pose proof (Ka bs (t_off s2) (Some (t_sub s1)) (depth + 1)) as K1.
    pose proof (Ka bs (t_off s2) (Some (t_sub s2)) (depth + 1)) as K2.
    destruct (f bs (t_off s2) (Some (t_sub s1)) (depth + 1)) as [r1 c1],
      (f bs (t_off s2) (Some (t_sub s2)) (depth + 1)) as [r2 c2].
    cbn [fst snd] in *. destruct Ga as [E F]. subst r2.
    destruct c1 as [c1|]; [|cbn in K1; tauto]. destruct c2 as [c2|]; [|cbn in K2; tauto].
    destruct r1 as [v|x|]; auto.
    + destruct (F v eq_refl) as (D1 & D2 & n & R1 & R2). cbn [opt_default]. cbn in D1, D2.
      rewrite V. destruct (unsupported (a_vals a) v); auto.
      set (vals := py_setattr (t_vals s2) (a_name a) v).
      assert (B1 : c_byte_size (alias_update vals c1) = Some n)
        by (unfold alias_update; destruct (c_self c1); exact R1).
      assert (B2 : c_byte_size (alias_update vals c2) = Some n)
        by (unfold alias_update; destruct (c_self c2); exact R2).
      rewrite B1, B2. apply IH; cbn; auto; try congruence.
      apply subs_alias. apply keeps_same in K1, K2. destruct K1 as [K1 L1], K2 as [K2 L2].
      repeat split; auto.
      * eapply same_values_trans; [exact K1|]. eapply same_values_trans; [exact S3|].
        now apply same_values_sym.
      * now rewrite L1, L2.
    + destruct x; auto.
  - apply IH; auto. repeat split; auto.
Qed.

Lemma agrees_struct cls names attrs : Forall good_attr attrs ->
  agrees (map_struct orc cls names attrs).
Proof.
  intros G bs off depth c1 c2 C1 C2 V. unfold map_struct.
  destruct (max_depth <? depth); cbn [fst snd]; try (split; [now auto|discriminate]).
  rewrite (clean_state _ C1), (clean_state _ C2).
  unfold struct_values. cbn [s_attribute_index s_mapped_values s_context st_empty opt_default].
  destruct (instance_cases cls names []) as [-> | ->]; cbn [fst snd]; [|split; [now auto|discriminate]].
  destruct (len attrs <=? 0); cbn [fst snd]; try (split; [now auto|discriminate]).
  change (Z.to_nat 0) with O. cbn [skipn].
  pose proof (loop_agrees attrs 0 bs depth
    (mkStr off 0 (new_struct cls names []) (struct_subcontext (new_struct cls names []) (ctx_values c1)))
    (mkStr off 0 (new_struct cls names []) (struct_subcontext (new_struct cls names []) (ctx_values c2)))
    G eq_refl eq_refl eq_refl (subs_new _ _ _ V)) as L.
  destruct (struct_loop orc attrs 0 bs depth (mkStr off 0 (new_struct cls names []) (struct_subcontext (new_struct cls names []) (ctx_values c1)))),
    (struct_loop orc attrs 0 bs depth (mkStr off 0 (new_struct cls names []) (struct_subcontext (new_struct cls names []) (ctx_values c2))));
    try contradiction; cbn [fst snd].
  - destruct L as [L1 L2]. split; [congruence|]. intros v _. rewrite L1. ag.
  - split; [auto|discriminate].
  - split; [congruence|discriminate].
  - split; [auto|discriminate].
Qed.

(** *** Groups *)

Definition good (f : mapper) : Prop := agrees f /\ keeper f.

Lemma agrees_group_member df maps ident :
  (forall f, df = Some f -> good f) ->
  (forall k f, In (k, Some f) maps -> good f) ->
  forall bs off depth c1 c2 v1 v2,
    opt_default (ctx_new []) (s_context (ctx_state c1)) = v1 ->
    opt_default (ctx_new []) (s_context (ctx_state c2)) = v2 ->
    clean (Some v1) -> clean (Some v2) -> same_values (c_values v1) (c_values v2) ->
    fst (map_group_member df maps ident bs off c1 depth) =
    fst (map_group_member df maps ident bs off c2 depth) /\
    (forall v, fst (map_group_member df maps ident bs off c1 depth) = Ok v ->
       clean (snd (map_group_member df maps ident bs off c1 depth)) /\
       clean (snd (map_group_member df maps ident bs off c2 depth)) /\
       exists n, reports n (snd (map_group_member df maps ident bs off c1 depth)) /\
                 reports n (snd (map_group_member df maps ident bs off c2 depth))).
Proof.
  intros Hd Hm bs off depth c1 c2 v1 v2 S1 S2 C1 C2 V. unfold map_group_member. rewrite S1, S2.
  assert (A : forall f, (match val_get ident maps with Some m => m | None => df end) = Some f -> good f).
  { intros f. unfold val_get.
    destruct (find (fun kv => py_eq ident (fst kv)) maps) as [[k m]|] eqn:E.
    - cbn. intros ->. apply find_some in E. eapply Hm. apply E.
    - apply Hd. }
  destruct (match val_get ident maps with Some m => m | None => df end) as [f|];
    cbn [fst snd]; try (split; [now auto|discriminate]).
  destruct (A f eq_refl) as [G K]. clear A.
  specialize (G bs off depth (Some v1) (Some v2) C1 C2 V).
  pose proof (K bs off (Some v1) depth) as K1. pose proof (K bs off (Some v2) depth) as K2.
  destruct (f bs off (Some v1) depth) as [r1 d1], (f bs off (Some v2) depth) as [r2 d2].
  cbn [fst snd] in *. destruct G as [E G]. subst r2.
  destruct d1 as [d1|]; [|cbn in K1; tauto]. destruct d2 as [d2|]; [|cbn in K2; tauto].
  destruct r1 as [v|x|]; cbn [fst snd]; try (split; [now auto|discriminate]).
  - split; auto. intros w _. destruct (G v eq_refl) as (_ & _ & n & R1 & R2). cbn in R1, R2.
    cbn [opt_default]. rewrite R1, R2.
    destruct c1, c2; cbn; repeat split; auto; exists n; cbn; auto.
  - destruct x; cbn [fst snd]; (split; [now auto|discriminate]).
Qed.

Lemma agrees_group i base df maps :
  (forall f, base = Some f -> good f) ->
  (forall f, df = Some f -> good f) ->
  (forall k f, In (k, Some f) maps -> good f) ->
  agrees (map_group i base df maps).
Proof.
  intros Hb Hd Hm bs off depth c1 c2 C1 C2 V. unfold map_group.
  rewrite (clean_state _ C1), (clean_state _ C2).
  cbn [s_member_identifier s_context st_empty opt_default].
  destruct base as [f|]; cbn [fst snd]; try (split; [now auto|discriminate]).
  destruct (f bs off (Some (ctx_new [])) depth) as [[v|x|] d]; cbn [fst snd];
    try (split; [now auto|discriminate]).
  - assert (X : forall a, s_context (ctx_state (on_state (upd_identifier (Some a)) (on_state (share_context (opt_default (ctx_new []) d)) c1))) = None /\
        s_context (ctx_state (on_state (upd_identifier (Some a)) (on_state (share_context (opt_default (ctx_new []) d)) c2))) = None).
    { intros a. destruct c1 as [c1|], c2 as [c2|]; cbn in *; try rewrite C1; try rewrite C2; auto. }
    destruct (py_getattr v i) eqn:E; cbn [fst snd]; try (split; [now auto|discriminate]);
      (match goal with |- context [upd_identifier (Some ?a)] => destruct (X a) as [X1 X2] end;
       eapply agrees_group_member; eauto; rewrite ?X1, ?X2; cbn; auto using same_values_refl).
  - destruct x; cbn [fst snd]; (split; [now auto|discriminate]).
Qed.

Lemma attrs_of_good (ms : list dtype) (l : list (string * option dmap)) (F : dmap -> mapper) :
  Forall (fun a => on_opt (fun m => good (F m)) (snd a)) l ->
  Forall good_attr (attrs_of ms (map (fun x => (fst x, match snd x with Some y => Some (F y) | None => None end)) l)).
Proof.
  intros H. unfold attrs_of. revert ms. induction H as [|[k m] l Hk Hl IH]; intros [|d ms]; cbn; constructor.
  - unfold good_attr. cbn. destruct m; cbn in *; auto.
  - apply IH.
Qed.

Lemma mapbs_agrees fuel m : agrees (mapbs orc fuel m).
Proof.
  assert (K : forall x, agrees (mapbs orc fuel x) -> good (mapbs orc fuel x)).
  { intros x Hx. split; [exact Hx|apply mapbs_keeps]. }
  assert (O : forall o, on_opt (fun x => agrees (mapbs orc fuel x)) o ->
     forall f, (match o with Some x => Some (mapbs orc fuel x) | None => None end) = Some f -> good f).
  { intros [x|] Hx f; [|discriminate]. intros E. inversion E; subst. now apply K. }
  induction m using dmap_rect'; cbn [mapbs].
  - apply agrees_prim.
  - apply agrees_uuid.
  - apply agrees_padding.
  - destruct l; [apply agrees_seq_linear|apply agrees_seq].
  - apply agrees_stream.
  - apply agrees_string.
  - destruct l; [apply agrees_struct_linear|]. apply agrees_struct. apply attrs_of_good.
    eapply Forall_impl; [|exact H]. intros [k [x|]]; cbn; auto.
  - intros bs off depth c1 c2 _ _ _. split; [auto|discriminate].
  - intros bs off depth c1 c2 _ _ _. split; [auto|discriminate].
  - apply agrees_group; eauto.
    intros k f Hin. apply in_map_iff in Hin. destruct Hin as ([k' o] & E & Hin).
    rewrite Forall_forall in H1. specialize (H1 _ Hin). inversion E. eapply O; [exact H1|]. cbn. assumption.
Qed.

End WithOracle.
