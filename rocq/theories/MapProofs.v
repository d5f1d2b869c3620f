(** Proofs about mapping in general: induction on maps, what happens to the
    context, independence of the context. *)
From Coq Require Import String List ZArith Bool Lia.
From Verif Require Import Base PyVal PyStruct DataTypes ClassFactory DataMaps.
From Verif Require Import BytesProofs ContainerProofs SpecPrim SpecMap.
Import ListNotations.
Open Scope Z_scope.

(** ** Induction on maps *)

Definition on_opt (P : dmap -> Prop) (o : option dmap) : Prop :=
  match o with Some m => P m | None => True end.

Lemma dmap_rect' (P : dmap -> Prop) :
  (forall d op, P (MPrim d op)) ->
  (forall d, P (MUUID d)) ->
  (forall d, P (MPadding d)) ->
  (forall l e ed em op, on_opt P em -> P (MSequence l e ed em op)) ->
  (forall e ed em, on_opt P em -> P (MStream e ed em)) ->
  (forall e ed em, on_opt P em -> P (MString e ed em)) ->
  (forall l d cls ms attrs op, Forall (fun a => on_opt P (snd a)) attrs ->
     P (MStructure l d cls ms attrs op)) ->
  (forall d, P (MSemantic d)) ->
  (forall d, P (MFormat d)) ->
  (forall d i b df maps, on_opt P b -> on_opt P df -> Forall (fun a => on_opt P (snd a)) maps ->
     P (MGroup d i b df maps)) ->
  forall m, P m.
Proof.
  intros H1 H2 H3 H4 H5 H6 H7 H8 H9 H10.
  fix IH 1. intros m. destruct m.
  - apply H1.
  - apply H2.
  - apply H3.
  - apply H4. destruct em as [x|]; [exact (IH x)|exact I].
  - apply H5. destruct em as [x|]; [exact (IH x)|exact I].
  - apply H6. destruct em as [x|]; [exact (IH x)|exact I].
  - apply H7. induction attrs as [|a r IHr]; constructor; [|exact IHr].
    destruct a as [s [x|]]; [exact (IH x)|exact I].
  - apply H8.
  - apply H9.
  - apply H10.
    + destruct base as [x|]; [exact (IH x)|exact I].
    + destruct default as [x|]; [exact (IH x)|exact I].
    + induction maps as [|a r IHr]; constructor; [|exact IHr].
      destruct a as [s [x|]]; [exact (IH x)|exact I].
Qed.

(** ** Namespaces *)

Lemma ns_get k e : dict_get k (ns e) =
  if String.eqb k "__builtins__" then Some VBuiltins else dict_get k e.
Proof. unfold ns. apply dict_get_set. Qed.

Lemma dict_set_same {A} k (v : A) d : dict_get k d = Some v -> dict_set k v d = d.
Proof.
  induction d as [|[k' v'] d IH]; cbn; [discriminate|].
  destruct (String.eqb k k'); intros H.
  - congruence.
  - now rewrite IH.
Qed.

Lemma ns_idem e : ns (ns e) = ns e.
Proof. unfold ns. apply dict_set_same. rewrite dict_get_set, String.eqb_refl. reflexivity. Qed.

Lemma same_values_refl e : same_values e e.
Proof. intros k _. reflexivity. Qed.
Lemma same_values_sym e1 e2 : same_values e1 e2 -> same_values e2 e1.
Proof. intros H k Hk. symmetry. auto. Qed.
Lemma same_values_trans e1 e2 e3 : same_values e1 e2 -> same_values e2 e3 -> same_values e1 e3.
Proof. intros H1 H2 k Hk. rewrite H1; auto. Qed.
Lemma same_values_ns e : same_values (ns e) e.
Proof.
  intros k Hk. rewrite ns_get. destruct (String.eqb_spec k "__builtins__"); congruence.
Qed.

Lemma same_values_eval orc x e1 e2 : extensional orc -> same_values e1 e2 ->
  o_eval orc x (ns e1) = o_eval orc x (ns e2).
Proof.
  intros E H. apply E. intros k. rewrite !ns_get.
  destruct (String.eqb_spec k "__builtins__"); auto.
Qed.

Lemma dict_get_update {A} k (d1 d2 : dict A) :
  dict_get k (dict_update d1 d2) =
  match dict_get k d2 with Some v => Some v | None => dict_get k d1 end.
Proof.
  unfold dict_update. rewrite dict_get_app.
  assert (M : dict_get k (map (fun kv => (fst kv, match dict_get (fst kv) d2 with Some v => v | None => snd kv end)) d1)
    = match dict_get k d1 with None => None | Some v => match dict_get k d2 with Some w => Some w | None => Some v end end).
  { induction d1 as [|[k' v'] d1 IH]; cbn; auto. destruct (String.eqb_spec k k'); auto.
    subst. destruct (dict_get k' d2); auto. }
  rewrite M. clear M.
  assert (F : dict_get k d1 = None ->
    dict_get k (filter (fun kv => negb (dict_mem (fst kv) d1)) d2) = dict_get k d2).
  { intros H. induction d2 as [|[k' v'] d2 IH]; auto. cbn [filter fst dict_get].
    destruct (String.eqb_spec k k').
    - subst. unfold dict_mem. rewrite H. cbn. now rewrite String.eqb_refl.
    - destruct (negb _); cbn; auto. destruct (String.eqb_spec k k'); congruence. }
  destruct (dict_get k d1) eqn:E.
  - destruct (dict_get k d2); auto.
  - rewrite F; auto. destruct (dict_get k d2); auto.
Qed.

(** ** The context after mapping *)

(** The external values are as before, up to the entry __builtins__. *)
Definition keeps (c c' : option ctx) : Prop :=
  match c, c' with
  | None, None => True
  | Some a, Some b =>
      (c_values b = c_values a \/ c_values b = ns (c_values a)) /\ c_self b = c_self a
  | _, _ => False
  end.

Lemma keeps_refl c : keeps c c.
Proof. destruct c; cbn; auto. Qed.
Lemma keeps_trans a b c : keeps a b -> keeps b c -> keeps a c.
Proof.
  destruct a, b, c; cbn; auto; try tauto. intros [[H1|H1] H2] [[H3|H3] H4]; rewrite H3, H1, H4, H2; auto.
  split; auto. right. apply ns_idem.
Qed.
Lemma keeps_sizes a b c : keeps c (option_map (set_sizes a b) c).
Proof. destruct c; cbn; auto. Qed.
Lemma keeps_size a c : keeps c (option_map (set_byte_size a) c).
Proof. destruct c; cbn; auto. Qed.
Lemma keeps_done a c : keeps c (ctx_done a c).
Proof. destruct c; cbn; auto. Qed.
Lemma keeps_state a c : keeps c (on_state a c).
Proof. destruct c; cbn; auto. Qed.
Lemma keeps_number orc e c : keeps c (snd (eval_number orc e c)).
Proof.
  unfold eval_number. destruct (truthy_Z _); [apply keeps_refl|].
  destruct (truthy_str _); [|apply keeps_refl]. destruct c; cbn; auto.
Qed.

#[export] Hint Resolve keeps_refl keeps_sizes keeps_size keeps_done keeps_state keeps_number : keeps.

Lemma keeps_calc orc e ed c : keeps c (snd (calc_data_size orc e ed c)).
Proof.
  unfold calc_data_size. destruct (truthy_Z _); [apply keeps_refl|].
  destruct (has_data_size e); [apply keeps_refl|].
  destruct (has_number e); [|apply keeps_refl].
  destruct (get_byte_size ed); [|apply keeps_refl].
  destruct (s_number_of_elements _); [apply keeps_refl|].
  pose proof (keeps_number orc e c). destruct (eval_number orc e c). exact H.
Qed.

Lemma keeps_bounds orc e ed c : keeps c (snd (seq_bounds orc e ed c)).
Proof.
  unfold seq_bounds. destruct (has_data_size e); [apply keeps_refl|].
  destruct (has_terminator e); [apply keeps_refl|].
  destruct (has_number e); [|apply keeps_refl].
  pose proof (keeps_number orc e c). destruct (eval_number orc e c). exact H.
Qed.

Definition keeper (f : mapper) : Prop :=
  forall bs off c depth, keeps c (snd (f bs off c depth)).

Ltac kp := repeat (first [ apply keeps_refl | apply keeps_sizes | apply keeps_size | apply keeps_done
  | apply keeps_state | (eapply keeps_trans; [|first [apply keeps_sizes | apply keeps_size | apply keeps_done | apply keeps_state]]) ]).

Lemma keeper_prim d op : keeper (map_prim d op).
Proof.
  intros bs off c depth. unfold map_prim.
  destruct (get_byte_size d); cbn [snd]; [|kp].
  destruct (_ <? _); cbn [snd]; [kp|]. destruct (match op with Some _ => _ | None => _ end); cbn [snd]; kp.
Qed.

Lemma keeper_uuid d : keeper (map_uuid d).
Proof.
  intros bs off c depth. unfold map_uuid.
  destruct (get_byte_size d); cbn [snd]; [|kp].
  destruct (_ <? _); cbn [snd]; [kp|]. destruct (match dt_byte_order d with Some _ => _ | None => _ end); cbn [snd]; kp.
Qed.

Lemma keeper_padding d : keeper (map_padding d).
Proof.
  intros bs off c depth. unfold map_padding.
  destruct (match d with DPadding _ _ a => a | _ => None end); cbn [snd]; [|kp].
  destruct (_ =? _); cbn [snd]; [kp|]. destruct (_ <? _); cbn [snd]; kp.
Qed.

Lemma keeper_seq_linear e ed em op : keeper (map_seq_linear e ed em op).
Proof.
  intros bs off c depth. unfold map_seq_linear.
  destruct (elems_byte_size _ _); cbn [snd]; [|kp].
  destruct (_ <? _); cbn [snd]; [kp|].
  destruct op; cbn [snd]; [|kp].
  destruct em as [[]|]; cbn [snd]; try kp.
  destruct (read_from _ _); cbn [snd]; kp.
Qed.

Lemma keeper_struct_linear d cls ms attrs op : keeper (map_struct_linear d cls ms attrs op).
Proof.
  intros bs off c depth. unfold map_struct_linear.
  destruct (get_byte_size d); cbn [snd]; [|kp].
  destruct (_ <? _); cbn [snd]; [kp|].
  destruct (match op with Some _ => _ | None => _ end); cbn [snd]; kp.
Qed.

Lemma keeper_seq orc fuel e ed f : keeper (map_seq orc fuel e ed f).
Proof.
  intros bs off c depth. unfold map_seq. destruct (max_depth <? depth); cbn [snd]; [kp|].
  pose proof (keeps_bounds orc e ed c) as H.
  destruct (seq_bounds orc e ed c) as [[[[nu ds] tm]|x|] c1]; cbn [snd] in *; auto.
  destruct (seq_loop _ _ _ _ _ _ _ _); cbn [snd].
  - destruct (match nu with Some _ => _ | None => _ end); cbn [snd].
    + eapply keeps_trans; [exact H|]. kp.
    + destruct (_ && _); cbn [snd]; (eapply keeps_trans; [exact H|]; kp).
  - eapply keeps_trans; [exact H|]; kp.
  - eapply keeps_trans; [exact H|]; kp.
  - eapply keeps_trans; [exact H|]; kp.
Qed.

Lemma keeper_stream orc e ed : keeper (map_stream orc e ed).
Proof.
  intros bs off c depth. unfold map_stream.
  pose proof (keeps_calc orc e ed c) as H.
  destruct (calc_data_size orc e ed c) as [[[n|]|x|] c1]; cbn [snd] in *; auto.
  - destruct (_ <? _); cbn [snd]; (eapply keeps_trans; [exact H|]; kp).
  - destruct (e_terminator e); cbn [snd]; [|eapply keeps_trans; [exact H|]; kp].
    destruct (get_byte_size ed); cbn [snd]; [|eapply keeps_trans; [exact H|]; kp].
    destruct (stream_scan _ _ _ _ _ _ _ _) as [[[found value] doff]| |]; cbn [snd];
      [|eapply keeps_trans; [exact H|]; kp|eapply keeps_trans; [exact H|]; kp].
    destruct (negb _); cbn [snd]; [eapply keeps_trans; [exact H|]; kp|].
    destruct found; cbn [snd]; (eapply keeps_trans; [exact H|]); [kp|].
    destruct c1; cbn; auto.
Qed.

Lemma keeper_string orc e ed : keeper (map_string orc e ed).
Proof.
  intros bs off c depth. unfold map_string.
  pose proof (keeper_stream orc e ed bs off c depth) as H.
  destruct (map_stream orc e ed bs off c depth) as [[v|x|] c1]; cbn [snd] in *; auto.
  destruct v; cbn [snd]; auto.
  destruct (match e_terminator e with Some _ => _ | None => _ end); cbn [snd]; auto.
  destruct (o_decode orc _ _); cbn [snd]; auto.
Qed.

Lemma ends_with_spec e s : ends_with e s = true <-> exists r, s = String.append r e.
Proof.
  induction s as [|c s IH]; cbn [ends_with]; rewrite orb_true_iff, String.eqb_eq.
  - split.
    + intros [<-|H]; [|discriminate]. exists EmptyString. reflexivity.
    + intros [[|c r] H]; [now left|discriminate].
  - rewrite IH. split.
    + intros [<-|[r ->]]; [exists EmptyString; reflexivity|exists (String c r); reflexivity].
    + intros [[|c' r] H]; [now left|]. inversion H; subst. right. eauto.
Qed.

Lemma prefix_spec p s : String.prefix p s = true <-> exists r, s = String.append p r.
Proof.
  revert s. induction p as [|c p IH]; intros s.
  - destruct s; cbn; split; eauto.
  - destruct s as [|c' s]; cbn [String.prefix].
    + split; [discriminate|]. intros [r H]. discriminate.
    + destruct (Ascii.ascii_dec c c') as [->|N].
      * rewrite IH. split; intros [r H]; exists r; [now rewrite H|now inversion H].
      * split; [discriminate|]. intros [r H]. inversion H. congruence.
Qed.

Lemma is_private_spec s : is_private s = true <-> private_name s.
Proof.
  unfold is_private, private_name. rewrite andb_true_iff, negb_true_iff, prefix_spec.
  split; intros [A B]; split; auto.
  - intros r H. assert (ends_with "__" s = true) by (apply ends_with_spec; eauto). congruence.
  - destruct (ends_with "__" s) eqn:E; auto. apply ends_with_spec in E. destruct E as [r H]. now destruct (B r).
Qed.

(** The constructor of a structure class with clear names succeeds. *)
Lemma constructible_spec cls names : constructible cls names = true <-> clear_names cls names.
Proof.
  unfold constructible, clear_names.
  rewrite !andb_true_iff, !negb_true_iff.
  assert (E : forall a b : string, String.eqb a b = false <-> a <> b) by apply String.eqb_neq.
  assert (I : forall a l, str_in a l = false <-> ~ In a l).
  { intros a l. split; intros H.
    - intros J. assert (K : str_in a l = true); [|congruence].
      unfold str_in. apply existsb_exists. exists a. split; auto. apply String.eqb_refl.
    - destruct (str_in a l) eqn:K; auto. unfold str_in in K. apply existsb_exists in K.
      destruct K as (x & X & Y). apply String.eqb_eq in Y. subst x. contradiction. }
  assert (P : is_private cls = false <-> ~ private_name cls).
  { rewrite <- is_private_spec. destruct (is_private cls); intuition congruence. }
  rewrite !E, !I, P. tauto.
Qed.

Lemma instance_clear cls names args : clear_names cls names ->
  instance cls names args = Ok (new_struct cls names args).
Proof. intros H. apply constructible_spec in H. unfold instance. now rewrite H. Qed.

Lemma constructor_not_small cls names : constructor_error cls names <> ByteStreamTooSmallError.
Proof. unfold constructor_error. destruct (is_private cls); [discriminate|]. destruct (_ && _); discriminate. Qed.

Lemma instance_cases cls names args :
  instance cls names args = Ok (new_struct cls names args) \/
  instance cls names args = Raise (constructor_error cls names).
Proof. unfold instance. destruct (constructible cls names); auto. Qed.

Lemma struct_values_cases cls names st :
  (exists v, struct_values cls names st = Ok v /\
     (s_mapped_values st = Some (MVStruct v) \/ v = new_struct cls names [])) \/
  struct_values cls names st = Raise (constructor_error cls names).
Proof.
  unfold struct_values.
  destruct (s_mapped_values st) as [[l|v]|];
    [destruct (instance_cases cls names []) as [->| ->]; eauto| eauto |
     destruct (instance_cases cls names []) as [->| ->]; eauto].
Qed.

Lemma struct_values_new cls names st : clear_names cls names -> s_mapped_values st = None ->
  struct_values cls names st = Ok (new_struct cls names []).
Proof. intros H E. unfold struct_values. rewrite E. now apply instance_clear. Qed.

Lemma keeper_struct orc cls names attrs : keeper (map_struct orc cls names attrs).
Proof.
  intros bs off c depth. unfold map_struct. destruct (max_depth <? depth); cbn [snd]; [kp|].
  destruct (struct_values _ _ _) as [mapped|x|]; cbn [snd]; [|kp|kp].
  destruct (_ <=? _); cbn [snd]; [kp|].
  destruct (struct_loop _ _ _ _ _ _); cbn [snd]; kp.
Qed.

Lemma keeper_group_member df maps ident : keeper (map_group_member df maps ident).
Proof.
  intros bs off c depth. unfold map_group_member.
  destruct (match val_get ident maps with Some _ => _ | None => _ end); cbn [snd]; [|kp].
  destruct (m _ _ _ _) as [[v|x|] c1]; cbn [snd]; [destruct c; cbn; auto|destruct x|]; cbn [snd]; kp.
Qed.

Lemma keeper_group i base df maps : keeper (map_group i base df maps).
Proof.
  intros bs off c depth. unfold map_group.
  destruct (s_member_identifier _); [apply keeper_group_member|].
  destruct base; cbn [snd]; [|kp].
  destruct (m _ _ _ _) as [[v|x|] c1]; cbn [snd]; [|destruct x; cbn [snd]; kp|kp].
  destruct (py_getattr v i); cbn [snd]; try kp;
    (eapply keeps_trans; [|apply keeper_group_member]; kp).
Qed.

Lemma mapbs_keeps orc fuel m : keeper (mapbs orc fuel m).
Proof.
  destruct m; cbn [mapbs].
  - apply keeper_prim.
  - apply keeper_uuid.
  - apply keeper_padding.
  - destruct linear; [apply keeper_seq_linear|apply keeper_seq].
  - apply keeper_stream.
  - apply keeper_string.
  - destruct linear; [apply keeper_struct_linear|apply keeper_struct].
  - intros bs off c depth; apply keeps_refl.
  - intros bs off c depth; apply keeps_refl.
  - apply keeper_group.
Qed.
