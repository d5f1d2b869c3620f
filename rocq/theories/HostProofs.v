(** Definitions with explicit byte orders do not depend on the host. *)
From Coq Require Import String List ZArith Bool Lia.
From Verif Require Import Base PyVal PyStruct DataTypes ClassFactory DataMaps.
From Verif Require Import BytesProofs ContainerProofs SpecPrim SpecMap SpecCreate SpecHost MapProofs StructProofs CreateProofs GroupProofs.
Import ListNotations.
Open Scope Z_scope.

(** ** Byte orders of formats of single bytes *)

Definition single (c : fcode) : bool := match c with Cb | CB => true | _ => false end.

(** [p]: of all formats. *)
Definition neutral_op (p : bool) (o : structop) : structop :=
  if p || forallb (fun '(_, c) => single c) (op_tokens o) then mkOp Little (op_tokens o) else o.

Lemma neutral_tokens p o : op_tokens (neutral_op p o) = op_tokens o.
Proof. unfold neutral_op. destruct (_ || _); reflexivity. Qed.

Lemma single_codes l : forallb (fun '(_, c) => single c) l = true ->
  Forall (fun c => single c = true) (flat_map (fun '(n, c) => repeat c (Z.to_nat n)) l).
Proof.
  induction l as [|[n c] l IH]; cbn; intros H; [constructor|]. apply andb_true_iff in H. destruct H as [H1 H2].
  apply Forall_app. split; auto. apply Forall_forall. intros x I. apply repeat_spec in I. congruence.
Qed.

Lemma reorder_short en b : (List.length b <= 1)%nat -> reorder en b = b.
Proof. destruct en; auto. destruct b as [|x [|y b]]; cbn; auto. lia. Qed.

Lemma unpack_single en en' cs : Forall (fun c => single c = true) cs -> forall b, unpack_codes en cs b = unpack_codes en' cs b.
Proof.
  induction 1 as [|c cs H HF IH]; intros b; [reflexivity|]. cbn [unpack_codes]. rewrite IH. f_equal.
  assert (L : (List.length (firstn (code_size c) b) <= 1)%nat).
  { rewrite firstn_length. destruct c; try discriminate; cbn [code_size]; lia. }
  unfold unpack1. now rewrite !reorder_short.
Qed.

Lemma pack_single en en' cs : Forall (fun c => single c = true) cs -> forall vs, pack_codes en cs vs = pack_codes en' cs vs.
Proof.
  induction 1 as [|c cs H HF IH]; intros [|v vs]; try reflexivity. cbn [pack_codes]. rewrite IH. f_equal.
  assert (P : forall z, pack_int en c z = pack_int en' c z).
  { intros z. unfold pack_int, enc_n. destruct c; try discriminate; cbn [code_size];
      rewrite !reorder_short; cbn; auto. }
  unfold pack1. destruct c; try discriminate; destruct v; auto.
Qed.

Lemma neutral_read o b : read_from (neutral_op false o) b = read_from o b.
Proof.
  unfold read_from, op_size, op_codes. rewrite !neutral_tokens. unfold neutral_op. cbn [orb].
  destruct (forallb _ (op_tokens o)) eqn:F; [|reflexivity]. cbn [op_endian].
  destruct (_ <? _); [reflexivity|]. f_equal. apply unpack_single. now apply single_codes.
Qed.

Lemma neutral_write o vs : write_to (neutral_op false o) vs = write_to o vs.
Proof.
  unfold write_to, op_codes. rewrite !neutral_tokens. unfold neutral_op. cbn [orb].
  destruct (forallb _ (op_tokens o)) eqn:F; [|reflexivity]. cbn [op_endian].
  apply pack_single. now apply single_codes.
Qed.

(** ** Maps without the byte orders that do not matter *)

Fixpoint neutral (p : bool) (m : dmap) : dmap :=
  match m with
  | MPrim d op => MPrim d (option_map (neutral_op p) op)
  | MSequence l e ed em op =>
      MSequence l e ed (match em with Some x => Some (neutral p x) | None => None end) (option_map (neutral_op p) op)
  | MStream e ed em =>
      MStream e ed (match em with Some x => Some (neutral true x) | None => None end)
  | MString e ed em =>
      MString e ed (match em with Some x => Some (neutral true x) | None => None end)
  | MStructure l d cls ms attrs op =>
      MStructure l d cls ms
        (map (fun a => (fst a, match snd a with Some x => Some (neutral p x) | None => None end)) attrs)
        (option_map (neutral_op p) op)
  | MGroup d i b df maps =>
      MGroup d i (match b with Some x => Some (neutral p x) | None => None end)
        (match df with Some x => Some (neutral p x) | None => None end)
        (map (fun a => (fst a, match snd a with Some x => Some (neutral p x) | None => None end)) maps)
  | m => m
  end.

Definition same_mapper (f g : mapper) : Prop := forall bs off c depth, f bs off c depth = g bs off c depth.
Definition same_opt {A} (R : A -> A -> Prop) (a b : option A) : Prop :=
  match a, b with Some x, Some y => R x y | None, None => True | _, _ => False end.

Lemma seq_loop_ext f g : same_mapper f g -> forall n bs number size term depth s,
  seq_loop n (Some f) bs number size term depth s = seq_loop n (Some g) bs number size term depth s.
Proof.
  intros H. induction n as [|n IH]; intros; [reflexivity|]. cbn [seq_loop]. rewrite H.
  destruct (is_empty _); [reflexivity|]. destruct (opt_eqZ _ _); [reflexivity|]. destruct (opt_leZ _ _); [reflexivity|].
  destruct (g bs (q_off s) (Some (q_sub s)) (depth + 1)) as [[v|e|] c']; auto.
  destruct (c_byte_size _); auto. destruct (is_term _ _); auto.
Qed.

Lemma map_seq_ext orc fuel e ed f g : same_opt same_mapper f g -> same_mapper (map_seq orc fuel e ed f) (map_seq orc fuel e ed g).
Proof.
  intros H bs off c depth. unfold map_seq. destruct f as [f|], g as [g|]; cbn in H; try tauto.
  destruct (max_depth <? depth); [reflexivity|]. destruct (seq_bounds orc e ed c) as [[[[a b] t]| |] c1]; auto.
  now rewrite (seq_loop_ext f g H).
Qed.

Definition same_attr (a b : attr) : Prop :=
  a_name a = a_name b /\ a_cond a = a_cond b /\ a_vals a = a_vals b /\ same_opt same_mapper (a_map a) (a_map b).

Lemma struct_loop_ext orc l1 l2 : Forall2 same_attr l1 l2 -> forall index bs depth s,
  struct_loop orc l1 index bs depth s = struct_loop orc l2 index bs depth s.
Proof.
  induction 1 as [|a b l1 l2 (N & C & V & M) F IH]; intros; [reflexivity|]. cbn [struct_loop]. rewrite N, C, V.
  destruct (eval_condition orc (a_cond b) _) as [[|]| |]; auto.
  destruct (a_map a) as [f|], (a_map b) as [g|]; cbn in M; try tauto. rewrite M.
  destruct (g bs (t_off s) (Some (t_sub s)) (depth + 1)) as [[v|e|] c']; auto.
  destruct (unsupported _ _); auto. destruct (c_byte_size _); auto.
Qed.

Lemma Forall2_skipn {A B} (R : A -> B -> Prop) n : forall l1 l2, Forall2 R l1 l2 -> Forall2 R (skipn n l1) (skipn n l2).
Proof. induction n as [|n IH]; intros l1 l2 F; auto. destruct F; cbn; auto. Qed.

Lemma map_struct_ext orc cls names l1 l2 : Forall2 same_attr l1 l2 ->
  same_mapper (map_struct orc cls names l1) (map_struct orc cls names l2).
Proof.
  intros F bs off c depth. unfold map_struct. destruct (max_depth <? depth); [reflexivity|].
  destruct (struct_values cls names (ctx_state c)); auto.
  assert (L : len l1 = len l2) by (unfold len; f_equal; clear -F; induction F; cbn; auto). rewrite L.
  destruct (len l2 <=? _); auto. now rewrite (struct_loop_ext orc _ _ (Forall2_skipn _ _ _ _ F)).
Qed.

Lemma linear_values_neutral ms : forall ds vs,
  linear_values ds (map (fun o => match o with Some x => Some (neutral false x) | None => None end) ms) vs = linear_values ds ms vs.
Proof.
  induction ms as [|o ms IH]; intros ds [|v vs]; try reflexivity; destruct ds as [|d ds]; try reflexivity.
  - cbn [map linear_values]. destruct o as [[]|]; cbn [neutral]; auto.
    destruct (map_value d0 v) as [x| |]; cbn [bind]; auto. destruct (unsupported _ _); auto. now rewrite IH.
Qed.

Lemma map_op_read op b : (match option_map (neutral_op false) op with Some o => read_from o b | None => Raise AttributeError end) =
  (match op with Some o => read_from o b | None => Raise AttributeError end).
Proof. destruct op; cbn; auto. apply neutral_read. Qed.

Lemma neutral_map orc fuel m : same_mapper (mapbs orc fuel (neutral false m)) (mapbs orc fuel m).
Proof.
  induction m using dmap_rect'; try (intros bs off c depth; reflexivity).
  - intros bs off c depth. cbn [neutral mapbs]. unfold map_prim. destruct op as [o|]; cbn [option_map]; auto. now rewrite neutral_read.
  - destruct l.
    + intros bs off c depth. cbn [neutral mapbs]. unfold map_seq_linear. destruct (elems_byte_size e (get_byte_size ed)); auto.
      destruct (_ <? _); auto. destruct op as [o|]; cbn [option_map]; auto. destruct em as [[]|]; cbn [neutral]; auto. now rewrite neutral_read.
    + cbn [neutral mapbs]. apply map_seq_ext. destruct em; cbn in *; auto.
  - destruct l.
    + intros bs off c depth. cbn [neutral mapbs]. unfold map_struct_linear. destruct (get_byte_size d) as [n|]; auto.
      rewrite !map_map. cbn [fst snd]. unfold len. rewrite map_length.
      destruct (_ <? _); auto. destruct op as [o|]; cbn [option_map]; auto. rewrite neutral_read.
      destruct (read_from o _) as [t| |]; cbn [bind]; auto.
      rewrite <- (map_map snd (fun o => match o with Some x => Some (neutral false x) | None => None end)), linear_values_neutral. reflexivity.
    + cbn [neutral mapbs]. rewrite !map_map. cbn [fst]. apply map_struct_ext. unfold attrs_of.
      clear -H. revert attrs H. induction ms as [|m ms IH]; intros [|[n o] attrs] H; cbn [map combine]; constructor.
      * inversion H; subst. repeat split; auto. cbn in *. destruct o; cbn; auto.
      * inversion H; subst. now apply IH.
  - intros bs off c depth. cbn [neutral mapbs].
    assert (GM : forall ident bs off c depth, map_group_member
        (match (match df with Some x => Some (neutral false x) | None => None end) with Some x => Some (mapbs orc fuel x) | None => None end)
        (map (fun x => (fst x, match snd x with Some y => Some (mapbs orc fuel y) | None => None end))
          (map (fun a => (fst a, match snd a with Some x => Some (neutral false x) | None => None end)) maps)) ident bs off c depth =
      map_group_member (match df with Some x => Some (mapbs orc fuel x) | None => None end)
        (map (fun x => (fst x, match snd x with Some y => Some (mapbs orc fuel y) | None => None end)) maps) ident bs off c depth).
    { clear bs off c depth. intros ident bs off c depth. unfold map_group_member.
      rewrite !(val_get_map (fun o : option dmap => match o with Some y => Some (mapbs orc fuel y) | None => None end)).
      rewrite (val_get_map (fun o : option dmap => match o with Some y => Some (neutral false y) | None => None end)).
      destruct (val_get ident maps) as [o|] eqn:G; cbn [option_map].
      - destruct o as [x|]; auto.
        assert (Q : same_mapper (mapbs orc fuel (neutral false x)) (mapbs orc fuel x)).
        { unfold val_get in G. destruct (find _ maps) as [[k w]|] eqn:Fd; [|discriminate]. inversion G; subst.
          rewrite Forall_forall in H1. exact (H1 _ (proj1 (find_some _ _ Fd))). }
        now rewrite Q.
      - destruct df as [x|]; auto. cbn in H0. now rewrite H0. }
    unfold map_group. destruct (s_member_identifier (ctx_state c)); auto.
    destruct b as [x|]; auto. cbn in H. rewrite H. destruct (mapbs orc fuel x _ _ _ _) as [[v|e|] c']; auto.
    destruct (py_getattr v i); auto.
Qed.

(** Folding. *)
Lemma fold_loop_ext (l1 l2 : list (string * option folder)) :
  Forall2 (fun a b => fst a = fst b /\ same_opt (fun f g => forall v c, f v c = g v c) (snd a) (snd b)) l1 l2 ->
  forall v acc sub, fold_loop l1 v acc sub = fold_loop l2 v acc sub.
Proof.
  induction 1 as [|[n f] [n' g] l1 l2 [N M] F IH]; intros; [reflexivity|]. cbn in N. subst n'. cbn [fold_loop].
  destruct f as [f|], g as [g|]; cbn in M; try tauto; auto.
  destruct (py_getattr v n); auto; rewrite M; destruct (g _ _) as [[[]| |] c']; auto.
Qed.

Lemma neutral_fold orc m : forall v c, foldbs orc (neutral false m) v c = foldbs orc m v c.
Proof.
  induction m using dmap_rect'; intros v c; try reflexivity.
  - cbn [neutral foldbs]. unfold fold_prim. destruct op as [o|]; cbn [option_map]; auto.
    destruct (fold_value d v); cbn [bind]; auto. now rewrite neutral_write.
  - destruct l; cbn [neutral foldbs]; auto. unfold fold_seq_linear. destruct op as [o|]; cbn [option_map]; auto.
    destruct (py_iter v); cbn [bind]; auto. now rewrite neutral_write.
  - destruct l; cbn [neutral foldbs]; rewrite map_map; cbn [fst snd].
    + unfold fold_struct_linear. destruct op as [o|]; cbn [option_map]; auto. now rewrite neutral_write.
    + unfold fold_struct.
      rewrite (fold_loop_ext (skipn _ _) (skipn (Z.to_nat (opt_default 0 (s_attribute_index (ctx_state c))))
        (map (fun x => (fst x, match snd x with Some y => Some (foldbs orc y) | None => None end)) attrs))); auto.
      apply Forall2_skipn. clear -H. induction H as [|[n o] attrs P H IH]; cbn [map]; constructor; auto.
      split; auto. cbn in *. destruct o; cbn; auto.
Qed.

(** Size hints. *)
Definition same_hinter (f g : hinter) : Prop := forall off c, f off c = g off c.

Lemma hint_elems_ext orc e ed f g : same_opt same_hinter f g -> same_hinter (hint_elems orc e ed f) (hint_elems orc e ed g).
Proof.
  intros H off c.
  assert (E : forall c, hint_element f c = hint_element g c).
  { intros x. unfold hint_element. destruct f as [f|], g as [g|]; cbn in H; try tauto. now rewrite H. }
  unfold hint_elems. destruct (opt_bind c c_byte_size); auto. destruct (truthy_Z _); auto.
  rewrite E. destruct (has_data_size e); auto. destruct (has_terminator e); auto. destruct (has_number e); auto.
  destruct (match s_number_of_elements (ctx_state c) with Some n => (Ok n, c) | None => eval_number orc e c end) as [[n|x|] c1]; auto.
  destruct (truthy_Z (get_byte_size ed)); auto. now rewrite E.
Qed.

Lemma hint_loop_ext l1 l2 : Forall2 (same_opt same_hinter) l1 l2 -> forall size sub, hint_loop l1 size sub = hint_loop l2 size sub.
Proof.
  induction 1 as [|f g l1 l2 M F IH]; intros; [reflexivity|]. cbn [hint_loop].
  destruct f as [f|], g as [g|]; cbn in M; try tauto; auto. rewrite M. destruct (fst (g size (Some sub))) as [[n|]| |]; auto.
Qed.

Lemma hint_struct_ext cls names l1 l2 : Forall2 (same_opt same_hinter) l1 l2 ->
  same_hinter (hint_struct cls names l1) (hint_struct cls names l2).
Proof.
  intros F off c. unfold hint_struct. destruct (opt_bind c c_byte_size); auto.
  destruct (struct_values cls names (ctx_state c)); auto.
  pose proof (Forall2_skipn _ (Z.to_nat (opt_default 0 (s_attribute_index (ctx_state c)))) _ _ F) as G.
  rewrite (hint_loop_ext _ _ G). destruct (s_context (ctx_state c)); auto.
  destruct G as [|f g l l' M G]; auto. destruct f as [f|], g as [g|]; cbn in M; try tauto; auto. now rewrite M.
Qed.

Lemma neutral_hint orc m : forall p, same_hinter (hint orc (neutral p m)) (hint orc m).
Proof.
  induction m using dmap_rect'; intros p; try (intros off c; reflexivity); cbn [neutral hint].
  - apply hint_elems_ext. destruct em; cbn in *; auto.
  - apply hint_elems_ext. destruct em; cbn in *; auto.
  - apply hint_elems_ext. destruct em; cbn in *; auto.
  - rewrite !map_map. cbn [fst snd]. apply hint_struct_ext.
    clear -H. induction H as [|[n o] attrs P H IH]; cbn [map]; constructor; auto. cbn in *. destruct o; cbn; auto.
  - intros off c. unfold hint_group. destruct (opt_bind c c_byte_size); auto. rewrite !map_map. cbn [fst snd].
    rewrite !(val_get_map (fun o : option dmap => match o with Some y => Some (hint orc y) | None => None end)).
    rewrite (val_get_map (fun o : option dmap => match (match o with Some y => Some (neutral p y) | None => None end) with Some y => Some (hint orc y) | None => None end)).
    destruct (val_get _ maps) as [[x|]|] eqn:G; cbn [option_map].
    + assert (Q : same_hinter (hint orc (neutral p x)) (hint orc x)).
      { unfold val_get in G. destruct (find _ maps) as [[k w]|] eqn:Fd; [|discriminate]. inversion G; subst.
        rewrite Forall_forall in H1. exact (H1 _ (proj1 (find_some _ _ Fd)) p). }
      now rewrite Q.
    + destruct b as [x|]; auto. cbn in H. now rewrite H.
    + destruct b as [x|]; auto. cbn in H. now rewrite H.
Qed.

(** ** The host does not matter for a map *)

Lemma host_map h h' orc : mapbs (on_host h orc) = mapbs (on_host h' orc).
Proof. reflexivity. Qed.
Lemma host_fold h h' orc : foldbs (on_host h orc) = foldbs (on_host h' orc).
Proof. reflexivity. Qed.
Lemma host_hint h h' orc : hint (on_host h orc) = hint (on_host h' orc).
Proof. reflexivity. Qed.

(** ** Creation *)

Definition neut_opt (p : bool) (o : option dmap) : option dmap :=
  match o with Some x => Some (neutral p x) | None => None end.

Definition neut (p : bool) (r : res (option dmap)) : res (option dmap) :=
  match r with Ok o => Ok (neut_opt p o) | Raise e => Raise e | OutOfFuel => OutOfFuel end.

Definition settles (ov : override) (d : dtype) : Prop :=
  exists b, dt_byte_order (apply_ov ov d) = Some b /\ explicit b.

Definition ov_ok (ov : override) : Prop := match ov with Some (_, b) => explicit b | None => True end.

Lemma resolve_explicit h h' orc b : explicit b -> resolve (on_host h orc) b = resolve (on_host h' orc) b.
Proof. destruct b; intros H; auto. now elim H. Qed.

Lemma make_op_ends en en' t : 
  (exists o o', make_op en t = Ok o /\ make_op en' t = Ok o' /\ op_tokens o = t /\ op_tokens o' = t) \/
  (make_op en t = Raise FormatError /\ make_op en' t = Raise FormatError).
Proof.
  unfold make_op. change (op_size (mkOp en' t)) with (op_size (mkOp en t)).
  destruct (_ && _); [left|right]; eauto 10.
Qed.

Lemma neutral_all o o' : op_tokens o = op_tokens o' -> neutral_op true o = neutral_op true o'.
Proof. unfold neutral_op. cbn. congruence. Qed.

Lemma neutral_single p o o' : op_tokens o = op_tokens o' -> forallb (fun '(_, c) => single c) (op_tokens o) = true ->
  neutral_op p o = neutral_op p o'.
Proof. unfold neutral_op. intros <- ->. now rewrite orb_true_r. Qed.

(** Formats in which the byte order is settled or does not matter. *)
Lemma op_same p en en' t : p = true \/ en = en' \/ forallb (fun '(_, c) => single c) t = true ->
  (let* o := make_op en t in Ok (option_map (neutral_op p) (Some o))) =
  (let* o := make_op en' t in Ok (option_map (neutral_op p) (Some o))).
Proof.
  intros H. destruct H as [->|[<-|S]]; [|reflexivity|].
  - destruct (make_op_ends en en' t) as [(o & o' & E & E' & T & T')|[E E']]; rewrite E, E'; auto.
    cbn [bind option_map]. now rewrite (neutral_all o o') by congruence.
  - destruct (make_op_ends en en' t) as [(o & o' & E & E' & T & T')|[E E']]; rewrite E, E'; auto.
    cbn [bind option_map]. rewrite (neutral_single p o o'); auto; congruence.
Qed.

Definition is_prim (d : dtype) : bool :=
  match d with DBoolean _ _ _ | DCharacter _ | DFloat _ | DInteger _ _ => true | _ => false end.

Lemma one_byte_code d c : one_byte d -> prim_code d = Some c -> single c = true.
Proof.
  destruct d; cbn; try tauto; intros ->; try congruence.
  - intros H; inversion H; reflexivity.
  - intros H; inversion H; reflexivity.
  - destruct unsigned; intros H; inversion H; reflexivity.
Qed.

Lemma prim_op_same h h' orc p d b : p = true \/ explicit b \/ one_byte d ->
  (let* o := prim_op (on_host h orc) d b in Ok (option_map (neutral_op p) o)) =
  (let* o := prim_op (on_host h' orc) d b in Ok (option_map (neutral_op p) o)).
Proof.
  intros H. unfold prim_op. destruct (prim_code d) as [c|] eqn:C; auto.
  assert (G : forall en en', p = true \/ en = en' \/ single c = true ->
    (let* o := (let* o := make_op en [(1, c)] in Ok (Some o)) in Ok (option_map (neutral_op p) o)) =
    (let* o := (let* o := make_op en' [(1, c)] in Ok (Some o)) in Ok (option_map (neutral_op p) o))).
  { intros en en' K. pose proof (op_same p en en' [(1, c)]) as S. cbn [forallb] in S. rewrite andb_true_r in S. specialize (S K).
    destruct (make_op en _); destruct (make_op en' _); cbn in *; auto. }
  apply G. destruct H as [->|[E|O]]; auto.
  - right. left. now apply resolve_explicit.
  - right. right. eapply one_byte_code; eauto.
Qed.

Lemma neut_prim p (d : dtype) (r r' : res (option structop)) :
  (let* o := r in Ok (option_map (neutral_op p) o)) = (let* o := r' in Ok (option_map (neutral_op p) o)) ->
  neut p (let* o := r in Ok (Some (MPrim d o))) = neut p (let* o := r' in Ok (Some (MPrim d o))).
Proof. destruct r, r'; cbn; intros H; try discriminate; congruence. Qed.

(** Maps that only differ in byte orders that do not matter have the same
    format. *)
Lemma tokens_same p m m' : neutral p m = neutral p m' -> map_tokens m = map_tokens m'.
Proof. destruct m, m'; cbn; intros H; inversion H; auto. Qed.

Lemma struct_tokens_same p l : forall l',
  map (fun a => (fst a, neut_opt p (snd a))) l = map (fun a => (fst a, neut_opt p (snd a))) l' ->
  struct_tokens l = struct_tokens l'.
Proof.
  induction l as [|[n o] l IH]; intros [|[n' o'] l'] H; try discriminate; auto. cbn [map fst snd] in H.
  injection H as N O H. subst n'. cbn [struct_tokens]. rewrite (IH _ H).
  destruct o as [m|], o' as [m'|]; cbn [neut_opt] in O; try discriminate; auto.
  injection O as O. now rewrite (tokens_same p m m').
Qed.

(** The maps of the members. *)
Definition neut_attrs (p : bool) (r : res (list (string * option dmap))) : res (list (string * option dmap)) :=
  let* l := r in Ok (map (fun a => (fst a, neut_opt p (snd a))) l).

Definition same_cache (p : bool) (a b : dict (option dmap)) : Prop :=
  forall k, option_map (neut_opt p) (dict_get k a) = option_map (neut_opt p) (dict_get k b).

Lemma same_cache_set p a b k x y : same_cache p a b -> neut_opt p x = neut_opt p y ->
  same_cache p (dict_set k x a) (dict_set k y b).
Proof.
  intros H E k'. rewrite !dict_get_set. destruct (String.eqb k' k); [|apply H]. cbn. now rewrite E.
Qed.

Lemma neut_bind p (r r' : res (option dmap)) (k k' : option dmap -> res (list (string * option dmap))) :
  neut p r = neut p r' -> (forall x y, neut_opt p x = neut_opt p y -> neut_attrs p (k x) = neut_attrs p (k' y)) ->
  neut_attrs p (let* m := r in k m) = neut_attrs p (let* m := r' in k' m).
Proof.
  intros H K. destruct r, r'; cbn in H; try discriminate; cbn [bind]; auto.
  - apply K. now inversion H.
  - inversion H. reflexivity.
Qed.

Lemma neut_rest p n x y r r' : neut_opt p x = neut_opt p y -> neut_attrs p r = neut_attrs p r' ->
  neut_attrs p (let* rest := r in Ok ((n, x) :: rest)) = neut_attrs p (let* rest := r' in Ok ((n, y) :: rest)).
Proof.
  intros E H. destruct r, r'; cbn in *; inversion H; auto. cbn. now rewrite E, H1.
Qed.

Lemma member_maps_same p o o' sname sbo ms :
  (forall m ov, In m ms -> member_override sname sbo (type_of m) = Ok ov ->
     neut p (inner_maker o m ov) = neut p (inner_maker o' m ov)) ->
  forall cache cache', same_cache p cache cache' ->
  neut_attrs p (member_maps sname sbo (map (fun m => (m, inner_maker o m)) ms) cache) =
  neut_attrs p (member_maps sname sbo (map (fun m => (m, inner_maker o' m)) ms) cache').
Proof.
  induction ms as [|m ms IH]; intros H cache cache' S; auto.
  cbn [map member_maps]. rewrite unwrap_type.
  destruct (member_override sname sbo (type_of m)) as [ov|e|] eqn:O; cbn [bind]; auto.
  assert (H' : forall m ov, In m ms -> member_override sname sbo (type_of m) = Ok ov ->
     neut p (inner_maker o m ov) = neut p (inner_maker o' m ov)) by (intros; apply H; auto; now right).
  specialize (IH H'). pose proof (S (ov_name ov (dt_name (type_of m)))) as Q.
  destruct (dict_get (ov_name ov (dt_name (type_of m))) cache) as [x|],
           (dict_get (ov_name ov (dt_name (type_of m))) cache') as [y|]; cbn in Q; try discriminate.
  - apply neut_rest; [congruence|]. now apply IH.
  - apply neut_bind; [apply H; auto; now left|]. intros x y E. apply neut_rest; auto.
    apply IH. now apply same_cache_set.
Qed.

(** A structure that is not read in one go. *)
Lemma check_linear_composite ms : forall last, Exists (fun m => is_composite m = true \/ is_padding m = true) ms ->
  check_linear last ms <> Ok true.
Proof.
  induction ms as [|m ms IH]; intros last H; [inversion H|]. cbn [check_linear].
  destruct (is_composite m || is_padding m) eqn:E; [discriminate|].
  assert (X : Exists (fun m => is_composite m = true \/ is_padding m = true) ms).
  { inversion H; subst; auto. apply orb_false_iff in E. destruct E as [E1 E2]. destruct H1; congruence. }
  destruct (dt_byte_order m) as [b|]; [|discriminate]. destruct (_ && _ && _); [discriminate|]. now apply IH.
Qed.

(** The format of single bytes. *)
Lemma created_single orc d ov m t : one_byte d -> create orc d ov = Ok (Some m) -> map_tokens m = Ok (Some t) ->
  forallb (fun '(_, c) => single c) t = true.
Proof.
  intros O C T.
  assert (E : exists op, m = MPrim (apply_ov ov d) op).
  { destruct d; cbn in O; try tauto; cbn [create] in C.
    - destruct false_value, true_value; try discriminate; apply bind_ok in C; destruct C as (op & _ & C); inversion C; eauto.
    - apply bind_ok in C; destruct C as (op & _ & C); inversion C; eauto.
    - apply bind_ok in C; destruct C as (op & _ & C); inversion C; eauto.
    - apply bind_ok in C; destruct C as (op & _ & C); inversion C; eauto. }
  destruct E as [op ->]. cbn [map_tokens] in T.
  replace (prim_code (apply_ov ov d)) with (prim_code d) in T
    by (destruct ov as [[n b]|]; [symmetry; apply prim_code_ov|reflexivity]).
  destruct (prim_code d) as [c|] eqn:P; [|discriminate]. inversion T; subst. cbn. rewrite andb_true_r.
  eapply one_byte_code; eauto.
Qed.

Lemma struct_tokens_single attrs : forall t,
  Forall (fun a => forall m t, snd a = Some m -> map_tokens m = Ok (Some t) -> forallb (fun '(_, c) => single c) t = true) attrs ->
  struct_tokens attrs = Ok (Some t) -> forallb (fun '(_, c) => single c) t = true.
Proof.
  induction attrs as [|[n [m|]] l IH]; intros t F H; cbn [struct_tokens] in H; [inversion H; reflexivity| |discriminate].
  inversion F; subst. apply bind_ok in H. destruct H as (u & U & H). destruct u as [u|]; [|discriminate].
  apply bind_ok in H. destruct H as (v & V & H). destruct v as [v|]; [|discriminate]. inversion H; subst.
  rewrite forallb_app. rewrite (H2 m u eq_refl U). cbn. now apply IH.
Qed.

Lemma struct_op_same h h' orc p bo attrs attrs' :
  map (fun a => (fst a, neut_opt p (snd a))) attrs = map (fun a => (fst a, neut_opt p (snd a))) attrs' ->
  p = true \/ explicit bo \/ (forall t, struct_tokens attrs = Ok (Some t) -> forallb (fun '(_, c) => single c) t = true) ->
  (let* o := struct_op (on_host h orc) bo attrs in Ok (option_map (neutral_op p) o)) =
  (let* o := struct_op (on_host h' orc) bo attrs' in Ok (option_map (neutral_op p) o)).
Proof.
  intros A H. unfold struct_op. rewrite <- (struct_tokens_same p _ _ A).
  destruct (struct_tokens attrs) as [[[|t0 t]|]|e|]; cbn [bind]; auto.
  pose proof (op_same p (resolve (on_host h orc) bo) (resolve (on_host h' orc) bo) (t0 :: t)) as S.
  assert (K : p = true \/ resolve (on_host h orc) bo = resolve (on_host h' orc) bo \/ forallb (fun '(_, c) => single c) (t0 :: t) = true).
  { destruct H as [H|[H|H]]; auto. right. left. now apply resolve_explicit. }
  specialize (S K).
  destruct (make_op (resolve (on_host h orc) bo) _); destruct (make_op (resolve (on_host h' orc) bo) _); cbn in *; auto.
Qed.

Lemma portable_list s l :
  (fix go (l : list dtype) : Prop :=
     match l with [] => True | m :: r => portable s m /\ go r end) l <-> Forall (portable s) l.
Proof.
  induction l as [|m l IH]; cbn; split; intros H; auto.
  - destruct H. constructor; tauto.
  - inversion H; tauto.
Qed.

Lemma portable_type s m : portable s m -> portable s (type_of m).
Proof. destruct m; auto. Qed.

Lemma set_bo n b d x : dt_byte_order d = Some x -> dt_byte_order (set_name_bo n b d) = Some b.
Proof. destruct d; cbn; try discriminate; auto. Qed.

Lemma override_ok sname sbo inner ov : member_override sname sbo inner = Ok ov -> ov_ok ov /\ (explicit sbo -> settles ov inner).
Proof.
  unfold member_override, settles. destruct sbo; cbn [is_native bo_eqb]; intros H.
  - inversion H; subst. split; cbn; auto. intros K. now elim K.
  - destruct (dt_byte_order inner) as [[]|] eqn:B; cbn in H; inversion H; subst; split; cbn; auto; try discriminate; intros _.
    + exists BOBig. split; [|discriminate]. eapply set_bo; eauto.
    + exists BOBig. split; auto; discriminate.
    + exists BOLittle. split; auto; discriminate.
  - destruct (dt_byte_order inner) as [[]|] eqn:B; cbn in H; inversion H; subst; split; cbn; auto; try discriminate; intros _.
    + exists BOLittle. split; [|discriminate]. eapply set_bo; eauto.
    + exists BOBig. split; auto; discriminate.
    + exists BOLittle. split; auto; discriminate.
Qed.

Lemma element_ok e el ov : element_override e el = Ok ov ->
  ov_ok ov /\ (explicit (e_bo e) /\ is_composite el = false -> settles ov el).
Proof.
  unfold element_override, settles. destruct (dt_byte_order el) as [b|] eqn:B; [|discriminate].
  destruct (e_bo e) eqn:E; cbn [is_native negb andb]; intros H.
  - inversion H; subst. split; cbn; auto. intros [K _]. now elim K.
  - destruct b; cbn in H; try (inversion H; subst; split; cbn; auto; intros _; eexists; split; [eassumption|discriminate]).
    destruct (is_composite el) eqn:C; cbn in H; inversion H; subst; split; cbn; auto; try discriminate; [intros [_ K]; discriminate|].
    intros _. exists BOBig. split; [|discriminate]. eapply set_bo; eauto.
  - destruct b; cbn in H; try (inversion H; subst; split; cbn; auto; intros _; eexists; split; [eassumption|discriminate]).
    destruct (is_composite el) eqn:C; cbn in H; inversion H; subst; split; cbn; auto; try discriminate; [intros [_ K]; discriminate|].
    intros _. exists BOLittle. split; [|discriminate]. eapply set_bo; eauto.
Qed.

Lemma ov_explicit (settled : Prop) ov (d : dtype) b : dt_byte_order d = Some b -> ov_ok ov -> (settled -> settles ov d) ->
  settled \/ explicit b -> explicit (ov_bo ov b).
Proof.
  intros B O S H. destruct ov as [[n b']|]; cbn in *; auto. destruct H as [H|H]; auto.
  destruct (S H) as (b' & E & X). cbn in E. congruence.
Qed.

(** The format of a linear sequence. *)
Lemma sequence_op_same h h' orc p e ed em em' :
  neut_opt p em = neut_opt p em' ->
  (p = true \/
   (forall m, em = Some m -> match m with
      | MPrim d _ => (exists b, dt_byte_order d = Some b /\ explicit b) \/ forall c, prim_code d = Some c -> single c = true
      | _ => forall t, map_tokens m <> Ok (Some t)
      end)) ->
  (let* o := sequence_op (on_host h orc) e ed em in Ok (option_map (neutral_op p) o)) =
  (let* o := sequence_op (on_host h' orc) e ed em' in Ok (option_map (neutral_op p) o)).
Proof.
  intros E H. destruct em as [m|], em' as [m'|]; cbn in E; try discriminate; auto. injection E as E.
  unfold sequence_op.
  assert (T : sequence_tokens e ed m = sequence_tokens e ed m').
  { unfold sequence_tokens. now rewrite (tokens_same p m m' E). }
  rewrite <- T.
  assert (G : forall en en' t, p = true \/ en = en' \/ forallb (fun '(_, c) => single c) t = true ->
    (let* o := (let* o := make_op en t in Ok (Some o)) in Ok (option_map (neutral_op p) o)) =
    (let* o := (let* o := make_op en' t in Ok (Some o)) in Ok (option_map (neutral_op p) o))).
  { intros en en' t K. pose proof (op_same p en en' t K) as S.
    destruct (make_op en _); destruct (make_op en' _); cbn in *; auto. }
  assert (ME : (exists en en', map_endian (on_host h orc) m = Ok en /\ map_endian (on_host h' orc) m' = Ok en' /\
      (match m with MPrim d _ => (exists b, dt_byte_order d = Some b /\ explicit b) -> en = en' | _ => True end)) \/
    (map_endian (on_host h orc) m = Raise AttributeError /\ map_endian (on_host h' orc) m' = Raise AttributeError)).
  { clear T H. destruct m, m'; cbn in E; inversion E; subst; cbn [map_endian]; auto;
      try (left; do 2 eexists; repeat split; reflexivity).
    - destruct (dt_byte_order _) as [b|] eqn:B; auto. left. do 2 eexists. repeat split.
      intros (b' & B' & X). inversion B'; subst. now apply resolve_explicit.
    - destruct (dt_byte_order _) as [b|] eqn:B; auto. left. do 2 eexists. repeat split; reflexivity.
    - destruct (dt_byte_order _) as [b|] eqn:B; auto. left. do 2 eexists. repeat split; reflexivity. }
  destruct ME as [(en & en' & -> & -> & X)|[-> ->]]; auto. cbn [bind].
  destruct (sequence_tokens e ed m) as [[t|]|x|] eqn:ST; auto. cbn [bind]. apply G.
  destruct H as [H|H]; auto. specialize (H m eq_refl).
  assert (ET : exists u, map_tokens m = Ok (Some u) /\ (forall n c, In (n, c) t -> exists n', In (n', c) u)).
  { unfold sequence_tokens in ST. destruct (truthy_Z (e_data_size e)).
    - destruct (get_byte_size ed) as [b|]; [|discriminate]. destruct (b =? 0); [discriminate|].
      apply bind_ok in ST. destruct ST as (f & F & ST). destruct (truthy_Z _); [|discriminate].
      destruct f as [[|[n c] [|]]|]; try discriminate. inversion ST; subst. eexists. split; eauto.
      intros n' c' [I|[]]. inversion I; subst. eexists; left; reflexivity.
    - apply bind_ok in ST. destruct ST as (f & F & ST). destruct (truthy_Z _); [|discriminate].
      destruct f as [[|[n c] [|]]|]; try discriminate. inversion ST; subst. eexists. split; eauto.
      intros n' c' [I|[]]. inversion I; subst. eexists; left; reflexivity. }
  destruct ET as (u & U & I). destruct m; try (exfalso; exact (H u U)).
  destruct H as [H|H]; [right; left; now apply X|]. right. right.
  cbn [map_tokens] in U. destruct (prim_code d) as [c|] eqn:PC; [|discriminate]. inversion U; subst.
  apply forallb_forall. intros [n c'] J. destruct (I _ _ J) as (n' & [K|[]]). inversion K; subst. now apply H.
Qed.

Lemma neut_create_bind p (A : Type) (r r' : res A) (g g' : A -> res (option dmap)) (f : A -> A) :
  (let* x := r in Ok (f x)) = (let* x := r' in Ok (f x)) ->
  (forall x y, f x = f y -> r = Ok x -> r' = Ok y -> neut p (g x) = neut p (g' y)) ->
  neut p (let* x := r in g x) = neut p (let* x := r' in g' x).
Proof.
  intros H K. destruct r, r'; cbn in H; try discriminate; cbn [bind]; auto.
  - apply K; auto. now inversion H.
  - inversion H. reflexivity.
Qed.

(** The element maps of primitives. *)
Lemma created_prim_map orc d ov m : create orc d ov = Ok (Some m) -> is_composite d = false ->
  match m with
  | MPrim d' _ => d' = apply_ov ov d /\ is_prim d = true
  | _ => forall t, map_tokens m <> Ok (Some t)
  end.
Proof.
  destruct d; cbn [create is_composite]; intros C K; try discriminate.
  - destruct false_value, true_value; try discriminate; apply bind_ok in C; destruct C as (op & _ & C); inversion C; auto.
  - apply bind_ok in C; destruct C as (op & _ & C); inversion C; auto.
  - apply bind_ok in C; destruct C as (op & _ & C); inversion C; auto.
  - apply bind_ok in C; destruct C as (op & _ & C); inversion C; auto.
  - inversion C; cbn; discriminate.
  - inversion C; cbn; discriminate.
  - inversion C; cbn; discriminate.
Qed.

Lemma group_values_same p vs (mk mk' : maker) : neut p (mk None) = neut p (mk' None) ->
  forall acc acc', map (fun a => (fst a, neut_opt p (snd a))) acc = map (fun a => (fst a, neut_opt p (snd a))) acc' ->
  (let* l := group_values vs mk acc in Ok (map (fun a => (fst a, neut_opt p (snd a))) l)) =
  (let* l := group_values vs mk' acc' in Ok (map (fun a => (fst a, neut_opt p (snd a))) l)).
Proof.
  intros H. induction vs as [|v vs IH]; intros acc acc' E; cbn [group_values bind]; [now rewrite E|].
  assert (V : option_map (neut_opt p) (val_get v acc) = option_map (neut_opt p) (val_get v acc')).
  { rewrite <- !(val_get_map (neut_opt p)). now rewrite E. }
  destruct (val_get v acc), (val_get v acc'); cbn in V; try discriminate; auto.
  destruct (mk None) as [x|x|], (mk' None) as [y|y|]; cbn in H; try discriminate; cbn [bind]; auto; [|congruence].
  apply IH. rewrite !map_app. cbn. inversion H. congruence.
Qed.

Lemma group_maps_same p i (ms ms' : list (dtype * maker)) :
  Forall2 (fun a b => fst a = fst b /\ neut p (snd a None) = neut p (snd b None)) ms ms' ->
  forall acc acc', map (fun a => (fst a, neut_opt p (snd a))) acc = map (fun a => (fst a, neut_opt p (snd a))) acc' ->
  (let* l := group_maps i ms acc in Ok (map (fun a => (fst a, neut_opt p (snd a))) l)) =
  (let* l := group_maps i ms' acc' in Ok (map (fun a => (fst a, neut_opt p (snd a))) l)).
Proof.
  induction 1 as [|[m mk] [m' mk'] ms ms' [E H] F IH]; intros acc acc' A; cbn [group_maps bind]; [now rewrite A|].
  cbn in E, H. subst m'. destruct (group_member_values i m) as [vs|x|]; cbn [bind]; auto.
  pose proof (group_values_same p vs mk mk' H acc acc' A) as G.
  destruct (group_values vs mk acc), (group_values vs mk' acc'); cbn in G; try discriminate; cbn [bind]; auto; try congruence.
  apply IH. now inversion G.
Qed.

Lemma create_same h h' orc d : forall p (settled : Prop) ov, p = true \/ portable settled d -> ov_ok ov ->
  (settled -> settles ov d) ->
  neut p (create (on_host h orc) d ov) = neut p (create (on_host h' orc) d ov).
Proof.
  induction d as [d IH] using dtype_ind_type. intros p settled ov P O S.
  assert (PR : forall b, dt_byte_order d = Some b -> is_prim d = true ->
    p = true \/ explicit (ov_bo ov b) \/ one_byte d).
  { intros b B I. destruct P as [P|P]; auto. right.
    assert (Q : (settled \/ explicit b) \/ one_byte d).
    { destruct d; try discriminate; cbn in B; inversion B; subst; cbn [portable] in P; cbn [one_byte] in *; tauto. }
    destruct Q as [Q|Q]; auto. left. eapply ov_explicit; eauto. }
  destruct d; try reflexivity.
  - cbn [create]. destruct false_value, true_value; try reflexivity; apply neut_prim, prim_op_same; apply PR; reflexivity.
  - cbn [create]. apply neut_prim, prim_op_same; apply PR; reflexivity.
  - cbn [create]. apply neut_prim, prim_op_same; apply PR; reflexivity.
  - cbn [create]. apply neut_prim, prim_op_same; apply PR; reflexivity.
  - cbn [create].
    replace (match apply_ov ov (DElems k e d) with DElems _ e' _ => e' | _ => e end) with (elems_of ov e)
      by (destruct ov as [[n bo]|]; reflexivity).
    destruct (element_override (elems_of ov e) d) as [eov|x|] eqn:EO; cbn [bind]; auto.
    destruct (element_ok _ _ _ EO) as [EO1 EO2].
    assert (EB : e_bo (elems_of ov e) = ov_bo ov (e_bo e)) by (destruct ov as [[n b]|]; reflexivity).
    rewrite EB in EO2.
    change (check_expressions (on_host h' orc)) with (check_expressions (on_host h orc)).
    destruct k.
    + (* sequences *)
      set (st := (settled \/ explicit (e_bo e)) /\ is_composite d = false).
      assert (SS : st -> settles eov d).
      { intros [Q1 Q2]. apply EO2. split; auto. eapply ov_explicit; eauto. reflexivity. }
      apply (neut_create_bind p _ _ _ _ _ (neut_opt p)).
      { pose proof (IH p st eov P EO1 SS) as Q. unfold neut in Q.
        destruct (create (on_host h orc) d eov), (create (on_host h' orc) d eov); cbn [bind] in *; auto. }
      intros em em' E C C'.
      destruct (check_expressions _ _) as [u|x|]; cbn [bind]; auto.
      destruct (sequence_is_linear _ _) eqn:L; [|cbn [neut neut_opt neutral]; unfold neut_opt in E; rewrite E; reflexivity].
      apply (neut_create_bind p _ _ _ _ _ (option_map (neutral_op p))).
      * apply sequence_op_same; auto. destruct P as [P|P]; auto. right. intros m ->.
        assert (NC : is_composite d = false).
        { unfold sequence_is_linear in L. apply negb_true_iff in L. rewrite !orb_false_iff in L.
          destruct L as [[[L _] _] _]. destruct eov as [[n b]|]; auto. cbn in L. now rewrite set_name_bo_composite in L. }
        pose proof (created_prim_map _ _ _ _ C NC) as M. destruct m; auto. destruct M as [-> M].
        assert (Q : (st \/ (exists b, dt_byte_order d = Some b /\ explicit b)) \/ one_byte d).
        { cbn [portable] in P. fold st in P. clear IH EO EO1 EO2 SS C C'. destruct d; try discriminate; cbn [portable] in P; cbn [dt_byte_order]; clear -P M;
          destruct P as [P|[P|P]]; eauto. }
        destruct Q as [[Q|(b & B & X)]|Q].
        -- left. destruct (SS Q) as (b & B & X). eauto.
        -- left. destruct eov as [[n b']|]; eauto. cbn in EO1. exists b'. split; auto. eapply set_bo; eauto.
        -- right. intros c PC. apply (one_byte_code d); auto.
           destruct eov as [[n b]|]; auto. cbn in PC. now rewrite prim_code_ov in PC.
      * intros x y XY _ _. cbn [neut neut_opt neutral]. rewrite XY. unfold neut_opt in E. rewrite E. reflexivity.
    + apply (neut_create_bind p _ _ _ _ _ (neut_opt true)).
      { pose proof (IH true False eov (or_introl eq_refl) EO1 (fun f => match f with end)) as Q. unfold neut in Q.
        destruct (create (on_host h orc) d eov), (create (on_host h' orc) d eov); cbn [bind] in *; auto. }
      intros em em' E C C'. destruct (check_expressions _ _) as [u|x|]; cbn [bind]; auto.
      destruct (is_composite (apply_ov eov d)); auto. apply (f_equal (fun x => Ok (Some (MStream (elems_of ov e) (apply_ov eov d) x)))) in E. exact E.
    + apply (neut_create_bind p _ _ _ _ _ (neut_opt true)).
      { pose proof (IH true False eov (or_introl eq_refl) EO1 (fun f => match f with end)) as Q. unfold neut in Q.
        destruct (create (on_host h orc) d eov), (create (on_host h' orc) d eov); cbn [bind] in *; auto. }
      intros em em' E C C'. destruct (check_expressions _ _) as [u|x|]; cbn [bind]; auto.
      destruct (is_composite (apply_ov eov d)); auto. apply (f_equal (fun x => Ok (Some (MString (elems_of ov e) (apply_ov eov d) x)))) in E. exact E.
  - (* structures *)
    cbn [create].
    change (map (fun m0 => (m0, match m0 with DMember _ _ _ _ _ i => create (on_host h orc) i | _ => create (on_host h orc) m0 end)) members)
      with (map (fun m => (m, inner_maker (on_host h orc) m)) members).
    change (map (fun m0 => (m0, match m0 with DMember _ _ _ _ _ i => create (on_host h' orc) i | _ => create (on_host h' orc) m0 end)) members)
      with (map (fun m => (m, inner_maker (on_host h' orc) m)) members).
    unfold create_structure. rewrite !map_fst_pair'.
    destruct (create_class _ members) as [cls|x|]; cbn [bind]; auto.
    set (nm := ov_name ov (m_name m)). set (b := ov_bo ov bo).
    assert (EX : settled \/ explicit bo -> explicit b).
    { intros Q. unfold b. eapply ov_explicit; eauto. reflexivity. }
    assert (MM : neut_attrs p (member_maps nm b (map (fun m => (m, inner_maker (on_host h orc) m)) members) []) =
                 neut_attrs p (member_maps nm b (map (fun m => (m, inner_maker (on_host h' orc) m)) members) [])).
    { apply member_maps_same; [|intros k; reflexivity]. intros m0 ov0 I0 O0. rewrite !inner_maker_type.
      destruct (override_ok _ _ _ _ O0) as [O1 O2]. rewrite Forall_forall in IH.
      apply (IH m0 I0 p (settled \/ explicit bo)); auto.
      destruct P as [P|P]; auto. right. cbn [portable] in P. destruct P as [_ P]. apply portable_list in P.
      rewrite Forall_forall in P. apply portable_type. auto. }
    destruct (member_maps nm b (map (fun m => (m, inner_maker (on_host h orc) m)) members) []) as [attrs|x|] eqn:M1,
             (member_maps nm b (map (fun m => (m, inner_maker (on_host h' orc) m)) members) []) as [attrs'|x'|] eqn:M2;
      unfold neut_attrs in MM; cbn [bind] in MM; try discriminate; cbn [bind]; auto; [|cbn; congruence].
    assert (AE : map (fun a => (fst a, neut_opt p (snd a))) attrs = map (fun a => (fst a, neut_opt p (snd a))) attrs') by congruence.
    destruct (check_linear b members) as [[|]|x|] eqn:CL; cbn [bind]; auto.
    + pose proof (struct_op_same h h' orc p b attrs attrs' AE) as SO.
      assert (K : p = true \/ explicit b \/ (forall t, struct_tokens attrs = Ok (Some t) -> forallb (fun '(_, c) => single c) t = true)).
      { destruct P as [P|P]; auto. right. cbn [portable] in P. destruct P as [[P|[P|P]] _]; auto.
        - right. intros t T. apply (struct_tokens_single attrs); auto.
          apply (member_maps_spec _ _ _ members members) in M1; auto; [|intros k mp; discriminate].
          rewrite Forall_forall in P. clear -M1 P. 
          assert (G : forall l at', Forall2 (fun m a => fst a = dt_name m /\ exists m', In m' members /\
             dt_name (used_type nm b m') = dt_name (used_type nm b m) /\
             create (on_host h orc) (used_type nm b m') None = Ok (snd a)) l at' ->
             Forall (fun a => forall m t, snd a = Some m -> map_tokens m = Ok (Some t) -> forallb (fun '(_, c) => single c) t = true) at').
          { induction 1 as [|x a l at' (_ & m' & I' & _ & C') F IH]; constructor; auto.
            intros y t1 Y T1. rewrite Y in C'. destruct (used_as_ov nm b m') as [ov' U]. destruct (U (on_host h orc)) as [U1 _].
            rewrite U1 in C'. eapply created_single; eauto. }
          eapply G; eauto.
        - elim (check_linear_composite _ _ P CL). }
      specialize (SO K).
      destruct (struct_op (on_host h orc) b attrs) as [o|x|], (struct_op (on_host h' orc) b attrs') as [o'|x'|];
        cbn [bind] in SO; try discriminate; cbn [bind neut neut_opt neutral]; auto; [|congruence].
      fold (neut_opt p). injection SO as SO. rewrite SO. unfold neut_opt in AE. rewrite AE. reflexivity.
    + cbn [neut neut_opt neutral]. unfold neut_opt in AE. rewrite AE. reflexivity.
  - (* structure groups *)
    destruct IH as (IHb & IHd & IHm).
    assert (PB : p = true \/ portable False d) by (destruct P as [P|P]; auto; cbn in P; tauto).
    assert (PD : forall x, default = Some x -> p = true \/ portable False x).
    { intros x ->. destruct P as [P|P]; auto. cbn in P. tauto. }
    assert (PM : p = true \/ Forall (portable False) members).
    { destruct P as [P|P]; auto. cbn [portable] in P. destruct P as (_ & _ & P). apply portable_list in P. auto. }
    cbn [create].
    apply (neut_create_bind p _ _ _ _ _ (neut_opt p)).
    { destruct default as [x|]; auto. cbn in IHd.
      pose proof (IHd p False None (PD _ eq_refl) I (fun f => match f with end)) as Q. unfold neut in Q.
      destruct (create (on_host h orc) x None), (create (on_host h' orc) x None); cbn [bind] in *; auto. }
    intros df df' DE _ _.
    apply (neut_create_bind p _ _ _ _ _ (neut_opt p)).
    { pose proof (IHb p False None PB I (fun f => match f with end)) as Q. unfold neut in Q.
      destruct (create (on_host h orc) d None), (create (on_host h' orc) d None); cbn [bind] in *; auto. }
    intros b b' BE _ _. destruct members as [|m0 ms]; auto.
    set (all := m0 :: ms) in *.
    apply (neut_create_bind p _ _ _ _ _ (map (fun a => (fst a, neut_opt p (snd a))))).
    { apply group_maps_same; auto. clear -IHm PM. induction IHm as [|x l Hx F IH]; cbn [map]; constructor.
      - split; auto. cbn. apply (Hx p False None); cbn; auto; [|tauto]. destruct PM as [PM|PM]; auto. inversion PM; auto.
      - apply IH. destruct PM as [PM|PM]; auto. inversion PM; auto. }
    intros x y XY _ _. cbn [neut neut_opt neutral]. unfold neut_opt in BE, DE, XY. rewrite BE, DE, XY. reflexivity.
Qed.

(** Creation needs no fuel. *)
Definition done {A} (r : res A) : Prop := r <> OutOfFuel.

Lemma done_bind {A B} (r : res A) (f : A -> res B) : done r -> (forall x, r = Ok x -> done (f x)) -> done (let* x := r in f x).
Proof. intros H K. destruct r; cbn; [auto|intros X; discriminate X|now elim H]. Qed.

Lemma done_ok {A} (x : A) : done (Ok x).
Proof. discriminate. Qed.

Lemma done_raise {A} e : done (@Raise A e).
Proof. discriminate. Qed.

#[local] Hint Resolve done_ok done_raise : done.

Lemma done_op en t : done (make_op en t).
Proof. unfold make_op. destruct (_ && _); auto with done. Qed.

Lemma done_prim orc d b : done (prim_op orc d b).
Proof. unfold prim_op. destruct (prim_code d); auto with done. apply done_bind; auto using done_op with done. Qed.

Lemma done_tokens m : done (map_tokens m).
Proof. destruct m; cbn; auto with done. Qed.

Lemma done_sequence orc e ed em : done (sequence_op orc e ed em).
Proof.
  unfold sequence_op. destruct em as [m|]; auto with done. apply done_bind.
  - destruct m; cbn; auto with done; destruct (dt_byte_order _); auto with done.
  - intros en _. apply done_bind.
    + unfold sequence_tokens.
      assert (F : forall n, done (let* f := map_tokens m in
        match truthy_Z n, f with Some n, Some [(_, c)] => Ok (Some [(n, c)]) | _, _ => Ok None end)).
      { intros n. apply done_bind; [apply done_tokens|]. intros f _. destruct (truthy_Z n); auto with done.
        destruct f as [[|[] []]|]; auto with done. }
      destruct (truthy_Z (e_data_size e)); [|apply F]. destruct (get_byte_size ed); auto with done.
      destruct (_ =? 0); auto with done.
    + intros t _. destruct t; auto with done. apply done_bind; auto using done_op with done.
Qed.

Lemma done_struct_tokens l : done (struct_tokens l).
Proof.
  induction l as [|[n [m|]] l IH]; cbn [struct_tokens]; auto with done.
  apply done_bind; [apply done_tokens|]. intros [t|] _; auto with done.
  apply done_bind; auto. intros [u|] _; auto with done.
Qed.

Lemma done_struct orc bo l : done (struct_op orc bo l).
Proof.
  unfold struct_op. apply done_bind; [apply done_struct_tokens|]. intros [[|]|] _; auto with done.
  apply done_bind; auto using done_op with done.
Qed.

Lemma done_linear ms : forall last, done (check_linear last ms).
Proof.
  induction ms as [|m ms IH]; intros last; cbn [check_linear]; auto with done.
  destruct (_ || _); auto with done. destruct (dt_byte_order m); auto with done. destruct (_ && _ && _); auto with done.
Qed.

Lemma done_members o sname sbo ms : Forall (fun m => forall ov, done (inner_maker o m ov)) ms ->
  forall cache, done (member_maps sname sbo (map (fun m => (m, inner_maker o m)) ms) cache).
Proof.
  induction 1 as [|m ms H F IH]; intros cache; cbn [map member_maps]; auto with done.
  apply done_bind.
  - unfold member_override. destruct (is_native sbo); auto with done. destruct (dt_byte_order _); auto with done.
    destruct (is_native _); auto with done.
  - intros ov _. destruct (dict_get _ _).
    + apply done_bind; auto with done.
    + apply done_bind; auto. intros x _. apply done_bind; auto with done.
Qed.

Lemma done_group_values vs (mk : maker) : done (mk None) -> forall acc, done (group_values vs mk acc).
Proof.
  intros H. induction vs as [|v vs IH]; intros acc; cbn [group_values]; auto with done.
  destruct (val_get v acc); auto with done. apply done_bind; auto.
Qed.

Lemma done_group_maps i ms : Forall (fun a : dtype * maker => done (snd a None)) ms -> forall acc, done (group_maps i ms acc).
Proof.
  induction 1 as [|[m mk] ms H F IH]; intros acc; cbn [group_maps]; auto with done. apply done_bind.
  - destruct m; cbn; auto with done; destruct (find_member _ _) as [[]|]; auto with done; match goal with |- done (match ?o with _ => _ end) => destruct o; auto with done end.
  - intros vs _. apply done_bind; auto. now apply done_group_values.
Qed.

Lemma done_class name ms : done (create_class name ms).
Proof.
  unfold create_class. apply done_bind.
  - unfold validate_class. destruct (negb _); auto with done. destruct (is_keyword _); auto with done.
    destruct (map dt_name ms) as [|n0 l0]; auto with done. generalize (n0 :: l0). generalize (@nil string). 
    intros seen l. revert seen. induction l as [|n l IH]; intros seen; cbn [validate_members]; auto with done.
    destruct (negb _); auto with done. destruct (starts_with_underscore n); auto with done.
    destruct (is_keyword n); auto with done. destruct (str_in n seen); auto with done.
  - intros _ _. apply done_bind; [|intros _ _; destruct (_ && _); auto with done].
    induction ms as [|m ms IH]; cbn [template_members]; auto with done. apply done_bind; auto.
    unfold template_member. apply done_bind; auto with done. unfold type_indicator.
    assert (N : forall (x : dtype) (t : option string), done (match native_type x, t with
      | Some t, _ => Ok t | None, Some t => Ok t | None, None => Raise TypeError end)).
    { intros x t. destruct (native_type x); auto with done. destruct t; auto with done. }
    assert (G : forall (x : dtype) (t : option string), done (match x with
      | DElems KSequence e _ => match e_data_type e with Some t => Ok ("tuple[" ++ t ++ "]")%string | None => Raise TypeError end
      | _ => match native_type x, t with Some t, _ => Ok t | None, Some t => Ok t | None, None => Raise TypeError end end)).
    { intros x t. destruct x; try apply N. destruct k; try apply N. destruct (e_data_type e); auto with done. }
    destruct m; try (cbn; now auto with done). exact (G (DElems k e m) (Some EmptyString)).
Qed.

Lemma create_done orc d : forall ov, done (create orc d ov).
Proof.
  induction d as [d IH] using dtype_ind_type. intros ov.
  destruct d; cbn [create]; auto with done.
  - destruct false_value, true_value; auto with done; apply done_bind; auto using done_prim with done.
  - apply done_bind; auto using done_prim with done.
  - apply done_bind; auto using done_prim with done.
  - apply done_bind; auto using done_prim with done.
  - apply done_bind; [unfold element_override; destruct (dt_byte_order d); auto with done; destruct (_ && _ && _); auto with done|].
    intros eov _. apply done_bind; [apply IH|]. intros em _.
    apply done_bind; [unfold check_expressions; destruct (_ && _); auto with done|]. intros _ _.
    destruct k.
    + destruct (sequence_is_linear _ _); auto with done. apply done_bind; auto using done_sequence with done.
    + destruct (is_composite _); auto with done.
    + destruct (is_composite _); auto with done.
  - apply done_bind; auto with done. unfold create_structure. apply done_bind.
    + apply done_class.
    + intros cls _. apply done_bind.
      * apply (done_members orc). eapply Forall_impl; [|exact IH]. cbn. intros a K ov'. rewrite inner_maker_type. apply K.
      * intros at' _. apply done_bind; [apply done_linear|]. intros [|] _; auto with done.
        apply done_bind; auto using done_struct with done.
  - destruct IH as (IHb & IHd & IHm). apply done_bind; [destruct default; auto with done; apply IHd|]. intros df _.
    apply done_bind; [apply IHb|]. intros b _. destruct members as [|m0 ms]; auto with done.
    apply done_bind; auto with done. apply done_group_maps. rewrite Forall_map.
    eapply Forall_impl; [|exact IHm]. cbn. auto.
Qed.

(** ** The theorems *)

Lemma portable_hosts h h' orc d : portable False d ->
  match create (on_host h orc) d None, create (on_host h' orc) d None with
  | Ok (Some m), Ok (Some m') => indistinguishable (on_host h orc) m (on_host h' orc) m'
  | Ok None, Ok None => True
  | Raise e, Raise e' => e = e'
  | _, _ => False
  end.
Proof.
  intros P. pose proof (create_same h h' orc d false False None (or_intror P) I (fun f => match f with end)) as E.
  pose proof (create_done (on_host h orc) d None) as D.
  destruct (create (on_host h orc) d None) as [[m|]|e|], (create (on_host h' orc) d None) as [[m'|]|e'|];
    cbn in E; try discriminate; auto; try congruence; try (elim D; reflexivity).
  - injection E as E. split; [|split].
    + intros fuel bs off c depth. rewrite <- (neutral_map _ fuel m), <- (neutral_map _ fuel m'), E. reflexivity.
    + intros v c. rewrite <- (neutral_fold _ m), <- (neutral_fold _ m'), E. reflexivity.
    + intros off c. rewrite <- (neutral_hint _ m false), <- (neutral_hint _ m' false), E. reflexivity.
Qed.

Lemma hosts_hint h h' orc d :
  match create (on_host h orc) d None, create (on_host h' orc) d None with
  | Ok (Some m), Ok (Some m') => forall off c, hint (on_host h orc) m off c = hint (on_host h' orc) m' off c
  | Ok None, Ok None => True
  | Raise e, Raise e' => e = e'
  | _, _ => False
  end.
Proof.
  pose proof (create_same h h' orc d true False None (or_introl eq_refl) I (fun f => match f with end)) as E.
  pose proof (create_done (on_host h orc) d None) as D.
  destruct (create (on_host h orc) d None) as [[m|]|e|], (create (on_host h' orc) d None) as [[m'|]|e'|];
    cbn in E; try discriminate; auto; try congruence; try (elim D; reflexivity).
  injection E as E. intros off c. rewrite <- (neutral_hint _ m true), <- (neutral_hint _ m' true), E. reflexivity.
Qed.
