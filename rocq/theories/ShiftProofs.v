(** Mapping does not depend on where in the stream a value lies. *)
From Coq Require Import String List ZArith Bool Lia.
From Verif Require Import Base PyVal PyStruct DataTypes ClassFactory DataMaps.
From Verif Require Import BytesProofs ContainerProofs SpecPrim PrimProofs SpecMap SpecCreate SpecShift MapProofs ContextProofs
  StructProofs LayoutProofs CreateProofs LinearProofs SeqProofs StreamProofs PaddingProofs GroupProofs SteadyProofs WindowProofs.
Import ListNotations.
Open Scope Z_scope.
Arguments Z.pow : simpl never.
Arguments Z.mul : simpl never.
Arguments Z.div : simpl never.
Arguments Z.modulo : simpl never.

Lemma len_app' {A} (l l' : list A) : len (l ++ l') = len l + len l'.
Proof. unfold len. rewrite app_length. lia. Qed.

Lemma skipn_past {A} (pre l : list A) n : skipn (List.length pre + n) (pre ++ l) = skipn n l.
Proof. induction pre; cbn; auto. Qed.

Lemma slice_from_shift {A} (pre l : list A) off : 0 <= off -> slice_from (pre ++ l) (len pre + off) = slice_from l off.
Proof.
  intros H. unfold slice_from, norm_index. rewrite len_app'.
  assert (0 <= len pre) by (unfold len; lia). assert (0 <= len l) by (unfold len; lia).
  destruct (Z.ltb_spec (len pre + off) 0); [lia|]. destruct (Z.ltb_spec off 0); [lia|].
  replace (Z.to_nat (Z.min (len pre + off) (len pre + len l))) with (List.length pre + Z.to_nat (Z.min off (len l)))%nat
    by (unfold len in *; lia).
  apply skipn_past.
Qed.

Lemma slice_shift {A} (pre l : list A) a b : 0 <= a -> 0 <= b ->
  slice (pre ++ l) (len pre + a) (len pre + b) = slice l a b.
Proof.
  intros Ha Hb. unfold slice, norm_index. rewrite len_app'.
  assert (0 <= len pre) by (unfold len; lia). assert (0 <= len l) by (unfold len; lia).
  destruct (Z.ltb_spec (len pre + a) 0); [lia|]. destruct (Z.ltb_spec a 0); [lia|].
  destruct (Z.ltb_spec (len pre + b) 0); [lia|]. destruct (Z.ltb_spec b 0); [lia|].
  replace (Z.to_nat (Z.min (len pre + a) (len pre + len l))) with (List.length pre + Z.to_nat (Z.min a (len l)))%nat
    by (unfold len in *; lia).
  rewrite skipn_past. f_equal. lia.
Qed.

Lemma room_shift {A} (pre l : list A) off : len (pre ++ l) - (len pre + off) = len l - off.
Proof. rewrite len_app'. lia. Qed.

(** The map gives the same on a stream with [pre] in front. *)
Definition moves (orc : oracle) (m : dmap) (pre : bytes) : Prop :=
  forall fuel bs off c depth, 0 <= off <= len bs -> clean c ->
    mapbs orc fuel m (pre ++ bs) (len pre + off) c depth = mapbs orc fuel m bs off c depth.

Lemma prim_moves orc d op pre : moves orc (MPrim d op) pre.
Proof.
  intros fuel bs off c depth H _. cbn [mapbs]. unfold map_prim. rewrite room_shift, slice_from_shift by lia. reflexivity.
Qed.

Lemma uuid_moves orc d pre : moves orc (MUUID d) pre.
Proof.
  intros fuel bs off c depth H _. cbn [mapbs]. unfold map_uuid.
  rewrite room_shift, <- Z.add_assoc, slice_shift by lia. reflexivity.
Qed.

Lemma padding_shift a k off : 0 < a -> k mod a = 0 -> padding_size a (k + off) = padding_size a off.
Proof.
  intros A K. unfold padding_size. replace ((k + off) mod a) with (off mod a); auto.
  rewrite Z.add_mod, K by lia. cbn [Z.add]. rewrite Z.mod_mod by lia. reflexivity.
Qed.

Lemma padding_nonneg a off : 0 < a -> 0 <= padding_size a off.
Proof. intros A. unfold padding_size. pose proof (Z.mod_pos_bound off a A). destruct (Z.ltb_spec 0 (off mod a)); lia. Qed.

Lemma padding_moves orc mt bo a pre : 0 < a -> len pre mod a = 0 -> moves orc (MPadding (DPadding mt bo (Some a))) pre.
Proof.
  intros A K fuel bs off c depth H _. cbn [mapbs]. unfold map_padding.
  rewrite (padding_shift a (len pre) off A K), room_shift, <- Z.add_assoc, slice_shift; [reflexivity|lia|].
  pose proof (padding_nonneg a off A). lia.
Qed.

Lemma linear_seq_moves orc e ed em op pre : moves orc (MSequence true e ed em op) pre.
Proof.
  intros fuel bs off c depth H _. cbn [mapbs]. unfold map_seq_linear. rewrite room_shift, slice_from_shift by lia. reflexivity.
Qed.

Lemma linear_struct_moves orc d cls ms attrs op pre : moves orc (MStructure true d cls ms attrs op) pre.
Proof.
  intros fuel bs off c depth H _. cbn [mapbs]. unfold map_struct_linear. rewrite room_shift, slice_from_shift by lia. reflexivity.
Qed.

Lemma scan_shift pre bs b t off : 0 <= b -> forall fuel doff ndoff value, 0 <= doff -> 0 <= ndoff ->
  stream_scan fuel (pre ++ bs) b t (len pre + off) (len pre + doff) (len pre + ndoff) value =
  match stream_scan fuel bs b t off doff ndoff value with
  | Ok (found, value, d) => Ok (found, value, len pre + d)
  | x => x
  end.
Proof.
  intros B. induction fuel as [|k IH]; intros doff ndoff value D N; [reflexivity|].
  cbn [stream_scan]. rewrite slice_from_shift by lia. destruct (is_empty _); [reflexivity|].
  destruct (bytes_is value t); [replace (len pre + ndoff - (len pre + off)) with (ndoff - off) by lia; reflexivity|].
  rewrite <- Z.add_assoc, slice_shift by lia. apply IH; lia.
Qed.

Lemma calc_size_nonneg orc e ed c n c' : clean c -> (forall b, get_byte_size ed = Some b -> 0 <= b) ->
  calc_data_size orc e ed c = (Ok (Some n), c') -> 0 <= n.
Proof.
  intros C B. unfold calc_data_size.
  assert (S : ctx_state c = st_empty) by (destruct c; auto). rewrite S. cbn [s_elements_data_size st_empty truthy_Z].
  destruct (has_data_size e).
  - intros E. inversion E as [[E1 E2]]. destruct (eval_data_size orc e (ctx_values c)) as [k| |] eqn:V; inversion E1; subst.
    apply (proj1 (eval_data_size_spec orc e _)) in V. apply measure_nonneg in V. exact V.
  - destruct (has_number e); [|discriminate]. destruct (get_byte_size ed) as [b|] eqn:Hb; [|discriminate].
    cbn [s_number_of_elements st_empty]. destruct (eval_number orc e c) as [r c''] eqn:V. intros E. inversion E as [[E1 E2]].
    destruct r as [k| |]; inversion E1; subst. specialize (B _ eq_refl).
    assert (0 <= k); [|nia].
    pose proof (f_equal fst V) as V1. cbn in V1. apply (proj1 (eval_number_spec orc e c)) in V1. apply measure_nonneg in V1. exact V1.
Qed.

Lemma scan_nonneg bs b t off : 0 <= b -> forall fuel doff ndoff value, off <= ndoff ->
  match stream_scan fuel bs b t off doff ndoff value with Ok (Some n, _, _) => 0 <= n | _ => True end.
Proof.
  intros B. induction fuel as [|k IH]; intros doff ndoff value N; [exact I|]. cbn [stream_scan].
  destruct (is_empty _); [exact I|]. destruct (bytes_is value t); [lia|]. apply IH. lia.
Qed.

Lemma stream_moves orc e ed em pre : steady (MStream e ed em) -> moves orc (MStream e ed em) pre.
Proof.
  intros [SB ST] fuel bs off c depth H C. cbn [mapbs]. unfold map_stream.
  destruct (calc_data_size orc e ed c) as [[size| |] c1] eqn:Q; try reflexivity.
  destruct size as [n|].
  - rewrite room_shift. pose proof (calc_size_nonneg _ _ _ _ _ _ C SB Q). rewrite <- Z.add_assoc, slice_shift by lia. reflexivity.
  - destruct (e_terminator e) as [t|]; [|reflexivity]. destruct (get_byte_size ed) as [b|]; [|reflexivity].
    specialize (SB _ eq_refl). unfold scan_fuel. rewrite room_shift. rewrite <- Z.add_assoc, slice_shift by lia.
    rewrite scan_shift by lia.
    assert (P : match stream_scan (S (S (Z.to_nat (len bs - off)))) bs b t off off (off + b) (slice bs off (off + b)) with
                | Ok (Some n, _, _) => 0 <= n | _ => True end).
    { apply scan_nonneg; lia. }
    destruct (stream_scan _ _ _ _ _ _ _ _) as [[[found value] d]| |]; [|reflexivity|reflexivity].
    replace (len pre + d - (len pre + off)) with (d - off) by lia. destruct (negb _); [reflexivity|].
    destruct found as [n|]; [|reflexivity]. rewrite <- Z.add_assoc, slice_shift by lia. reflexivity.
Qed.

Lemma string_moves orc e ed em pre : steady (MString e ed em) -> moves orc (MString e ed em) pre.
Proof.
  intros S fuel bs off c depth H C. cbn [mapbs]. unfold map_string.
  pose proof (stream_moves orc e ed em pre S fuel bs off c depth H C) as M. cbn [mapbs] in M. rewrite M. reflexivity.
Qed.

(** After an element or member the offset stays within the stream and the
    context is clean. *)
Lemma step_within orc fuel x bs off c depth v c' : extensional orc -> contained orc x -> 0 <= off <= len bs ->
  c_state c = st_empty -> mapbs orc fuel x bs off (Some c) depth = (Ok v, c') ->
  exists n k, c' = Some k /\ c_byte_size k = Some n /\ c_state k = st_empty /\ 0 <= n /\ off + n <= len bs.
Proof.
  intros X K Ho C M. destruct (fresh orc fuel x bs off c depth (c_values c) X C (same_values_refl _)) as [_ F].
  rewrite M in F. destruct (F v eq_refl) as (n & k & Mp & E & B & S & _). cbn in E.
  destruct (K fuel bs off (c_values c) depth Ho) as [W _]. destruct (W _ _ Mp) as (r & N & L & _).
  exists n, k. repeat split; auto; lia.
Qed.

Definition q_shift (k : Z) (s : seqst) : seqst :=
  mkSeq (k + q_off s) (q_index s) (q_doff s) (q_last s) (q_vals s) (q_sub s).
Definition out_shift (k : Z) (o : seqout) : seqout :=
  match o with
  | LDone s => LDone (q_shift k s)
  | LTooSmall s => LTooSmall (q_shift k s)
  | LExc s => LExc (q_shift k s)
  | LFuel => LFuel
  end.

Lemma seq_loop_shift orc fuel x bs pre number size term depth : extensional orc -> contained orc x -> moves orc x pre ->
  forall n s, 0 <= q_off s <= len bs -> c_state (q_sub s) = st_empty ->
  seq_loop n (Some (mapbs orc fuel x)) (pre ++ bs) number size term depth (q_shift (len pre) s) =
  out_shift (len pre) (seq_loop n (Some (mapbs orc fuel x)) bs number size term depth s).
Proof.
  intros X K M. induction n as [|n IH]; intros s Ho C; [reflexivity|].
  cbn [seq_loop]. change (q_off (q_shift (len pre) s)) with (len pre + q_off s).
  change (q_sub (q_shift (len pre) s)) with (q_sub s). change (q_index (q_shift (len pre) s)) with (q_index s).
  change (q_doff (q_shift (len pre) s)) with (q_doff s). change (q_vals (q_shift (len pre) s)) with (q_vals s).
  rewrite slice_from_shift by lia. destruct (is_empty _); [reflexivity|].
  destruct (opt_eqZ number (q_index s)); [reflexivity|]. destruct (opt_leZ size (q_doff s)); [reflexivity|].
  rewrite (M fuel bs (q_off s) (Some (q_sub s)) (depth + 1) Ho C).
  destruct (mapbs orc fuel x bs (q_off s) (Some (q_sub s)) (depth + 1)) as [[v|ex|] c'] eqn:R.
  - destruct (step_within _ _ _ _ _ _ _ _ _ X K Ho C R) as (k & y & -> & B & S & N & L). cbn [opt_default].
    rewrite B. destruct (is_term term v).
    + cbn [out_shift]. unfold q_shift. cbn [q_off q_index q_doff q_sub q_vals q_last]. now rewrite Z.add_assoc.
    + rewrite <- IH; cbn [q_off q_sub]; [|lia|exact S]. unfold q_shift. cbn [q_off q_index q_doff q_sub q_vals q_last]. now rewrite Z.add_assoc.
  - destruct ex; reflexivity.
  - reflexivity.
Qed.

Lemma bounds_clean orc e ed c r c1 : clean c -> seq_bounds orc e ed c = (r, c1) -> clean c1.
Proof.
  intros C. unfold seq_bounds. destruct (has_data_size e); [intros E; inversion E; subst; auto|].
  destruct (has_terminator e); [intros E; inversion E; subst; auto|].
  destruct (has_number e); [|intros E; inversion E; subst; auto].
  unfold eval_number. destruct (truthy_Z (e_number e)); [intros E; inversion E; subst; auto|].
  destruct (truthy_str (e_number_expr e)); intros E; inversion E; subst; auto. destruct c; cbn in *; auto.
Qed.

Lemma seq_moves orc e ed em op pre : extensional orc -> on_opt (contained orc) em -> on_opt (fun x => moves orc x pre) em ->
  moves orc (MSequence false e ed em op) pre.
Proof.
  intros X K M fuel bs off c depth H C. cbn [mapbs]. unfold map_seq. destruct (max_depth <? depth); [reflexivity|].
  destruct (seq_bounds orc e ed c) as [[[[number size] term]| |] c1] eqn:B; try reflexivity.
  pose proof (bounds_clean _ _ _ _ _ _ C B) as C1. assert (S : ctx_state c1 = st_empty) by (destruct c1; auto).
  rewrite S. cbn [s_element_index s_elements_data_offset s_mapped_values s_context st_empty opt_default].
  destruct em as [x|].
  - pose proof (seq_loop_shift orc fuel x bs pre number size term depth X K M fuel (mkSeq off 0 0 VNone [] (ctx_new [])) H eq_refl) as L.
    unfold q_shift in L at 1. cbn [q_off q_index q_doff q_sub q_vals q_last] in L. rewrite L.
    destruct (seq_loop _ _ bs _ _ _ _ _); reflexivity.
  - destruct fuel; [reflexivity|]. cbn [seq_loop q_off q_index q_doff]. rewrite slice_from_shift by lia.
    destruct (is_empty _); [reflexivity|]. destruct (opt_eqZ number 0); [reflexivity|]. destruct (opt_leZ size 0); reflexivity.
Qed.

Definition t_shift (k : Z) (s : strst) : strst := mkStr (k + t_off s) (t_size s) (t_vals s) (t_sub s).
Definition str_shift (k : Z) (o : strout) : strout :=
  match o with
  | RDone s => RDone (t_shift k s)
  | RTooSmall i s => RTooSmall i (t_shift k s)
  | RExc e s => RExc e (t_shift k s)
  | RFuel => RFuel
  end.

Lemma alias_state v c : c_state (alias_update v c) = c_state c.
Proof. unfold alias_update. destruct (c_self c); reflexivity. Qed.
Lemma alias_size v c : c_byte_size (alias_update v c) = c_byte_size c.
Proof. unfold alias_update. destruct (c_self c); reflexivity. Qed.

Lemma struct_loop_shift orc fuel bs pre depth : extensional orc -> forall fs,
  Forall (fun f : field => on_opt (contained orc) (snd (snd f))) fs ->
  Forall (fun f : field => on_opt (fun x => moves orc x pre) (snd (snd f))) fs ->
  forall index s, 0 <= t_off s <= len bs -> c_state (t_sub s) = st_empty ->
  struct_loop orc (map (attr_of orc fuel) fs) index (pre ++ bs) depth (t_shift (len pre) s) =
  str_shift (len pre) (struct_loop orc (map (attr_of orc fuel) fs) index bs depth s).
Proof.
  intros X. induction fs as [|[d [name o]] fs IH]; intros KF MF index s Ho C; [reflexivity|].
  inversion KF as [|? ? K KF']; subst. inversion MF as [|? ? M MF']; subst. cbn [fst snd] in K, M.
  cbn [map struct_loop]. set (h := attr_of orc fuel (d, (name, o))). change (a_cond h) with (member_cond d). change (a_vals h) with (member_values d).
  change (a_map h) with (match o with Some y => Some (mapbs orc fuel y) | None => None end).
  change (t_sub (t_shift (len pre) s)) with (t_sub s). destruct (eval_condition orc (member_cond d) _) as [[|]| |]; try reflexivity.
  2: { now apply IH. }
  destruct o as [x|]; [|reflexivity]. cbn in K, M.
  change (t_off (t_shift (len pre) s)) with (len pre + t_off s).
  rewrite (M fuel bs (t_off s) (Some (t_sub s)) (depth + 1) Ho C).
  destruct (mapbs orc fuel x bs (t_off s) (Some (t_sub s)) (depth + 1)) as [[v|ex|] c'] eqn:R.
  - destruct (step_within _ _ _ _ _ _ _ _ _ X K Ho C R) as (k & y & -> & B & S & N & L). cbn [opt_default].
    change (t_vals (t_shift (len pre) s)) with (t_vals s). change (t_size (t_shift (len pre) s)) with (t_size s).
    destruct (unsupported (member_values d) v); [reflexivity|]. rewrite alias_size, B.
    rewrite <- IH; auto; cbn [t_off t_sub]; [|lia|now rewrite alias_state].
    unfold t_shift. cbn [t_off t_size t_vals t_sub]. now rewrite Z.add_assoc.
  - destruct ex; reflexivity.
  - reflexivity.
Qed.

Lemma structure_moves orc d cls ms attrs op pre : extensional orc ->
  Forall (fun a => on_opt (contained orc) (snd a)) attrs -> Forall (fun a => on_opt (fun x => moves orc x pre) (snd a)) attrs ->
  moves orc (MStructure false d cls ms attrs op) pre.
Proof.
  intros X K M fuel bs off c depth H C. cbn [mapbs]. unfold map_struct. destruct (max_depth <? depth); [reflexivity|].
  assert (S : ctx_state c = st_empty) by (destruct c; auto). rewrite S.
  cbn [s_attribute_index s_context st_empty opt_default]. destruct (struct_values cls _ st_empty) as [v| |]; try reflexivity.
  rewrite attrs_of_fields. destruct (len _ <=? 0); [reflexivity|]. cbn [Z.to_nat skipn].
  pose proof (struct_loop_shift orc fuel bs pre depth X (combine ms attrs) (Forall_combine _ ms attrs K)
    (Forall_combine _ ms attrs M) 0 (mkStr off 0 v (struct_subcontext v (ctx_values c))) H eq_refl) as L.
  unfold t_shift in L at 1. cbn [t_off t_size t_vals t_sub] in L. rewrite L.
  destruct (struct_loop _ _ _ bs _ _); reflexivity.
Qed.

Lemma group_member_moves orc fuel df (mp : list (pyval * option dmap)) pre ident bs off c depth :
  on_opt (fun x => moves orc x pre) df -> Forall (fun a => on_opt (fun x => moves orc x pre) (snd a)) mp ->
  0 <= off <= len bs -> s_context (ctx_state c) = None ->
  map_group_member (match df with Some x => Some (mapbs orc fuel x) | None => None end)
    (map (fun x => (fst x, match snd x with Some y => Some (mapbs orc fuel y) | None => None end)) mp) ident (pre ++ bs) (len pre + off) c depth =
  map_group_member (match df with Some x => Some (mapbs orc fuel x) | None => None end)
    (map (fun x => (fst x, match snd x with Some y => Some (mapbs orc fuel y) | None => None end)) mp) ident bs off c depth.
Proof.
  intros MD MM H S. unfold map_group_member. rewrite S. cbn [opt_default].
  assert (V : forall f, (match val_get ident (map (fun x => (fst x, match snd x with Some y => Some (mapbs orc fuel y) | None => None end)) mp) with
     | Some m => m | None => match df with Some x => Some (mapbs orc fuel x) | None => None end end) = Some f ->
     exists x, f = mapbs orc fuel x /\ moves orc x pre).
  { intros f. rewrite (val_get_map (fun o : option dmap => match o with Some y => Some (mapbs orc fuel y) | None => None end)). destruct (val_get ident mp) as [o|] eqn:G.
    - destruct o as [x|]; intros E; inversion E; subst. exists x. split; auto.
      assert (I : exists k, In (k, Some x) mp).
      { unfold val_get in G. destruct (find _ mp) as [[k w]|] eqn:F; [|discriminate]. inversion G; subst.
        exists k. exact (proj1 (find_some _ _ F)). }
      destruct I as [k I]. rewrite Forall_forall in MM. exact (MM _ I).
    - destruct df as [x|]; intros E; inversion E; subst. exists x. split; auto. }
  destruct (match val_get _ _ with Some m => m | None => _ end) as [f|]; [|reflexivity].
  destruct (V f eq_refl) as (x & -> & M). rewrite (M fuel bs off (Some (ctx_new [])) depth H eq_refl). reflexivity.
Qed.

Lemma group_moves orc d i b df mp pre : on_opt (fun x => moves orc x pre) b -> on_opt (fun x => moves orc x pre) df ->
  Forall (fun a => on_opt (fun x => moves orc x pre) (snd a)) mp -> moves orc (MGroup d i b df mp) pre.
Proof.
  intros MB MD MM fuel bs off c depth H C. cbn [mapbs]. unfold map_group.
  assert (S : ctx_state c = st_empty) by (destruct c; auto). rewrite S. cbn [s_member_identifier s_context st_empty opt_default].
  destruct b as [x|]; [|reflexivity]. rewrite (MB fuel bs off (Some (ctx_new [])) depth H eq_refl).
  destruct (mapbs orc fuel x bs off (Some (ctx_new [])) depth) as [[v|ex|] c']; try reflexivity.
  assert (G : forall ident, s_context (ctx_state (on_state (upd_identifier (Some ident))
      (on_state (share_context (opt_default (ctx_new []) c')) c))) = None).
  { intros ident. destruct c as [c|]; [|reflexivity]. cbn in *. rewrite C. reflexivity. }
  destruct (py_getattr v i); try reflexivity; apply group_member_moves; auto.
Qed.

Definition pads (k : Z) (m : dmap) : Prop :=
  match m with MPadding d => keeps_alignment k d | _ => True end.

Lemma steady_moves orc m pre : extensional orc -> all_maps steady m -> all_maps (pads (len pre)) m -> moves orc m pre.
Proof.
  intros X. induction m using dmap_rect'; intros S A.
  - apply prim_moves.
  - apply uuid_moves.
  - apply all_maps_here in S. apply all_maps_here in A. destruct S as (mt & bo & a & -> & P). now apply padding_moves.
  - destruct l; [apply linear_seq_moves|].
    apply (all_maps_elem steady (MSequence false e ed em op) em eq_refl) in S. destruct S as [_ S].
    apply (all_maps_elem _ (MSequence false e ed em op) em eq_refl) in A. destruct A as [_ A].
    destruct em; cbn in *; apply seq_moves; cbn; auto. now apply steady_contained.
  - apply (stream_moves orc e ed em). exact (all_maps_here _ _ S).
  - apply (string_moves orc e ed em). exact (all_maps_here _ _ S).
  - destruct l; [apply linear_struct_moves|]. apply all_maps_attrs in S. destruct S as [_ S]. apply all_maps_attrs in A. destruct A as [_ A].
    rewrite Forall_forall in *.
    apply structure_moves; auto; apply Forall_forall; intros a I; specialize (H a I); specialize (S a I); specialize (A a I);
      destruct (snd a); cbn in *; auto. now apply steady_contained.
  - intros fuel bs off c depth _ _. reflexivity.
  - intros fuel bs off c depth _ _. reflexivity.
  - apply all_maps_group in S. destruct S as (_ & S1 & S2 & S3). apply all_maps_group in A. destruct A as (_ & A1 & A2 & A3).
    apply group_moves.
    + destruct b; cbn in *; auto.
    + destruct df; cbn in *; auto.
    + rewrite Forall_forall in *. intros a I. specialize (S3 a I). specialize (A3 a I). specialize (H1 a I). destruct (snd a); cbn in *; auto.
Qed.

Lemma created_pads orc k d ov m : keeps_alignment k d -> create orc d ov = Ok (Some m) -> pads k m.
Proof.
  intros K C. destruct d; try discriminate.
  - cbn [create] in C. destruct false_value, true_value; try discriminate;
      (apply bind_ok in C; destruct C as (o & O & C); inversion C; subst; exact I).
  - cbn [create] in C. apply bind_ok in C; destruct C as (o & O & C); inversion C; subst; exact I.
  - cbn [create] in C. apply bind_ok in C; destruct C as (o & O & C); inversion C; subst; exact I.
  - cbn [create] in C. apply bind_ok in C; destruct C as (o & O & C); inversion C; subst; exact I.
  - cbn [create] in C. inversion C; subst; exact I.
  - cbn [create] in C. inversion C; subst. cbn [pads]. destruct ov as [[nm b]|]; exact K.
  - apply create_elems in C. destruct C as (eov & em & O & Ce & _ & C). destruct k0.
    + destruct (sequence_is_linear _ _); [destruct C as (o & _ & ->)|subst m]; exact I.
    + destruct C as [_ ->]. exact I.
    + destruct C as [_ ->]. exact I.
  - rewrite create_apply in C.
    set (d := apply_ov ov (DStructure m0 bo members)) in *.
    assert (Q : exists mt' bo', d = DStructure mt' bo' members) by (subst d; destruct ov as [[nm b]|]; cbn; eauto).
    destruct Q as (mt' & bo' & Q). clearbody d. subst d.
    apply created_structure in C. apply create_structure_inv in C.
    destruct C as (attrs & _ & _ & _ & _ & X). destruct X as [(L & op & OP & ->)|(L & ->)]; exact I.
  - cbn [create] in C. inversion C; subst; exact I.
  - cbn [create] in C. inversion C; subst; exact I.
  - cbn [create] in C. inversion C; subst; exact I.
  - cbn [create] in C. apply bind_ok in C. destruct C as (df & D & C).
    apply bind_ok in C. destruct C as (b & B & C). destruct members; [discriminate|].
    apply bind_ok in C. destruct C as (entries & G & C). inversion C; subst. exact I.
Qed.

(** C56 *)
Lemma mapping_moves orc fuel d m pre bs off c depth :
  extensional orc -> everywhere sound d -> everywhere (keeps_alignment (len pre)) d -> create orc d None = Ok (Some m) ->
  0 <= off <= len bs -> clean c ->
  mapbs orc fuel m (pre ++ bs) (len pre + off) c depth = mapbs orc fuel m bs off c depth.
Proof.
  intros X S A C Ho Cl. apply steady_moves; auto.
  - eapply all_steady; eauto.
  - eapply (created_all orc (keeps_alignment (len pre))); eauto. intros. eapply created_pads; eauto.
Qed.

Lemma mapping_from orc fuel d m bs off c depth :
  extensional orc -> everywhere sound d -> everywhere (keeps_alignment off) d -> create orc d None = Ok (Some m) ->
  0 <= off <= len bs -> clean c ->
  mapbs orc fuel m bs off c depth = mapbs orc fuel m (skipn (Z.to_nat off) bs) 0 c depth.
Proof.
  intros X S A C Ho Cl.
  assert (L : len (firstn (Z.to_nat off) bs) = off) by (unfold len in *; rewrite firstn_length; lia).
  pose proof (mapping_moves orc fuel d m (firstn (Z.to_nat off) bs) (skipn (Z.to_nat off) bs) 0 c depth X S) as M.
  rewrite L, firstn_skipn, Z.add_0_r in M. apply M; auto. unfold len; lia.
Qed.
