(** Folding what was mapped. *)
From Coq Require Import String List ZArith Bool Lia.
From Verif Require Import Base Ieee PyVal PyStruct DataTypes ClassFactory DataMaps.
From Verif Require Import BytesProofs ContainerProofs SpecPrim PrimProofs IeeeProofs SpecMap SpecCreate SpecFold
  MapProofs ContextProofs StructProofs LayoutProofs CreateProofs LinearProofs StreamProofs SteadyProofs WindowProofs.
Import ListNotations.
Open Scope Z_scope.
Arguments Z.pow : simpl never.
Arguments Z.mul : simpl never.
Arguments Z.div : simpl never.
Arguments Z.modulo : simpl never.

(** ** Items of a struct format *)

Lemma widen_nan b : 0 <= b < 2 ^ 32 -> signalling_single b -> nan_double (f32_to_f64 b).
Proof.
  intros Hb [E M]. destruct (split_fields 23 8 b) as [neg Hs]; [lia|lia|exact Hb|].
  unfold single_exponent, single_mantissa in *. change (2 ^ 8) with 256 in Hs. rewrite E in Hs.
  unfold f32_to_f64. rewrite Hs at 1. rewrite decode_fields by (change (2 ^ 8) with 256; lia).
  change (255 =? 2 ^ 8 - 1) with true. cbn match.
  destruct (Z.eqb_spec (b mod 2 ^ 23) 0) as [|_]; [lia|].
  set (m := b mod 2 ^ 23) in *. clearbody m. clear Hs E Hb b.
  set (P := Z.lor (m * 2 ^ 29) (2 ^ 51)).
  assert (HP : 0 < P < 2 ^ 52).
  { assert (P0 : 0 <= P) by (apply Z.lor_nonneg; lia).
    assert (P1 : P <> 0) by (unfold P; rewrite Z.lor_eq_0_iff; lia).
    split; [lia|]. apply Z.log2_lt_pow2; [lia|]. unfold P. rewrite Z.log2_lor by lia.
    apply Z.max_lub_lt; [|reflexivity]. apply Z.log2_lt_pow2; [lia|].
    change (2 ^ 52) with (2 ^ 23 * 2 ^ 29). lia. }
  clearbody P. unfold nan_double, double_exponent, double_mantissa, with_sign.
  destruct neg.
  - change (2 ^ (52 + 11)) with (2048 * 2 ^ 52). replace (2048 * 2 ^ 52 + (2047 * 2 ^ 52 + P)) with (4095 * 2 ^ 52 + P) by lia.
    destruct (div_mod_fields 4095 (2 ^ 52) P) as [-> ->]; try lia. split; [reflexivity|lia].
  - destruct (div_mod_fields 2047 (2 ^ 52) P) as [-> ->]; try lia. split; [reflexivity|lia].
Qed.

(** Unpacking with [c] gives a value that packs back. *)
Definition quiet (c : fcode) (v : pyval) : Prop := c <> Cf \/ no_nan v.

Lemma pack_unpack1 en c w : List.length w = code_size c -> quiet c (unpack1 en c w) ->
  pack1 en c (unpack1 en c w) = Ok w.
Proof.
  intros L Q. destruct (is_int_code c) eqn:IC.
  - rewrite unpack1_int by auto.
    replace (pack1 en c (VInt (stored_integer (code_signed c) en w)))
      with (pack_int en c (stored_integer (code_signed c) en w)) by (destruct c; try discriminate; reflexivity).
    rewrite pack_int_range by now apply stored_integer_in_range. now rewrite enc_stored.
  - destruct c; try discriminate; unfold pack1, unpack1, pack_float; rewrite le_val_stored.
    + rewrite f32_round_trip.
      * f_equal. now apply (enc_stored_number en 4).
      * apply (stored_number_range _ _ 4). unfold len. rewrite L. reflexivity.
      * intros S. destruct Q as [Q|Q]; [congruence|]. unfold unpack1 in Q. rewrite le_val_stored in Q.
        apply Q. apply widen_nan; auto. apply (stored_number_range _ _ 4). unfold len. rewrite L. reflexivity.
    + f_equal. now apply (enc_stored_number en 8).
Qed.

Lemma pack_unpack en cs : forall l, csizes cs <= len l ->
  Forall2 quiet cs (unpack_codes en cs l) ->
  pack_codes en cs (unpack_codes en cs l) = Ok (firstn (Z.to_nat (csizes cs)) l).
Proof.
  induction cs as [|c cs IH]; intros l L Q; [reflexivity|].
  cbn [csizes fold_right] in L. fold (csizes cs) in L. cbn [unpack_codes] in Q. inversion Q; subst.
  pose proof (csizes_nonneg cs) as CN. unfold csize in L.
  cbn [unpack_codes pack_codes].
  rewrite pack_unpack1; auto.
  2:{ apply firstn_length_le. unfold len in L. lia. }
  cbn [bind]. rewrite IH; auto.
  2:{ rewrite len_skipn. lia. }
  cbn [bind]. f_equal. cbn [csizes fold_right]. fold (csizes cs). unfold csize.
  rewrite Z2Nat.inj_add, Nat2Z.id by lia.
  generalize (code_size c) (Z.to_nat (csizes cs)). clear. intros a b. revert l.
  induction a as [|a IH]; intros l; [reflexivity|]. destruct l; cbn; [now rewrite firstn_nil|]. f_equal. apply IH.
Qed.

Lemma unpack1_not_none en c w : unpack1 en c w <> VNone.
Proof. destruct c; discriminate. Qed.

Lemma unpack_not_none en cs : forall l, Forall (fun v => v <> VNone) (unpack_codes en cs l).
Proof. induction cs; intros l; cbn; constructor; auto. apply unpack1_not_none. Qed.

Lemma unpack_length en cs : forall l, List.length (unpack_codes en cs l) = List.length cs.
Proof. induction cs; intros l; cbn; auto. Qed.

(** ** Values without NaN *)

Lemma no_nan_tuple l : no_nan (VTuple l) <-> Forall no_nan l.
Proof.
  cbn. induction l as [|x l IH]; split; intros H; auto.
  - constructor; [tauto|]. apply IH. tauto.
  - inversion H; subst. split; auto. now apply IH.
Qed.

Lemma no_nan_struct cls a : no_nan (VStruct cls a) <-> Forall (fun x => no_nan (snd x)) a.
Proof.
  cbn. induction a as [|[k x] l IH]; split; intros H; auto.
  - constructor; [cbn; tauto|]. apply IH. tauto.
  - inversion H; subst. split; auto. now apply IH.
Qed.

Lemma no_nan_getattr v n : no_nan v -> no_nan (py_getattr v n).
Proof.
  destruct v; cbn [py_getattr]; try (intros; exact I). rewrite no_nan_struct. intros F.
  induction attrs as [|[k x] l IH]; cbn; [exact I|]. inversion F; subst. destruct (String.eqb n k); auto.
Qed.

(** ** Folding back *)

(** Folding [v] with the names [fvals] gives the bytes [b]. *)
Definition folds_to (orc : oracle) (m : dmap) (fvals : env) (v : pyval) (b : bytes) : Prop :=
  forall c, clean c -> same_values (ctx_values c) fvals -> exists c',
    foldbs orc m v c = (Ok (VBytes b), c') /\ clean c' /\ same_values (ctx_values c') fvals.

(** The values mapped by [m] fold back to the bytes they were mapped from, if [K]
    holds for them and [A] for the names used. *)
Definition refolds (orc : oracle) (A : env -> env -> pyval -> Prop) (K : pyval -> Prop) (m : dmap) : Prop :=
  forall fuel bs off vals depth v n, 0 <= off -> maps orc fuel m bs off vals depth v n -> K v ->
  v <> VNone /\ 0 <= n /\ forall fvals, A vals fvals v -> folds_to orc m fvals v (window bs off n).

Lemma prim_refolds orc A (K : pyval -> Prop) d op :
  number_type d -> (forall n, get_byte_size d = Some n -> 0 < n) ->
  (forall o, op = Some o -> exists en c, o = op1 en c /\ prim_code d = Some c) ->
  (prim_code d = Some Cf -> forall v, K v -> no_nan v) ->
  refolds orc A K (MPrim d op).
Proof.
  intros NT S O Q fuel bs off vals depth v n Ho M HK.
  destruct (get_byte_size d) as [k|] eqn:G.
  2:{ apply maps_fst in M. cbn in M. unfold map_prim in M. rewrite G in M. discriminate. }
  destruct op as [o|]; [|exfalso; eapply dead_maps; eauto].
  destruct (O o eq_refl) as (en & c & -> & C). pose proof (prim_size _ _ _ C G) as KC. subst k.
  destruct M as (c0 & M & B). cbn [mapbs] in M. rewrite (map_prim_spec d c en (csize c)) in M by auto.
  destruct (Z.ltb_spec (len bs - off) (csize c)); [discriminate|].
  assert (MV : map_value d (unpack1 en c (window bs off (csize c))) = Ok (unpack1 en c (window bs off (csize c))))
    by (destruct d; try contradiction; reflexivity).
  rewrite MV in M. inversion M; subst v c0. cbn in B. inversion B; subst n.
  specialize (S _ eq_refl). split; [apply unpack1_not_none|]. split; [lia|].
  intros fvals _ cx Cl SV. exists cx. split; auto. cbn [foldbs]. unfold fold_prim.
  assert (FV : forall x, fold_value d x = Ok x) by (destruct d; try contradiction; reflexivity).
  rewrite FV. cbn [bind]. rewrite write_op1, pack_unpack1; [reflexivity| |].
  - rewrite length_window by lia. unfold csize. apply Nat2Z.id.
  - destruct c; try (left; discriminate). right. apply Q; auto.
Qed.

Lemma uuid_refolds orc A K d : (forall n, get_byte_size d = Some n -> n = 16) ->
  dt_byte_order d <> Some BONative -> dt_byte_order d <> None -> refolds orc A K (MUUID d).
Proof.
  intros S B1 B2 fuel bs off vals depth v n Ho (c0 & M & B) _. cbn [mapbs] in M. unfold map_uuid in M.
  destruct (get_byte_size d) as [k|]; [|discriminate]. specialize (S _ eq_refl). subst k.
  destruct (Z.ltb_spec (len bs - off) 16); [discriminate|].
  rewrite slice_window in M by lia. rewrite len_window in M by lia.
  assert (LW : List.length (window bs off 16) = 16%nat) by (rewrite length_window by lia; reflexivity).
  destruct (dt_byte_order d) as [[]|] eqn:E; try congruence; cbn [Z.eqb Pos.eqb] in M; inversion M; subst v c0; cbn in B; inversion B; subst n;
    (split; [discriminate|]; split; [lia|]; intros fvals _ c Cl SV; exists c; split; auto);
    cbn [foldbs]; unfold fold_uuid; rewrite E; auto.
  now rewrite uuid_swap_involutive.
Qed.

Lemma padding_refolds orc A K d : steady (MPadding d) -> refolds orc A K (MPadding d).
Proof.
  intros (mt & bo & a & -> & HA) fuel bs off vals depth v n Ho (c0 & M & B) _. cbn [mapbs] in M. unfold map_padding in M.
  destruct (Z.eqb_spec a 0); [discriminate|]. pose proof (padding_nonneg a off HA) as P.
  destruct (Z.ltb_spec (len bs - off) (padding_size a off)); [discriminate|].
  rewrite slice_window in M by lia. inversion M; subst v c0. cbn in B. inversion B; subst n.
  split; [discriminate|]. split; auto. intros fvals _ c Cl SV. exists c. split; auto.
Qed.

(** *** Streams and strings *)

Lemma calc_values orc e ed c fvals : extensional orc -> clean c -> same_values (ctx_values c) fvals ->
  let r := calc_data_size orc e ed c in
  fst r = fst (calc_data_size orc e ed (Some (ctx_new fvals))) /\ clean (snd r) /\
  same_values (ctx_values (snd r)) fvals.
Proof.
  intros X Cl SV. cbn zeta.
  destruct (calc_agrees orc X e ed c (Some (ctx_new fvals)) Cl eq_refl SV) as (A & B & _).
  split; auto. split; auto. clear A B. unfold calc_data_size. rewrite (clean_state c Cl).
  cbn [s_elements_data_size st_empty truthy_Z s_number_of_elements].
  destruct (has_data_size e); [exact SV|].
  destruct (has_number e); [|exact SV]. destruct (get_byte_size ed); [|exact SV].
  unfold eval_number. destruct (truthy_Z (e_number e)); [exact SV|]. destruct (truthy_str _); [|exact SV].
  destruct c; cbn [snd]; [|exact SV]. cbn. eapply same_values_trans; [apply same_values_ns|exact SV].
Qed.

Lemma fold_values orc e ed v c fvals : extensional orc -> clean c -> same_values (ctx_values c) fvals ->
  let r := fold_stream orc e ed v c in
  fst r = fst (fold_stream orc e ed v (Some (ctx_new fvals))) /\ clean (snd r) /\
  same_values (ctx_values (snd r)) fvals.
Proof.
  intros X Cl SV. cbn zeta. destruct (calc_values orc e ed c fvals X Cl SV) as (A & B & C). cbn zeta in *.
  unfold fold_stream. destruct (calc_data_size orc e ed c) as [r c1], (calc_data_size orc e ed (Some (ctx_new fvals))) as [r' c2].
  cbn [fst snd] in *. subst r'. destruct r as [[n|]|x|]; cbn [fst snd]; auto.
Qed.

Lemma stream_folds_to orc e ed em fvals v b : extensional orc ->
  fst (fold_stream orc e ed v (Some (ctx_new fvals))) = Ok (VBytes b) ->
  folds_to orc (MStream e ed em) fvals v b.
Proof.
  intros X F c Cl SV. cbn [foldbs]. destruct (fold_values orc e ed v c fvals X Cl SV) as (A & B & C). cbn zeta in *.
  destruct (fold_stream orc e ed v c) as [r c']. cbn [fst snd] in *. exists c'. split; auto. congruence.
Qed.

Lemma stream_cases orc fuel e ed em bs off vals depth v n : 0 <= off ->
  steady (MStream e ed em) -> maps orc fuel (MStream e ed em) bs off vals depth v n ->
  v = VBytes (window bs off n) /\ 0 <= n /\ off + n <= len bs /\
  ((~ unsized_stream e ed /\ stream_size orc e ed vals n) \/
   (unsized_stream e ed /\ exists t k, e_terminator e = Some (VBytes t) /\ 0 < len t /\
      first_at t bs off k /\ n = (k + 1) * len t)).
Proof.
  intros Ho [Hb HT] M. destruct (sized_or_not e ed) as [U|U].
  - destruct (e_terminator e) as [t0|] eqn:T.
    + destruct (HT _ eq_refl) as (t & -> & G & P).
      apply (stream_terminated orc fuel e ed em t) in M; auto. destruct M as (k & K & -> & ->).
      pose proof (first_at_inside _ _ _ _ Ho P K) as I. pose proof K as (K0 & _).
      split; auto. split; [nia|]. split; [lia|]. right. split; auto. exists t, k. auto.
    + exfalso. apply maps_fst in M. cbn [mapbs] in M. unfold map_stream in M.
      destruct (calc_spec orc e ed vals) as (_ & B & _ & _). apply B in U.
      destruct (calc_data_size orc e ed (Some (ctx_new vals))) as [r c1]. cbn [fst] in U. subst r.
      rewrite T in M. discriminate.
  - apply stream_sized in M; auto. destruct M as (S & L & ->).
    assert (0 <= n).
    { destruct S as [[_ S]|(_ & k & c & G & S & ->)]; apply measure_nonneg in S; auto. apply Hb in G. nia. }
    split; auto.
Qed.

Lemma window_plus {A} (l : list A) off a b : 0 <= off -> 0 <= a -> 0 <= b ->
  window l off (a + b) = window l off a ++ window l (off + a) b.
Proof.
  intros Ho Ha Hb. unfold window. rewrite !Z2Nat.inj_add by lia.
  generalize (Z.to_nat a) (Z.to_nat b) (Z.to_nat off). clear. intros a b o.
  rewrite skipn_plus. generalize (skipn o l). clear. intros l. revert l.
  induction a as [|a IH]; intros l; [reflexivity|]. destruct l; cbn; [now rewrite firstn_nil|]. f_equal. apply IH.
Qed.

Lemma first_at_split t bs off k : 0 <= off -> 0 < len t -> first_at t bs off k ->
  window bs off ((k + 1) * len t) = window bs off (k * len t) ++ t.
Proof.
  intros Ho P (K1 & K2 & K3). rewrite <- K2 at 3.
  replace ((k + 1) * len t) with (k * len t + len t) by lia. apply window_plus; nia.
Qed.

Definition sized_alike (orc : oracle) (e : elems) (ed : dtype) (vals fvals : env) (v : pyval) : Prop :=
  forall n, stream_size orc e ed vals n -> stream_size orc e ed fvals n.

Lemma stream_refolds orc K e ed em : extensional orc -> steady (MStream e ed em) ->
  refolds orc (sized_alike orc e ed) K (MStream e ed em).
Proof.
  intros XT S fuel bs off vals depth v n Ho M _. apply stream_cases in M; auto. destruct M as (-> & N & I & X).
  split; [discriminate|]. split; auto. intros fvals AG. apply stream_folds_to; auto.
  assert (LW : len (window bs off n) = n) by (rewrite window_len; lia).
  destruct X as [(U & X)|(U & t & k & T & P & F & E)].
  - apply (stream_fold_sized orc e ed em fvals); auto. rewrite LW. auto.
  - apply (stream_fold_terminated orc e ed em t fvals); auto. left. split; auto.
    exists (window bs off (k * len t)). subst n. now apply first_at_split.
Qed.

(** The text of a terminated string. *)
Lemma first_at_in t bs off k : 0 <= off -> 0 < len t -> first_at t bs off k ->
  first_at t (window bs off ((k + 1) * len t)) 0 k.
Proof.
  intros Ho P F. pose proof (first_at_inside _ _ _ _ Ho P F) as I. destruct F as (K1 & K2 & K3).
  assert (W : forall j, 0 <= j <= k ->
    window (window bs off ((k + 1) * len t)) (0 + j * len t) (len t) = window bs (off + j * len t) (len t)).
  { intros j J. rewrite (window_in bs off ((k + 1) * len t) (off + j * len t)) by nia.
    set (x := window bs off _). unfold window. do 2 f_equal. lia. }
  split; auto. split; [rewrite W by lia; auto|]. intros j J. rewrite W by lia. auto.
Qed.

Lemma string_refolds orc K e ed em : extensional orc -> steady (MString e ed em) -> faithful orc (e_encoding e) ->
  (e_terminator e = None \/ unsized_stream e ed) -> refolds orc (sized_alike orc e ed) K (MString e ed em).
Proof.
  intros XT S F X fuel bs off vals depth v n Ho M _.
  assert (BT : byte_terminator (e_terminator e)).
  { unfold byte_terminator. destruct (e_terminator e) as [t|] eqn:T; auto. destruct S as [_ S].
    destruct (S _ T) as (b & -> & _ & P). exists b. auto. }
  apply string_layout in M; auto. destruct M as (l & r & s & M & TP & D & ->).
  pose proof (stream_refolds orc (fun _ => True) e ed em XT S fuel bs off vals depth _ _ Ho M I) as (_ & N & R).
  apply stream_cases in M; auto. destruct M as (E & _ & IN & Y). inversion E; subst l. clear E.
  split; [discriminate|]. split; auto. intros fvals AG. specialize (F _ _ D).
  enough (G : folds_to orc (MStream e ed em) fvals (VBytes r) (window bs off n)).
  { intros c Cl SV. destruct (G c Cl SV) as (c' & Q & R'). exists c'. split; auto.
    cbn [foldbs] in *. unfold fold_string. now rewrite F. }
  destruct (e_terminator e) as [t0|] eqn:T.
  - destruct X as [X|X]; [discriminate|].
    destruct Y as [(U & _)|(U & t & k & Q & P & FA & ->)]; [contradiction|].
    inversion Q; subst t0. clear Q. cbn [text_part] in TP.
    pose proof (first_at_in _ _ _ _ Ho P FA) as FI. pose proof FA as (K0 & _ & K3).
    destruct TP as [(j & J & ->)|(J & _)]; [|exfalso; eapply J; eauto].
    rewrite (first_at_unique _ _ _ _ _ J FI) in *. clear J j.
    assert (RW : firstn (Z.to_nat (k * len t)) (window bs off ((k + 1) * len t)) = window bs off (k * len t)).
    { unfold window. rewrite firstn_firstn, Nat.min_l by nia. reflexivity. }
    rewrite RW in *. clear RW. pose proof (first_at_inside _ _ _ _ Ho P FA) as IB.
    apply stream_folds_to; auto.
    apply (stream_fold_terminated orc e ed em t fvals); auto. right. split; [|now apply first_at_split].
    apply (no_end _ _ k); auto; [rewrite window_len; nia|].
    intros j J. assert (LW : len (window bs off (k * len t)) = k * len t) by (rewrite window_len; nia).
    pose proof (first_at_inside _ _ _ _ (Z.le_refl 0) P J) as IJ. rewrite LW in IJ. destruct J as (J0 & J1 & _).
    assert (JK : j < k) by nia.
    destruct FI as (_ & _ & FI). apply (FI j); [lia|].
    assert (J2 : 0 <= j * len t) by nia. assert (J3 : j * len t + len t <= k * len t) by nia.
    rewrite first_at_split by auto. rewrite WindowProofs.window_app by lia. exact J1.
  - cbn [text_part] in TP. subst r. apply R, AG.
Qed.

(** *** The fast paths *)

Lemma map_values_number d : number_type d -> forall t vs, map_values d t = Ok vs -> vs = t.
Proof.
  intros NT. induction t as [|v t IH]; intros vs H; cbn in H; [congruence|].
  assert (MV : map_value d v = Ok v) by (destruct d; try contradiction; reflexivity).
  rewrite MV in H. cbn [bind] in H. apply bind_ok in H. destruct H as (x & X & H). apply IH in X. congruence.
Qed.

Lemma read_ok o bs off n t : 0 <= off -> op_size o = csizes (op_codes o) -> op_size o = n -> n <= len bs - off ->
  read_from o (slice_from bs off) = Ok t -> t = unpack_codes (op_endian o) (op_codes o) (skipn (Z.to_nat off) bs).
Proof.
  intros Ho S1 S2 L R. unfold read_from in R. rewrite slice_from_nonneg in R by auto.
  destruct (_ <? _); congruence.
Qed.

Lemma write_back o bs off n : 0 <= off -> op_size o = csizes (op_codes o) -> op_size o = n -> n <= len bs - off ->
  (In Cf (op_codes o) -> Forall no_nan (unpack_codes (op_endian o) (op_codes o) (skipn (Z.to_nat off) bs))) ->
  write_to o (unpack_codes (op_endian o) (op_codes o) (skipn (Z.to_nat off) bs)) = Ok (window bs off n).
Proof.
  intros Ho S1 S2 L Q. unfold write_to. rewrite pack_unpack.
  - unfold window. congruence.
  - rewrite len_skipn. lia.
  - clear -Q. revert Q. generalize (skipn (Z.to_nat off) bs) (op_codes o). intros l cs. revert l.
    induction cs as [|c cs IH]; intros l Q; cbn [unpack_codes] in *; constructor.
    + destruct c; try (left; discriminate). right. specialize (Q (or_introl eq_refl)). now inversion Q.
    + apply IH. intros I. specialize (Q (or_intror I)). now inversion Q.
Qed.

Lemma linear_seq_refolds orc A (K : pyval -> Prop) e ed em op :
  (forall p q, em = Some (MPrim p q) -> number_type p) ->
  (forall o n, op = Some o -> elems_byte_size e (get_byte_size ed) = Some n ->
     0 <= n /\ op_size o = csizes (op_codes o) /\ op_size o = n) ->
  (forall o, op = Some o -> In Cf (op_codes o) -> forall v, K v -> no_nan v) ->
  refolds orc A K (MSequence true e ed em op).
Proof.
  intros NT S Q fuel bs off vals depth v n Ho (c0 & M & B) HK. cbn [mapbs] in M. unfold map_seq_linear in M.
  destruct (elems_byte_size e (get_byte_size ed)) as [k|]; [|discriminate].
  destruct (Z.ltb_spec (len bs - off) k); [discriminate|].
  destruct op as [o|]; [|discriminate]. destruct em as [[]|]; try discriminate.
  specialize (NT _ _ eq_refl). destruct (S _ _ eq_refl eq_refl) as (N & S1 & S2). specialize (Q _ eq_refl).
  destruct (read_from o (slice_from bs off)) as [t| |] eqn:R; try discriminate.
  apply (read_ok o bs off k) in R; [|auto..].
  destruct (map_values d t) as [vs| |] eqn:MV; try discriminate. apply map_values_number in MV; auto. subst vs.
  cbn [bind] in M. inversion M; subst v c0. cbn in B. inversion B; subst n.
  split; [discriminate|]. split; auto. intros fvals _ c Cl SV. exists c. split; auto.
  cbn [foldbs]. unfold fold_seq_linear. cbn [py_iter bind]. subst t. rewrite (write_back o bs off k); auto.
  intros I. apply no_nan_tuple. auto.
Qed.

Lemma getattr_names cls names : NoDup names -> forall ws, List.length ws = List.length names ->
  map (py_getattr (new_struct cls names ws)) names = ws.
Proof.
  intros ND. unfold new_struct, py_getattr. induction ND as [|n names NI ND IH]; intros ws L.
  - destruct ws; [reflexivity|discriminate].
  - destruct ws as [|w ws]; [discriminate|]. cbn [make_attrs map dict_get]. rewrite String.eqb_refl. f_equal.
    etransitivity; [|apply (IH ws); cbn in L; lia]. apply map_ext_in. intros a Ha.
    destruct (String.eqb_spec a n); [subst; contradiction|reflexivity].
Qed.

Lemma linear_values_number ms : forall maps t vs,
  Forall (fun x => forall p q, x = Some (MPrim p q) -> number_type p) maps ->
  linear_values ms maps t = Ok vs -> vs = t.
Proof.
  induction ms as [|m ms IH]; intros maps t vs F H; destruct t as [|v t]; cbn in H; try congruence.
  destruct maps as [|[x|] maps]; try discriminate; destruct x; try discriminate. inversion F; subst.
  assert (MV : map_value d v = Ok v) by (specialize (H2 _ _ eq_refl); destruct d; try contradiction; reflexivity).
  rewrite MV in H. cbn [bind] in H. destruct (unsupported _ _); [discriminate|].
  apply bind_ok in H. destruct H as (x & X & H). apply IH in X; auto. congruence.
Qed.

Lemma linear_struct_refolds orc A (K : pyval -> Prop) d cls ms attrs op :
  NoDup (map fst attrs) ->
  (forall name p q, In (name, Some (MPrim p q)) attrs -> number_type p) ->
  (forall o n, op = Some o -> get_byte_size d = Some n ->
     0 <= n /\ op_size o = csizes (op_codes o) /\ op_size o = n /\ List.length (op_codes o) = List.length attrs) ->
  (forall o, op = Some o -> In Cf (op_codes o) -> forall v, K v -> no_nan v) ->
  refolds orc A K (MStructure true d cls ms attrs op).
Proof.
  intros ND NT S Q fuel bs off vals depth v n Ho (c0 & M & B) HK. cbn [mapbs] in M. unfold map_struct_linear in M.
  destruct (get_byte_size d) as [k|]; [|discriminate].
  destruct (Z.ltb_spec (len bs - off) k); [discriminate|].
  destruct op as [o|]; [|discriminate]. destruct (S _ _ eq_refl eq_refl) as (N & S1 & S2 & S3). specialize (Q _ eq_refl).
  destruct (read_from o (slice_from bs off)) as [t| |] eqn:R; try discriminate. cbn [bind] in M.
  apply (read_ok o bs off k) in R; [|auto..].
  destruct (linear_values ms (map snd attrs) t) as [vs| |] eqn:LV; try discriminate. cbn [bind] in M.
  apply linear_values_number in LV.
  2:{ clear -NT. induction attrs as [|[a x] attrs IH]; constructor.
      - intros p q E. cbn in E. subst x. eapply (NT a). left. reflexivity.
      - apply IH. intros name p q I. eapply NT. right. exact I. }
  destruct (instance_cases cls (map fst attrs) vs) as [IE|IE]; rewrite IE in M; [|discriminate].
  subst vs. inversion M; subst v c0. cbn in B. inversion B; subst n.
  assert (LT : List.length t = List.length (map fst attrs)) by (subst t; rewrite unpack_length, map_length; auto).
  split; [discriminate|]. split; auto. intros fvals _ c Cl SV. exists c. split; auto.
  pose proof (getattr_names cls (map fst attrs) ND t LT) as G.
  cbn [foldbs]. unfold fold_struct_linear. rewrite G.
  assert (FT : filter (fun x => negb (is_VNone x)) t = t).
  { subst t. generalize (unpack_not_none (op_endian o) (op_codes o) (skipn (Z.to_nat off) bs)).
    generalize (unpack_codes (op_endian o) (op_codes o) (skipn (Z.to_nat off) bs)). clear. intros l F.
    induction F as [|x l X F IH]; [reflexivity|]. cbn. destruct x; cbn; try congruence. }
  rewrite FT. assert (NN : In Cf (op_codes o) -> Forall no_nan t).
  { intros I. specialize (Q I _ HK). rewrite <- G. apply Forall_forall. intros x Hx.
    apply in_map_iff in Hx. destruct Hx as (a & <- & _). now apply no_nan_getattr. }
  subst t. rewrite (write_back o bs off k); auto.
Qed.

(** *** Structures *)

Lemma join_bytes l : py_join (map VBytes l) = Ok (concat l).
Proof. induction l as [|b l IH]; [reflexivity|]. cbn [map py_join concat]. now rewrite IH. Qed.

Definition folders (orc : oracle) (attrs : list (string * option dmap)) : list (string * option folder) :=
  map (fun x => (fst x, match snd x with Some y => Some (foldbs orc y) | None => None end)) attrs.

Lemma fold_members orc bs v fvals attrs : forall rs o acc sub, 0 <= o -> c_state sub = st_empty ->
  same_values (c_values sub) fvals ->
  List.length rs = List.length attrs ->
  (forall i a r, nth_error attrs i = Some a -> nth_error rs i = Some r ->
     py_getattr v (fst a) = value_of r /\
     (0 <= o + total (firstn i rs) ->
      match r with
      | None => True
      | Some (w, n) => w <> VNone /\ 0 <= n /\ exists y, snd a = Some y /\
          folds_to orc y fvals w (window bs (o + total (firstn i rs)) n)
      end)) ->
  exists l sub', c_state sub' = st_empty /\
    (forall rest, fold_loop (folders orc attrs ++ rest) v (map VBytes acc) sub = fold_loop rest v (map VBytes (acc ++ l)) sub') /\
    0 <= total rs /\ concat l = window bs o (total rs).
Proof.
  induction attrs as [|[name x] attrs IH]; intros rs o acc sub Ho Cl SV L H.
  - destruct rs; [|discriminate]. exists [], sub. cbn. rewrite app_nil_r. split; auto. split; auto. split; [lia|]. reflexivity.
  - destruct rs as [|r rs]; [discriminate|].
    destruct (H 0%nat (name, x) r eq_refl eq_refl) as (G & R). cbn [fst snd firstn total fold_right] in G, R.
    rewrite Z.add_0_r in R. specialize (R Ho).
    assert (NX : forall o', o' = o + size_of r -> forall i a r', nth_error attrs i = Some a -> nth_error rs i = Some r' ->
       py_getattr v (fst a) = value_of r' /\
       (0 <= o' + total (firstn i rs) ->
        match r' with
        | None => True
        | Some (w, n) => w <> VNone /\ 0 <= n /\ exists y, snd a = Some y /\
            folds_to orc y fvals w (window bs (o' + total (firstn i rs)) n)
        end)).
    { intros o' -> i a r' H1 H2. destruct (H (Datatypes.S i) a r' H1 H2) as (A & C). split; auto.
      assert (T : total (firstn (Datatypes.S i) (r :: rs)) = size_of r + total (firstn i rs)) by reflexivity.
      rewrite T, Z.add_assoc in C. exact C. }
    cbn [folders map fst snd app]. fold (folders orc attrs). cbn [fold_loop]. rewrite G.
    assert (T : total (r :: rs) = size_of r + total rs) by reflexivity. rewrite T.
    destruct r as [[w n]|]; cbn [value_of size_of] in *.
    + destruct R as (W & N & y & -> & F). destruct (F (Some sub) Cl SV) as (c' & FY & Cl' & SV').
      destruct (IH rs (o + n) (acc ++ [window bs o n]) (opt_default sub c')) as (l & sub' & Cs & E & P & C); auto.
      * lia.
      * destruct c'; cbn; auto.
      * destruct c'; cbn; auto.
      * exists (window bs o n :: l), sub'. rewrite map_app in E. cbn [map] in E. rewrite <- app_assoc in E. cbn [app] in E.
        split; auto. split; [|split; [lia|]].
        -- destruct w; try congruence; rewrite FY; exact E.
        -- cbn [concat]. rewrite C. rewrite window_plus by lia. reflexivity.
    + destruct (IH rs o acc sub) as (l & sub' & Cs & E & P & C); auto; [apply NX; lia|].
      exists l, sub'. split; auto. split; [|auto]. destruct x; exact E.
Qed.

Lemma before_partly cls names rs i : (i <= List.length rs)%nat -> List.length rs = List.length names ->
  before i (partly cls names rs) = partly cls names (firstn i rs).
Proof.
  intros Hi L. unfold before, partly. f_equal. rewrite firstn_length_le, L, Nat.sub_diag, app_nil_r by lia.
  revert names i L Hi. induction rs as [|r rs IH]; intros [|x names] i L Hi; try discriminate; cbn [List.length] in *.
  - destruct i; reflexivity.
  - destruct i as [|i].
    + cbn. f_equal. clear -L. revert names L. induction rs as [|r rs IH]; intros [|x names] L; try discriminate; cbn in *; auto.
      f_equal. apply IH. congruence.
    + cbn. f_equal. apply IH; lia.
Qed.

Lemma firstn_snoc {A} (l : list A) : forall j r, nth_error l j = Some r -> firstn (S j) l = firstn j l ++ [r].
Proof. induction l as [|x l IH]; intros [|j] r H; cbn in *; try discriminate; [congruence|]. f_equal. now apply IH. Qed.

(** The members agree when the structure does. *)
Definition members_agree (orc : oracle) (ms : list dtype) (vals : env) (v : pyval) : Prop :=
  forall i m, nth_error ms i = Some m -> py_getattr v (dt_name m) <> VNone ->
    sizes_agree orc m (scope (type_name v) (before i v) vals) [(type_name v, v)] (py_getattr v (dt_name m)).

Lemma agrees_members orc mt bo ms vals fvals v :
  sizes_agree orc (DStructure mt bo ms) vals fvals v <-> members_agree orc ms vals v.
Proof.
  cbn [sizes_agree]. unfold members_agree.
  assert (G : forall j,
    (fix go (i : nat) (l : list dtype) : Prop :=
       match l with
       | [] => True
       | m :: r =>
           (py_getattr v (dt_name m) <> VNone ->
            sizes_agree orc m (scope (type_name v) (before i v) vals) [(type_name v, v)] (py_getattr v (dt_name m))) /\
           go (S i) r
       end) j ms <->
    forall i m, nth_error ms i = Some m -> py_getattr v (dt_name m) <> VNone ->
      sizes_agree orc m (scope (type_name v) (before (j + i) v) vals) [(type_name v, v)] (py_getattr v (dt_name m))).
  { induction ms as [|m0 ms IH]; intros j.
    - split; auto. intros _ [|i] m H; discriminate.
    - rewrite IH. split.
      + intros (H1 & H2) [|i] m H; cbn in H.
        * inversion H; subst. now rewrite Nat.add_0_r.
        * rewrite Nat.add_succ_r. now apply (H2 i).
      + intros H. split.
        * specialize (H 0%nat m0 eq_refl). now rewrite Nat.add_0_r in H.
        * intros i m Hi. specialize (H (S i) m Hi). now rewrite Nat.add_succ_r in H. }
  apply (G 0%nat).
Qed.

Lemma composite_refolds orc (K K' : pyval -> Prop) d cls ms attrs op : extensional orc ->
  ms <> [] -> NoDup (map dt_name ms) -> map fst attrs = map dt_name ms ->
  (forall i m a x, nth_error ms i = Some m -> nth_error attrs i = Some a -> snd a = Some x ->
     refolds orc (sizes_agree orc m) K' x) ->
  (forall v n, K v -> K' (py_getattr v n)) ->
  refolds orc (fun vals _ v => members_agree orc ms vals v) K (MStructure false d cls ms attrs op).
Proof.
  intros X NE ND A R KK fuel bs off vals depth v n Ho M HK.
  assert (L : List.length ms = List.length attrs).
  { apply (f_equal (@List.length string)) in A. rewrite !map_length in A. auto. }
  destruct (Z.lt_ge_cases 10 depth) as [D|D].
  { exfalso. apply maps_fst in M.
    pose proof (too_deep orc fuel (MStructure false d cls ms attrs op) bs off vals depth D I) as F.
    rewrite F in M. discriminate. }
  pose proof (maps_clear _ _ _ _ _ _ _ _ _ _ _ _ _ _ M) as CN.
  destruct (structure_layout orc fuel d cls ms attrs op bs off vals depth X L NE CN D) as [H _].
  apply H in M. clear H. rewrite blank_partly, A in M.
  apply (fields_right orc fuel cls vals bs depth (map dt_name ms) ND ms [] [] attrs) in M; auto.
  destruct M as (rs & (RL & RR) & -> & E). cbn [app] in *. assert (n = total rs) by lia. subst n. clear E.
  set (v := partly cls (map dt_name ms) rs) in *.
  assert (Y : forall i a r, nth_error attrs i = Some a -> nth_error rs i = Some r ->
     py_getattr v (fst a) = value_of r /\
     (0 <= off + total (firstn i rs) ->
      match r with
      | None => True
      | Some (w, n) => w <> VNone /\ 0 <= n /\ exists y, snd a = Some y /\
          forall m, nth_error ms i = Some m -> forall fvals,
          sizes_agree orc m (scope cls (before i v) vals) fvals w ->
          folds_to orc y fvals w (window bs (off + total (firstn i rs)) n)
      end)).
  { intros i a r Ha Hr.
    assert (exists m, nth_error ms i = Some m) as (m & Hm).
    { destruct (nth_error ms i) eqn:Q; eauto. apply nth_error_None in Q.
      assert (nth_error attrs i <> None) by congruence. apply nth_error_Some in H. lia. }
    assert (G : py_getattr v (fst a) = value_of r).
    { apply (getattr_partly cls (map dt_name ms) rs i); auto. rewrite <- A. now apply map_nth_error. }
    split; auto. intros Po. specialize (RR i m (snd a) r Hm (map_nth_error snd _ _ Ha) Hr). cbn zeta in RR.
    destruct r as [[w n]|]; auto. destruct RR as (_ & _ & y & Ey & MY).
    destruct (R _ _ _ _ Hm Ha Ey _ _ _ _ _ _ _ Po MY) as (W & N & FY).
    { cbn [value_of] in G. rewrite <- G. auto. }
    split; auto. split; auto. exists y. split; auto. intros m' Hm' fvals AG. apply FY.
    assert (m' = m) by congruence. subst m'. revert AG. unfold v. rewrite before_partly; auto.
    - assert (i < List.length rs)%nat by (apply nth_error_Some; congruence). lia.
    - now rewrite map_length. }
  split; [discriminate|].
  assert (P : 0 <= total rs).
  { assert (GP : forall j, (j <= List.length rs)%nat -> 0 <= total (firstn j rs)).
    { induction j as [|j IH]; intros Hj; [cbn; lia|].
      destruct (nth_error rs j) as [r|] eqn:Hr; [|apply nth_error_None in Hr; lia].
      destruct (nth_error attrs j) as [a|] eqn:Ha; [|apply nth_error_None in Ha; lia].
      rewrite (firstn_snoc rs j r Hr), total_app. cbn [total fold_right] in *.
      specialize (IH ltac:(lia)). destruct (Y _ _ _ Ha Hr) as (_ & Q). specialize (Q ltac:(lia)).
      destruct r as [[w n]|]; cbn [size_of]; [destruct Q as (_ & Q & _)|]; lia. }
    specialize (GP (List.length rs) (le_n _)). now rewrite firstn_all in GP. }
  split; auto.
  intros fvals AG c Cl SV. cbn [foldbs]. unfold fold_struct. rewrite (clean_state c Cl). cbn [s_attribute_index st_empty opt_default s_context].
  change (Z.to_nat 0) with 0%nat. cbn [skipn]. fold (folders orc attrs).
  destruct (fold_members orc bs v [(type_name v, v)] attrs rs off [] (ctx_new [(type_name v, v)])) as (l & sub' & _ & FL & _ & C); auto.
  { apply same_values_refl. }
  { congruence. }
  { intros i a r Ha Hr. destruct (Y i a r Ha Hr) as (G & Q). split; auto. intros Po. specialize (Q Po).
    destruct r as [[w n]|]; auto. destruct Q as (W & N & y & Ey & Q). split; auto. split; auto. exists y. split; auto.
    assert (exists m, nth_error ms i = Some m) as (m & Hm).
    { destruct (nth_error ms i) eqn:Q'; eauto. apply nth_error_None in Q'.
      assert (nth_error attrs i <> None) by congruence. apply nth_error_Some in H. lia. }
    apply (Q m Hm). cbn [value_of] in G.
    assert (NM : fst a = dt_name m).
    { assert (Q1 := map_nth_error fst _ _ Ha). assert (Q2 := map_nth_error dt_name _ _ Hm). rewrite A in Q1. congruence. }
    rewrite NM in G. specialize (AG i m Hm). rewrite G in AG. apply AG. auto. }
  specialize (FL []).
  rewrite app_nil_r in FL. cbn [map app fold_loop] in FL. rewrite FL.
  rewrite join_bytes. cbn [bind]. rewrite C. eexists. split; [reflexivity|].
  destruct c; cbn in *; auto.
Qed.

(** *** Creation *)

Lemma folds_back_list orc ms :
  (fix go (l : list dtype) : Prop :=
     match l with [] => True | m :: r => folds_back orc m /\ go r end) ms <-> Forall (folds_back orc) ms.
Proof.
  induction ms as [|m ms IH]; split; intros H; auto.
  - constructor; [tauto|]. apply IH. tauto.
  - inversion H; subst. split; auto. now apply IH.
Qed.

Definition explicit_ov (ov : override) : Prop := match ov with Some (_, BONative) => False | _ => True end.

Lemma used_as_explicit sname sbo m : exists ov, explicit_ov ov /\ forall orc,
  create orc (used_type sname sbo m) None = create orc (type_of m) ov /\
  used_type sname sbo m = apply_ov ov (type_of m).
Proof.
  unfold used_type. destruct sbo.
  - exists None. split; [exact I|]. auto.
  - destruct (dt_byte_order (type_of m)) as [[]|]; try (exists None; split; [exact I|]; now auto).
    eexists (Some (_, _)). split; [|intros orc; split; [symmetry; apply create_copy|reflexivity]]. exact I.
  - destruct (dt_byte_order (type_of m)) as [[]|]; try (exists None; split; [exact I|]; now auto).
    eexists (Some (_, _)). split; [|intros orc; split; [symmetry; apply create_copy|reflexivity]]. exact I.
Qed.

Lemma number_apply ov d : number_type (apply_ov ov d) <-> number_type d.
Proof. destruct ov as [[n b]|]; [|tauto]. destruct d; cbn; tauto. Qed.

Lemma code_apply ov d : prim_code (apply_ov ov d) = prim_code d.
Proof. destruct ov as [[n b]|]; [|reflexivity]. apply prim_code_ov. Qed.

Lemma single_code d : prim_code d = Some Cf -> exists f, d = DFloat f /\ f_size f = Some 4.
Proof.
  destruct d; cbn; try discriminate; intros H; [| |eexists; split; [reflexivity|]|];
    repeat match type of H with context [match ?x with _ => _ end] => destruct x end; try discriminate; reflexivity.
Qed.

(** The operation of a linear sequence of a fixed size reads all of it. *)
Lemma seq_op_exact orc e d ed em op eov n o :
  (has_data_size e = false \/ has_number e = false) ->
  create orc d eov = Ok em -> ed = apply_ov eov d -> number_type d ->
  (forall s, e_data_size e = Some s -> exists b, get_byte_size d = Some b /\ s mod b = 0) ->
  sequence_op orc e ed em = Ok op -> op = Some o -> elems_byte_size e (get_byte_size ed) = Some n ->
  op_size o = csizes (op_codes o) /\ op_size o = n /\ forall c, In c (op_codes o) -> prim_code d = Some c.
Proof.
  intros X Ce -> NT MU Op -> N. rewrite apply_ov_size in N.
  unfold sequence_op in Op. destruct em as [em|]; [|discriminate].
  apply bind_ok in Op. destruct Op as (en & _ & Op). apply bind_ok in Op. destruct Op as (t & Tk & Op).
  destruct t as [t|]; [|discriminate]. apply bind_ok in Op. destruct Op as (o' & M & Op). inversion Op; subst o'.
  unfold sequence_tokens in Tk. rewrite apply_ov_size in Tk. unfold elems_byte_size in N.
  assert (PC : forall x, map_tokens em = Ok (Some [x]) -> exists c, x = (1, c) /\ prim_code d = Some c /\
            forall b, get_byte_size d = Some b -> b = csize c).
  { intros x MT. destruct em; cbn in MT; try discriminate.
    destruct (prim_code d0) as [c|] eqn:PC; [|discriminate]. inversion MT; subst. exists c.
    rewrite create_apply in Ce. apply created_prim in Ce. destruct Ce as [-> _]. rewrite code_apply in PC.
    repeat split; auto.
    intros b B. now apply (prim_size d c). }
  assert (G : forall k c, make_op en [(k, c)] = Ok o ->
     op_size o = csizes (op_codes o) /\ op_size o = k * csize c /\ forall c', In c' (op_codes o) -> c' = c).
  { intros k c. unfold make_op. cbn [forallb]. destruct (Z.leb_spec 0 k); cbn [andb]; [|discriminate].
    destruct (_ <=? _); [|discriminate]. intros Q. inversion Q; subst. unfold op_size, op_codes. cbn [op_tokens fold_right flat_map].
    rewrite app_nil_r, csizes_repeat, Z2Nat.id by lia. fold (csize c). split; [lia|]. split; [lia|].
    intros c' I. now apply repeat_spec in I. }
  destruct (truthy_Z (e_data_size e)) as [s|] eqn:DS.
  { destruct (get_byte_size d) as [b|] eqn:B; [|discriminate]. destruct (Z.eqb_spec b 0); [discriminate|].
    apply bind_ok in Tk. destruct Tk as (f & MT & Tk).
    destruct (truthy_Z (Some (s / b))) as [q|] eqn:Q; [|discriminate]. apply truthy_Z_some in Q. destruct Q as [Q _]. inversion Q; subst q.
    destruct f as [[|[j c] [|]]|]; try discriminate. inversion Tk; subst t.
    destruct (PC _ MT) as (c' & E & P & Y). inversion E; subst c' j. specialize (Y _ eq_refl). subst b.
    apply truthy_Z_some in DS. destruct DS as [DS _]. destruct (MU _ DS) as (b & Eb & D). inversion Eb; subst b.
    inversion N; subst s. destruct (G _ _ M) as (G1 & G2 & G3). split; auto. split.
    - rewrite G2. pose proof (Z.div_mod n (csize c) ltac:(auto)). lia.
    - intros c1 I. apply G3 in I. now subst. }
  { apply bind_ok in Tk. destruct Tk as (f & MT & Tk).
    destruct (truthy_Z (e_number e)) as [q|] eqn:Q; [|discriminate].
    destruct f as [[|[j c] [|]]|]; try discriminate. inversion Tk; subst t.
    destruct (PC _ MT) as (c' & E & P & Y). inversion E; subst c' j.
    destruct (truthy_Z (get_byte_size d)) as [b|] eqn:B; [|discriminate]. apply truthy_Z_some in B. destruct B as [B _].
    specialize (Y _ B). subst b. destruct (G _ _ M) as (G1 & G2 & G3). split; auto. split.
    - rewrite G2. inversion N; lia.
    - intros c1 I. apply G3 in I. now subst. }
Qed.

(** So does that of a linear structure. *)
Lemma struct_op_exact orc mt bo ms d cls ms' attrs op o n :
  everywhere sound (DStructure mt bo ms) ->
  create orc (DStructure mt bo ms) None = Ok (Some (MStructure true d cls ms' attrs op)) ->
  op = Some o -> get_byte_size d = Some n ->
  op_size o = csizes (op_codes o) /\ op_size o = n /\ List.length (op_codes o) = List.length attrs /\
  forall c, In c (op_codes o) -> exists m, In m ms /\ prim_code (type_of m) = Some c.
Proof.
  intros E C -> N. pose proof (everywhere_here _ _ E) as [_ S].
  assert (DT : distinct_types (m_name mt) bo ms) by (eapply well_named_distinct; exact S).
  pose proof (structure_own_maps _ _ _ _ _ _ _ _ _ _ C DT) as F.
  apply created_shape in C. destruct C as (_ & -> & -> & NE & _ & _ & LN & _ & L & OP).
  cbn [apply_ov ov_bo] in *. rewrite structure_size in N. destruct ms as [|m0 ms0]; [congruence|].
  destruct (lin_cases orc (m_name mt) bo _ attrs F _ _ _ L N) as [(K & cs & T & PC & ->)|(T & _)].
  - unfold struct_op in OP. rewrite T in OP. cbn [bind] in OP.
    destruct cs as [|c0 cs0]; [discriminate|]. cbn [map] in OP.
    change ((1, c0) :: map (fun c => (1, c)) cs0) with (map (fun c => (1, c)) (c0 :: cs0)) in OP.
    unfold make_op in OP. destruct (_ && _); [|discriminate]. cbn [bind] in OP.
    destruct (op_ones (resolve orc bo) (c0 :: cs0)) as [OS OC].
    set (oo := mkOp (resolve orc bo) (map (fun c => (1, c)) (c0 :: cs0))) in *.
    assert (Eo : o = oo) by congruence. rewrite Eo, OS, OC. split; auto. split; [lia|].
    split; [apply Forall2_len in PC; congruence|].
    clear -PC. induction PC as [|m1 c1 l1 l2 H1 PC IH]; intros z I; [destruct I|]. destruct I as [<-|I].
    + eexists. split; [left; reflexivity|]. auto.
    + destruct (IH z I) as (m & Im & Q). exists m. split; auto. now right.
  - unfold struct_op in OP. rewrite T in OP. discriminate.
Qed.

Lemma folds_back_type orc m : folds_back orc m -> folds_back orc (type_of m).
Proof. destruct m; cbn; tauto. Qed.

Lemma refolds_weaken orc (A B : env -> env -> pyval -> Prop) K m :
  (forall vals fvals v, A vals fvals v -> B vals fvals v) -> refolds orc B K m -> refolds orc A K m.
Proof.
  intros H R fuel bs off vals depth v n Ho M Kv. destruct (R _ _ _ _ _ _ _ Ho M Kv) as (P & Q & F).
  split; auto.
Qed.

Lemma agrees_type orc m vals fvals v : sizes_agree orc m vals fvals v -> sizes_agree orc (type_of m) vals fvals v.
Proof. destruct m; cbn; auto. Qed.

Lemma created_refolds orc : extensional orc -> forall d, everywhere sound d -> folds_back orc d ->
  forall (K : pyval -> Prop), (everywhere no_single d \/ forall v, K v -> no_nan v) ->
  forall ov m, explicit_ov ov -> create orc d ov = Ok (Some m) -> refolds orc (sizes_agree orc d) K m.
Proof.
  intros X d. induction d as [d IH] using dtype_ind_type. intros E FB K HK ov m EX C.
  pose proof (created_steady orc d ov m E C) as ST.
  assert (PR : forall d', number_type d' -> everywhere sound d' -> (everywhere no_single d' \/ forall v, K v -> no_nan v) ->
     forall op b, prim_op orc d' b = Ok op -> forall A, refolds orc A K (MPrim (apply_ov ov d') op)).
  { intros d' NT E' HK' op b O A. apply prim_refolds.
    - now apply number_apply.
    - intros n. rewrite apply_ov_size. intros S. pose proof (everywhere_here _ _ E') as S'.
      destruct d'; try contradiction; destruct S' as [S' _]; now apply S'.
    - intros o ->. unfold prim_op in O. destruct (prim_code d') as [c|] eqn:PC; [|discriminate].
      rewrite make_op1 in O. cbn in O. inversion O; subst. eexists. exists c. split; [reflexivity|]. now rewrite code_apply.
    - rewrite code_apply. intros PC. destruct HK' as [HK'|HK']; auto.
      apply single_code in PC. destruct PC as (f & -> & F). exfalso. pose proof (everywhere_here _ _ HK') as H. cbn in H. auto. }
  destruct d; try contradiction; try discriminate.
  - cbn [create] in C. apply bind_ok in C. destruct C as (o & O & C). inversion C; subst. eapply PR; eauto; exact I.
  - cbn [create] in C. apply bind_ok in C. destruct C as (o & O & C). inversion C; subst. eapply PR; eauto; exact I.
  - cbn [create] in C. inversion C; subst. apply uuid_refolds.
    + intros n. rewrite apply_ov_size. pose proof (everywhere_here _ _ E) as [S _]. apply S.
    + cbn in FB. destruct ov as [[nm []]|]; cbn; try congruence. destruct EX.
    + destruct ov as [[nm b]|]; cbn; discriminate.
  - cbn [create] in C. inversion C; subst. now apply padding_refolds.
  - apply create_elems in C. destruct C as (eov & em & O & Ce & _ & C).
    assert (T : e_terminator (elems_of ov e) = e_terminator e /\ e_data_size (elems_of ov e) = e_data_size e /\
                e_number (elems_of ov e) = e_number e /\ e_data_size_expr (elems_of ov e) = e_data_size_expr e /\
                e_number_expr (elems_of ov e) = e_number_expr e /\ e_encoding (elems_of ov e) = e_encoding e)
      by (destruct ov as [[nm b]|]; repeat split).
    destruct T as (T1 & T2 & T3 & T4 & T5 & T6).
    assert (SA : forall vals fvals v, (forall n, stream_size orc e d vals n -> stream_size orc e d fvals n) ->
       sized_alike orc (elems_of ov e) (apply_ov eov d) vals fvals v).
    { intros vals fvals v H n. specialize (H n). unfold stream_size, has_data_size in *.
      now rewrite T2, T3, T4, T5, apply_ov_size. }
    pose proof (everywhere_here _ _ E) as [(S1 & S2 & S3 & _) _].
    destruct k; cbn [folds_back] in FB.
    + destruct FB as (NT & (L1 & L2) & TM & MU).
      assert (LIN : sequence_is_linear (elems_of ov e) (apply_ov eov d) = true).
      { unfold sequence_is_linear. rewrite T1, T4, T5, L1, L2, TM. 
        destruct eov as [[nm b]|]; destruct d; try contradiction; reflexivity. }
      rewrite LIN in C. destruct C as (op & OP & ->).
      assert (EX' : forall o n, op = Some o -> elems_byte_size (elems_of ov e) (get_byte_size (apply_ov eov d)) = Some n ->
         op_size o = csizes (op_codes o) /\ op_size o = n /\ forall c, In c (op_codes o) -> prim_code d = Some c).
      { intros o n Eo N. apply (seq_op_exact orc (elems_of ov e) d (apply_ov eov d) em op eov); auto.
        - unfold has_data_size, has_number in *. now rewrite T2, T3, T4, T5.
        - now rewrite T2. }
      cbn [steady] in ST. destruct (elems_byte_size (elems_of ov e) (get_byte_size (apply_ov eov d))) as [k|] eqn:EB.
      2:{ intros fuel bs off vals depth v n Ho M _. exfalso. apply maps_fst in M. cbn [mapbs] in M.
          unfold map_seq_linear in M. rewrite EB in M. discriminate. }
      apply linear_seq_refolds.
      * intros p q ->. rewrite create_apply in Ce. apply created_prim in Ce. destruct Ce as [-> _]. now apply number_apply.
      * intros o n Eo N. rewrite EB in N. inversion N; subst n. destruct (EX' o k Eo eq_refl) as (A & B & _).
        split; auto. apply ST. reflexivity.
      * intros o Eo I. destruct (EX' o k Eo eq_refl) as (_ & _ & PC). destruct HK as [HK|HK]; auto.
        apply PC, single_code in I. destruct I as (f & -> & F). exfalso. cbn in HK. tauto.
    + destruct C as [_ ->]. apply (refolds_weaken orc _ _ _ _ (fun vals fvals v => SA vals fvals v)).
      apply stream_refolds; auto.
    + destruct C as [_ ->]. destruct FB as (FA & TM). apply (refolds_weaken orc _ _ _ _ (fun vals fvals v => SA vals fvals v)).
      apply string_refolds; auto; rewrite ?T6, ?T1; auto. destruct TM as [TM|TM]; auto. right. revert TM.
      unfold unsized_stream, has_data_size, has_number. now rewrite T2, T3, T4, T5, apply_ov_size.
  - rename m0 into mt, members into ms. cbn [folds_back] in FB. apply folds_back_list in FB.
    assert (E0 := E). destruct E as [_ E]. apply go_forall in E.
    rewrite create_apply in C.
    set (d := apply_ov ov (DStructure mt bo ms)) in *.
    assert (Q : exists mt' bo', d = DStructure mt' bo' ms) by (subst d; destruct ov as [[nm b]|]; cbn; eauto).
    destruct Q as (mt' & bo' & Q).
    assert (E1 : everywhere sound (DStructure mt' bo' ms)).
    { clear -E0 Q. subst d. destruct ov as [[nm b]|]; inversion Q; subst; exact E0. }
    clearbody d. subst d.
    assert (H : exists lin d cls ms' attrs op, m = MStructure lin d cls ms' attrs op).
    { assert (C' := C). apply created_structure in C'. apply create_structure_inv in C'.
      destruct C' as (attrs & _ & _ & _ & _ & [(_ & op & _ & ->)|(_ & ->)]); eauto 10. }
    destruct H as (lin & d & cls & ms' & attrs & op & ->).
    pose proof (everywhere_here _ _ E1) as [_ SN].
    assert (DT : distinct_types (m_name mt') bo' ms) by (eapply well_named_distinct; exact SN).
    pose proof (structure_own_maps _ _ _ _ _ _ _ _ _ _ C DT) as OWN. clear SN DT.
    assert (C' := C). apply created_shape in C'. destruct C' as (-> & -> & Ed & NE & ND & A & LN & F & CL & OP).
    cbn [ov_name ov_bo apply_ov] in *.
    assert (HA : forall name x, In (name, Some x) attrs -> exists m' ov', In m' ms /\ explicit_ov ov' /\
       create orc (type_of m') ov' = Ok (Some x)).
    { clear -F. intros name x I. revert F. generalize ms at 2 as l. intros l F.
      induction F as [|m0 a l attrs' (m' & I' & _ & C') F IHF]; [destruct I|].
      destruct I as [->|I]; [|auto]. cbn in C'. destruct (used_as_explicit (m_name mt') bo' m') as (ov' & EX & U).
      destruct (U orc) as [U1 _]. rewrite U1 in C'. eauto 6. }
    rewrite Forall_forall in E, FB, IH.
    assert (NS : forall m', In m' ms -> everywhere no_single (DStructure mt bo ms) -> everywhere no_single (type_of m')).
    { intros m' I' [_ N]. apply go_forall in N. rewrite Forall_forall in N. apply everywhere_type. auto. }
    destruct lin.
    + cbn [steady] in ST. destruct (get_byte_size d) as [sz|] eqn:EB.
      2:{ intros fuel bs off vals depth v n Ho M _. exfalso. apply maps_fst in M. cbn [mapbs] in M.
          unfold map_struct_linear in M. rewrite EB in M. discriminate. }
      apply linear_struct_refolds.
      * now rewrite A.
      * intros name p q I. destruct (HA _ _ I) as (m' & ov' & I' & _ & Cm).
        specialize (FB _ I'). apply folds_back_type in FB.
        rewrite create_apply in Cm. pose proof (created_prim _ _ _ Cm) as [-> O]. apply number_apply.
        destruct (type_of m'); try contradiction; try exact I0; try exact Logic.I.
        -- destruct ov' as [[]|]; discriminate.
        -- destruct ov' as [[]|]; discriminate.
        -- rewrite <- create_apply in Cm. apply create_elems in Cm. destruct Cm as (eov & em & _ & _ & _ & Cm).
           destruct k; [destruct (sequence_is_linear _ _); [destruct Cm as (? & _ & Cm)|]|destruct Cm as [_ Cm]|destruct Cm as [_ Cm]]; discriminate.
        -- rewrite <- create_apply in Cm. apply created_structure in Cm. apply create_structure_inv in Cm.
           destruct Cm as (? & _ & _ & _ & _ & [(_ & ? & _ & Cm)|(_ & Cm)]); discriminate.
        -- rewrite <- create_apply in Cm. discriminate.
      * intros o n Eo N. destruct (struct_op_exact orc mt' bo' ms d (m_name mt') ms attrs op o n) as (B1 & B2 & B3 & _); auto.
        split; auto. rewrite EB in N. now apply ST.
      * intros o Eo I. destruct HK as [HK|HK]; auto. exfalso.
        destruct (struct_op_exact orc mt' bo' ms d (m_name mt') ms attrs op o sz) as (_ & _ & _ & B4); auto.
        destruct (B4 _ I) as (m' & I' & PC). apply single_code in PC. destruct PC as (f & Ef & Sf).
        specialize (NS _ I' HK). apply everywhere_here in NS. rewrite Ef in NS. auto.
    + assert (G : forall K' : pyval -> Prop,
         (forall m', In m' ms -> everywhere no_single (type_of m') \/ forall v, K' v -> no_nan v) ->
         (forall v n, K v -> K' (py_getattr v n)) ->
         refolds orc (sizes_agree orc (DStructure mt bo ms)) K (MStructure false d (m_name mt') ms attrs op)).
      { intros K' H1 H2.
        apply (refolds_weaken orc _ (fun vals _ v => members_agree orc ms vals v)).
        { intros vals fvals v. apply agrees_members. }
        apply (composite_refolds orc K K'); auto.
        intros i m' a x Hm Ha Hx.
        apply (refolds_weaken orc _ (sizes_agree orc (type_of m')) _ _ (fun vals fvals v => agrees_type orc m' vals fvals v)).
        assert (I' : In m' ms) by (eapply nth_error_In; eauto).
        assert (Cm : create orc (used_type (m_name mt') bo' m') None = Ok (snd a)).
        { clear -OWN Hm Ha. revert i Hm Ha. induction OWN as [|? ? ? ? (_ & Q)]; intros [|i] H1 H2; cbn in *; try discriminate; eauto.
          inversion H1; inversion H2; subst; auto. }
        destruct (used_as_explicit (m_name mt') bo' m') as (ov' & EX' & U). destruct (U orc) as [U1 _]. rewrite U1, Hx in Cm.
        apply (IH m' I') with (ov := ov'); auto.
        - apply everywhere_type. auto.
        - apply folds_back_type. auto. }
      destruct HK as [HK|HK].
      * apply (G (fun _ => True)); auto.
      * apply (G no_nan); auto. intros v n Kv. apply no_nan_getattr. auto.
Qed.

(** C22 *)
Lemma map_then_fold orc fuel d m bs off vals depth v n :
  extensional orc -> everywhere sound d -> folds_back orc d -> create orc d None = Ok (Some m) -> 0 <= off ->
  maps orc fuel m bs off vals depth v n ->
  everywhere no_single d \/ no_nan v ->
  forall c, clean c -> sizes_agree orc d vals (ctx_values c) v ->
  fst (foldbs orc m v c) = Ok (VBytes (window bs off n)).
Proof.
  intros X E FB C Ho M HK c Cl AG.
  destruct HK as [HK|HK].
  - pose proof (created_refolds orc X d E FB (fun _ => True) (or_introl HK) None m I C) as R'.
    destruct (R' _ _ _ _ _ _ _ Ho M I) as (_ & _ & F).
    destruct (F _ AG c Cl (same_values_refl _)) as (c' & -> & _). reflexivity.
  - pose proof (created_refolds orc X d E FB no_nan (or_intror (fun v H => H)) None m I C) as R'.
    destruct (R' _ _ _ _ _ _ _ Ho M HK) as (_ & _ & F).
    destruct (F _ AG c Cl (same_values_refl _)) as (c' & -> & _). reflexivity.
Qed.

(** ** What does not fold back *)

Lemma check_linear_flat ms : forall b, check_linear b ms = Ok true -> Forall (fun m => is_composite m = false) ms.
Proof.
  induction ms as [|m ms IH]; intros b H; constructor; cbn in H.
  - destruct (is_composite m); auto; discriminate.
  - destruct (is_composite m || is_padding m); [discriminate|]. destruct (dt_byte_order m); [|discriminate].
    destruct (_ && _); [discriminate|]. eauto.
Qed.

(** C22: a composite sequence inside *)
Lemma sequence_folds_to_none orc fuel mt bo pre mem post e el m bs off vals depth v n :
  extensional orc -> everywhere sound (DStructure mt bo (pre ++ mem :: post)) ->
  create orc (DStructure mt bo (pre ++ mem :: post)) None = Ok (Some m) ->
  Forall (folds_back orc) pre -> (Forall (everywhere no_single) pre \/ no_nan v) ->
  type_of mem = DElems KSequence e el ->
  (is_composite el = true \/ e_data_size_expr e <> None \/ e_number_expr e <> None \/ e_terminator e <> None) ->
  0 <= off -> maps orc fuel m bs off vals depth v n -> py_getattr v (dt_name mem) <> VNone ->
  sizes_agree orc (DStructure mt bo pre) vals [] v ->
  forall c, clean c -> fst (foldbs orc m v c) = Ok VNone.
Proof.
  intros X E C FB HK TM CS Ho M PR AG c Cl. apply agrees_members in AG. set (ms := pre ++ mem :: post) in *.
  assert (H : exists lin d cls ms' attrs op, m = MStructure lin d cls ms' attrs op).
  { assert (C' := C). apply created_structure in C'. apply create_structure_inv in C'.
    destruct C' as (attrs & _ & _ & _ & _ & [(_ & op & _ & ->)|(_ & ->)]); eauto 10. }
  destruct H as (lin & d & cls & ms' & attrs & op & ->).
  pose proof (everywhere_here _ _ E) as [_ S].
  assert (DT : distinct_types (m_name mt) bo ms) by (eapply well_named_distinct; exact S).
  pose proof (structure_own_maps _ _ _ _ _ _ _ _ _ _ C DT) as F. clear S DT.
  apply created_shape in C. destruct C as (-> & -> & Ed & NE & ND & A & L & _ & CL & _).
  cbn [ov_name ov_bo] in *.
  destruct lin.
  { exfalso. apply check_linear_flat in CL. rewrite Forall_forall in CL.
    assert (I : In mem ms) by (apply in_or_app; right; now left). specialize (CL _ I).
    destruct mem; cbn [type_of] in TM; try discriminate TM; try discriminate CL.
    subst mem. cbn [is_composite] in CL. rewrite orb_true_r in CL. discriminate CL. }
  destruct (Z.lt_ge_cases 10 depth) as [D|D].
  { exfalso. apply maps_fst in M.
    pose proof (too_deep orc fuel (MStructure false d (m_name mt) ms attrs op) bs off vals depth D I) as Q.
    rewrite Q in M. discriminate. }
  pose proof (maps_clear _ _ _ _ _ _ _ _ _ _ _ _ _ _ M) as CN.
  destruct (structure_layout orc fuel d (m_name mt) ms attrs op bs off vals depth X L NE CN D) as [H _].
  apply H in M. clear H. rewrite blank_partly, A in M.
  apply (fields_right orc fuel (m_name mt) vals bs depth (map dt_name ms) ND ms [] [] attrs) in M; auto.
  destruct M as (rs & (RL & RR) & -> & _). cbn [app] in *.
  set (v := partly (m_name mt) (map dt_name ms) rs) in *.
  (* the attributes before, of and after the sequence *)
  unfold ms in F. apply Forall2_app_inv_l in F. destruct F as (attrs1 & attrs2 & F1 & F2 & EA).
  inversion F2 as [|? a ? attrs3 (N2 & C2) F3]; subst attrs2. subst.
  clear F2 F3. pose proof (Forall2_len _ _ _ F1) as L1.
  assert (Hr : exists r, nth_error rs (List.length pre) = Some r).
  { destruct (nth_error rs (List.length pre)) eqn:Q; eauto. apply nth_error_None in Q. unfold ms in RL.
    rewrite app_length in RL. cbn in RL. lia. }
  destruct Hr as (r & Hr).
  assert (Hm : nth_error ms (List.length pre) = Some mem) by (unfold ms; rewrite nth_error_app2, Nat.sub_diag by lia; reflexivity).
  assert (Ha : nth_error (attrs1 ++ a :: attrs3) (List.length pre) = Some a)
    by (rewrite L1, nth_error_app2, Nat.sub_diag by lia; reflexivity).
  assert (G : forall i b r', nth_error (attrs1 ++ a :: attrs3) i = Some b -> nth_error rs i = Some r' ->
     py_getattr v (fst b) = value_of r').
  { intros i b r' Hb Hr'. apply (getattr_partly (m_name mt) (map dt_name ms) rs i); auto. rewrite <- A. now apply map_nth_error. }
  assert (Hseq : exists e' ed em, snd a = Some (MSequence false e' ed em None)).
  { destruct (used_as_ov (m_name mt) bo mem) as [ov U]. destruct (U orc) as [U1 _]. rewrite U1, TM in C2.
    destruct (snd a) as [x|] eqn:Ea.
    - apply create_elems in C2. destruct C2 as (eov & em & _ & _ & _ & C2).
      assert (LIN : sequence_is_linear (elems_of ov e) (apply_ov eov el) = false).
      { unfold sequence_is_linear.
        assert (is_composite (apply_ov eov el) = is_composite el) as -> by (destruct eov as [[]|]; [apply set_name_bo_composite|reflexivity]).
        replace (e_data_size_expr (elems_of ov e)) with (e_data_size_expr e) by (destruct ov as [[]|]; reflexivity).
        replace (e_number_expr (elems_of ov e)) with (e_number_expr e) by (destruct ov as [[]|]; reflexivity).
        replace (e_terminator (elems_of ov e)) with (e_terminator e) by (destruct ov as [[]|]; reflexivity).
        destruct (is_composite el), (e_data_size_expr e), (e_number_expr e), (e_terminator e); try reflexivity.
        destruct CS as [CS|[CS|[CS|CS]]]; congruence. }
      rewrite LIN in C2. subst x. eauto.
    - exfalso. specialize (RR _ _ _ _ Hm (map_nth_error snd _ _ Ha) Hr). cbn zeta in RR.
      rewrite <- N2, (G _ _ _ Ha Hr) in PR. destruct r as [[w k]|]; [|now apply PR].
      destruct RR as (_ & _ & y & Ey & _). congruence. }
  destruct Hseq as (e' & ed & em & Ea).
  assert (BP : forall i, (i <= List.length rs)%nat -> before i v = partly (m_name mt) (map dt_name ms) (firstn i rs)).
  { intros i Hi. unfold v. apply before_partly; auto. now rewrite map_length. }
  assert (TN : type_name v = m_name mt) by reflexivity.
  set (v0 := v) in *. clearbody v0. cbn [foldbs]. unfold fold_struct. rewrite (clean_state c Cl).
  cbn [s_attribute_index st_empty opt_default s_context]. change (Z.to_nat 0) with 0%nat. cbn [skipn].
  fold (folders orc (attrs1 ++ a :: attrs3)). unfold folders. rewrite map_app. fold (folders orc attrs1).
  destruct (fold_members orc bs v0 [(type_name v0, v0)] attrs1 (firstn (List.length attrs1) rs) off [] (ctx_new [(type_name v0, v0)])) as (l & sub' & _ & FL & _).
  - lia.
  - reflexivity.
  - apply same_values_refl.
  - rewrite firstn_length_le; auto. unfold ms in RL. rewrite app_length in RL. lia.
  - intros i b r' Hb Hr'.
    assert (Li : (i < List.length attrs1)%nat) by (apply nth_error_Some; congruence).
    assert (Hr'' : nth_error rs i = Some r').
    { rewrite <- (firstn_skipn (List.length attrs1) rs), nth_error_app1; auto. apply nth_error_Some. congruence. }
    assert (Hb' : nth_error (attrs1 ++ a :: attrs3) i = Some b) by (rewrite nth_error_app1; auto).
    split; [eapply G; eauto|]. intros Po.
    rewrite firstn_firstn, Nat.min_l in * by lia.
    assert (exists m', nth_error pre i = Some m') as (m' & Hm').
    { destruct (nth_error pre i) eqn:Q; eauto. apply nth_error_None in Q. lia. }
    assert (Hms : nth_error ms i = Some m') by (unfold ms; rewrite nth_error_app1 by lia; auto).
    specialize (RR _ _ _ _ Hms (map_nth_error snd _ _ Hb') Hr''). cbn zeta in RR.
    destruct r' as [[w k]|]; auto. destruct RR as (_ & _ & y & Ey & MY).
    assert (Im : In m' pre) by (eapply nth_error_In; eauto).
    rewrite Forall_forall in FB.
    assert (Cm : create orc (used_type (m_name mt) bo m') None = Ok (snd b)).
    { clear -F1 Hm' Hb. revert i Hm' Hb. induction F1 as [|? ? ? ? (_ & Q)]; intros [|i] H1 H2; cbn in *; try discriminate; eauto.
      inversion H1; inversion H2; subst; auto. }
    destruct (used_as_explicit (m_name mt) bo m') as (ov & EXP & U). destruct (U orc) as [U1 _]. rewrite U1, Ey in Cm.
    assert (Es : everywhere sound (type_of m')).
    { apply everywhere_type. destruct E as [_ E]. apply go_forall in E. rewrite Forall_forall in E. apply E.
      apply in_or_app. now left. }
    assert (GW : py_getattr v0 (fst b) = w) by (apply (G _ _ _ Hb' Hr'')).
    assert (R : refolds orc (sizes_agree orc (type_of m')) (fun x => x = w) y).
    { apply (created_refolds orc X (type_of m') Es (folds_back_type _ _ (FB _ Im))) with (ov := ov); auto.
      destruct HK as [HK|HK]; [left|right].
      - rewrite Forall_forall in HK. apply everywhere_type. auto.
      - intros x ->. rewrite <- GW. now apply no_nan_getattr. }
    destruct (R _ _ _ _ _ _ _ Po MY eq_refl) as (W & N & FY). split; auto. split; auto. exists y. split; auto. apply FY.
    assert (NM : fst b = dt_name m').
    { clear -F1 Hm' Hb. revert i Hm' Hb. induction F1 as [|? ? ? ? (Q & _)]; intros [|i] H1 H2; cbn in *; try discriminate; eauto.
      inversion H1; inversion H2; subst; auto. }
    specialize (AG i m' Hm'). rewrite <- NM, GW in AG. specialize (AG W). apply agrees_type in AG.
    revert AG. rewrite BP, TN; auto. assert (i < List.length rs)%nat by (apply nth_error_Some; congruence). lia.
  - cbn [map app] in FL. rewrite FL. cbn [map fold_loop].
    destruct a as [name x]. cbn [fst snd] in *. subst x. rewrite N2.
    destruct (py_getattr v0 (dt_name mem)) eqn:Q; try congruence; reflexivity.
Qed.

(** *** Members read in one go *)

Lemma linear_facts orc mt bo ms d cls ms' attrs op o n :
  everywhere sound (DStructure mt bo ms) ->
  create orc (DStructure mt bo ms) None = Ok (Some (MStructure true d cls ms' attrs op)) ->
  op = Some o -> get_byte_size d = Some n ->
  ms' = ms /\ NoDup (map fst attrs) /\ map fst attrs = map dt_name ms /\
  op_size o = n /\ n = csizes (op_codes o) /\ op_endian o = order_on (o_host orc) bo /\
  Forall2 (fun m c => prim_code (type_of m) = Some c) ms (op_codes o) /\
  Forall2 (lin_member orc (m_name mt) bo) ms attrs.
Proof.
  intros E C -> N. pose proof (everywhere_here _ _ E) as [_ S].
  assert (DT : distinct_types (m_name mt) bo ms) by (eapply well_named_distinct; exact S).
  pose proof (structure_own_maps _ _ _ _ _ _ _ _ _ _ C DT) as F.
  apply created_shape in C. destruct C as (_ & -> & -> & NE & ND & A & LN & _ & L & OP).
  split; auto. split; [now rewrite A|]. split; auto.
  cbn [apply_ov ov_bo] in *. rewrite structure_size in N. destruct ms as [|m0 ms0]; [congruence|].
  destruct (lin_cases orc (m_name mt) bo _ attrs F _ _ _ L N) as [(K & cs & T & PC & ->)|(T & _)].
  - unfold struct_op in OP. rewrite T in OP. cbn [bind] in OP.
    destruct cs as [|c0 cs0]; [discriminate|]. cbn [map] in OP.
    change ((1, c0) :: map (fun c => (1, c)) cs0) with (map (fun c => (1, c)) (c0 :: cs0)) in OP.
    unfold make_op in OP. destruct (_ && _); [|discriminate]. cbn [bind] in OP.
    destruct (op_ones (resolve orc bo) (c0 :: cs0)) as [OS OC].
    set (oo := mkOp (resolve orc bo) (map (fun c => (1, c)) (c0 :: cs0))) in *.
    assert (Eo : o = oo) by congruence. rewrite Eo, OS, OC. repeat split; auto.
  - unfold struct_op in OP. rewrite T in OP. discriminate.
Qed.

(** What the fast path makes of the unpacked values. *)
Lemma linear_members_values orc sn bo ms attrs : Forall2 (lin_member orc sn bo) ms attrs ->
  forall t vs, List.length t = List.length ms -> linear_values ms (map snd attrs) t = Ok vs ->
  List.length vs = List.length ms /\
  forall i m x w, nth_error ms i = Some m -> nth_error t i = Some x -> nth_error vs i = Some w ->
    map_value (type_of m) x = Ok w.
Proof.
  intros F. induction F as [|m a ms attrs K F IH]; intros t vs L H.
  - destruct t; [|discriminate]. cbn in H. inversion H; subst. split; auto. intros [|i]; discriminate.
  - destruct t as [|x t]; [discriminate|].
    destruct K as (p & q & b & Ha & Hp & _). cbn [map] in H. rewrite Ha in H. cbn [linear_values] in H.
    apply bind_ok in H. destruct H as (w & W & H). destruct (unsupported _ _); [discriminate|].
    apply bind_ok in H. destruct H as (ws & WS & H). inversion H; subst vs.
    apply IH in WS; [|cbn in L; lia]. destruct WS as (L' & R). split; [cbn; lia|].
    intros [|i] m' x' w' H1 H2 H3; cbn in H1, H2, H3; [|eauto].
    inversion H1; inversion H2; inversion H3; subst. clear -W.
    destruct (used_cases sn bo m') as [Q|[nm Q]]; rewrite Q in W; [exact W|].
    rewrite <- W. destruct (type_of m'); reflexivity.
Qed.

Lemma pack1_fuel en c v : pack1 en c v <> OutOfFuel.
Proof.
  destruct c, v; cbn; try discriminate; unfold pack_int, pack_float;
    repeat match goal with |- context [match ?x with _ => _ end] => destruct x end; discriminate.
Qed.

Lemma pack_str en : forall cs vs s, In (VStr s) vs -> exists e, pack_codes en cs vs = Raise e.
Proof.
  induction cs as [|c cs IH]; intros [|v vs] s I; try destruct I; cbn [pack_codes]; eauto.
  - subst v. exists IOError. destruct c; reflexivity.
  - destruct (pack1 en c v) eqn:P; cbn [bind]; eauto; [|now apply pack1_fuel in P].
    destruct (IH _ _ H) as (e & ->). cbn. eauto.
Qed.

(** C22: characters on the fast path *)
Lemma fast_characters orc fuel mt bo ms d cls ms' attrs op mem f bs off vals depth v n c :
  everywhere sound (DStructure mt bo ms) ->
  create orc (DStructure mt bo ms) None = Ok (Some (MStructure true d cls ms' attrs op)) ->
  In mem ms -> type_of mem = DCharacter f ->
  maps orc fuel (MStructure true d cls ms' attrs op) bs off vals depth v n ->
  fst (foldbs orc (MStructure true d cls ms' attrs op) v c) = Raise FoldingError.
Proof.
  intros E C I T (c0 & M & _). cbn [mapbs] in M. unfold map_struct_linear in M.
  destruct (get_byte_size d) as [k|] eqn:G; [|discriminate].
  destruct (_ <? _); [discriminate|]. destruct op as [o|]; [|discriminate].
  destruct (linear_facts _ _ _ _ _ _ _ _ _ _ _ E C eq_refl G) as (-> & ND & A & S1 & S2 & _ & PC & LM).
  unfold read_from in M. destruct (_ <? _); [discriminate|]. cbn [bind] in M.
  set (t := unpack_codes _ _ _) in *.
  assert (LT : List.length t = List.length ms) by (unfold t; rewrite unpack_length; apply Forall2_len in PC; auto).
  destruct (linear_values ms (map snd attrs) t) as [vs| |] eqn:LV; try discriminate. cbn [bind] in M.
  destruct (linear_members_values _ _ _ _ _ LM _ _ LT LV) as (LN & R).
  destruct (instance_cases cls (map fst attrs) vs) as [IE|IE]; rewrite IE in M; [|discriminate].
  inversion M; subst v c0.
  cbn [foldbs]. unfold fold_struct_linear.
  rewrite (getattr_names cls (map fst attrs) ND vs) by (rewrite A, map_length; auto).
  assert (V : exists s, In (VStr s) (filter (fun x => negb (is_VNone x)) vs)).
  { apply In_nth_error in I. destruct I as (i & Hi).
    assert (Li : (i < List.length ms)%nat) by (apply nth_error_Some; congruence).
    destruct (nth_error t i) as [x|] eqn:Ht; [|apply nth_error_None in Ht; lia].
    destruct (nth_error vs i) as [w|] eqn:Hv; [|apply nth_error_None in Hv; lia].
    specialize (R _ _ _ _ Hi Ht Hv). rewrite T in R.
    assert (W : exists s, w = VStr s).
    { assert (X : exists z, x = VInt z).
      { rewrite <- (firstn_skipn i ms) in PC.
        assert (exists cc, nth_error (op_codes o) i = Some cc /\ is_int_code cc = true) as (cc & Hc & IC).
        { clear -PC Hi T. rewrite firstn_skipn in PC. revert i Hi. induction PC as [|m1 c1 l1 l2 P1 PC IH]; intros [|i] Hi; cbn in Hi; try discriminate.
          - inversion Hi; subst. exists c1. split; auto. rewrite T in P1. cbn in P1.
            repeat match type of P1 with context [match ?x with _ => _ end] => destruct x end; try discriminate; inversion P1; reflexivity.
          - cbn. eauto. }
        clear -Ht Hc IC. unfold t in Ht. clear t. revert Ht Hc. generalize (slice_from bs off) (op_codes o) (op_endian o). intros l cs en. revert l i.
        induction cs as [|c1 cs IH]; intros l [|i] Ht Hc; cbn in Ht, Hc; try discriminate; eauto.
        inversion Hc; inversion Ht; subst. unfold unpack1. destruct cc; try discriminate; cbn; eauto. }
      destruct X as (z & ->). cbn in R. destruct (_ && _); [|discriminate]. inversion R. eauto. }
    destruct W as (s & ->). exists s. apply filter_In. split; [eapply nth_error_In; eauto|reflexivity]. }
  destruct V as (s & V). unfold write_to. destruct (pack_str (op_endian o) (op_codes o) _ s V) as (e & ->). reflexivity.
Qed.

(** C22: booleans on the fast path *)
Lemma pack_rewritten en ms cs : Forall2 (fun m c => prim_code (type_of m) = Some c) ms cs ->
  forall vs l, csizes cs <= len l -> List.length vs = List.length ms ->
  Forall (fun m => number_type (type_of m) \/ exists f fv tv, type_of m = DBoolean f fv tv) ms ->
  (forall m n, In m ms -> get_byte_size m = Some n -> get_byte_size (type_of m) = Some n) ->
  (forall m, In m ms -> get_byte_size m <> None) ->
  (forall i m x w, nth_error ms i = Some m -> nth_error (unpack_codes en cs l) i = Some x -> nth_error vs i = Some w ->
    map_value (type_of m) x = Ok w) ->
  (Forall (fun m => no_single (type_of m)) ms \/ Forall no_nan vs) ->
  Forall (fun v => v <> VNone) vs /\
  exists b, pack_codes en cs vs = Ok b /\
    rewritten en (map type_of ms) vs (firstn (Z.to_nat (csizes cs)) l) b.
Proof.
  intros F. induction F as [|m c ms cs PC F IH]; intros vs l L LV KD SZ HS R Q.
  - destruct vs; [|discriminate]. split; [constructor|]. exists []. split; auto. constructor.
  - destruct vs as [|v vs]; [discriminate|]. cbn [csizes fold_right] in L. fold (csizes cs) in L.
    pose proof (csizes_nonneg cs) as CN. pose proof (csize_pos c) as CP.
    pose proof (R 0%nat m (unpack1 en c (firstn (code_size c) l)) v eq_refl eq_refl eq_refl) as R0.
    inversion KD as [|? ? K1 K2]; subst.
    destruct (IH vs (skipn (code_size c) l)) as (NV & b & P & RW).
    { rewrite len_skipn. unfold csize in *. lia. }
    { cbn in LV. lia. }
    { auto. }
    { intros m' n I. apply SZ. now right. }
    { intros m' I. apply HS. now right. }
    { intros i m' x w H1 H2 H3. apply (R (Datatypes.S i)); auto. }
    { destruct Q as [Q|Q]; inversion Q; auto. }
    assert (GS : get_byte_size (type_of m) = Some (csize c)).
    { destruct (get_byte_size m) as [k|] eqn:G; [|exfalso; eapply HS; [left; reflexivity|auto]].
      apply SZ in G; [|now left]. rewrite G. f_equal. eapply prim_size; eauto. }
    set (w := firstn (code_size c) l) in *.
    assert (LW : List.length w = code_size c) by (apply firstn_length_le; unfold csize, len in L; lia).
    assert (SP : firstn (Z.to_nat (csizes (c :: cs))) l = w ++ firstn (Z.to_nat (csizes cs)) (skipn (code_size c) l)).
    { cbn [csizes fold_right]. fold (csizes cs). rewrite Z2Nat.inj_add by lia. unfold csize at 1. rewrite Nat2Z.id.
      unfold w. generalize (code_size c) (Z.to_nat (csizes cs)). clear. intros a b. revert l.
      induction a as [|a IH]; intros l; [reflexivity|]. destruct l; cbn; [now rewrite firstn_nil|]. f_equal. apply IH. }
    rewrite SP. cbn [map pack_codes].
    destruct K1 as [K1|(f & fv & tv & K1)].
    + assert (V : v = unpack1 en c w) by (destruct (type_of m); try contradiction; cbn in R0; congruence). subst v.
      split; [constructor; auto; apply unpack1_not_none|].
      rewrite pack_unpack1; auto.
      * cbn [bind]. rewrite P. cbn [bind]. eexists. split; [reflexivity|]. constructor; auto.
        rewrite GS. unfold len. now rewrite LW.
      * destruct c; try (left; discriminate). right. destruct Q as [Q|Q].
        -- exfalso. apply single_code in PC. destruct PC as (f & Ef & Sf). inversion Q as [|? ? Q1 _]; subst. rewrite Ef in Q1. now apply Q1.
        -- inversion Q; auto.
    + rewrite K1 in *.
      assert (IC : is_int_code c = true /\ code_signed c = false).
      { cbn in PC. repeat match type of PC with context [match ?x with _ => _ end] => destruct x end; try discriminate; inversion PC; auto. }
      destruct IC as [IC SG]. rewrite unpack1_int in R0 by auto. cbn in R0. 
      assert (V : exists x, v = VBool x).
      { unfold boolean_map_value in R0. repeat match type of R0 with context [match ?x with _ => _ end] => destruct x end; try discriminate; inversion R0; eauto. }
      destruct V as (x & ->). split; [constructor; auto; discriminate|].
      assert (PB : pack1 en c (VBool x) = Ok (enc_n en (code_size c) (Z.b2z x))).
      { replace (pack1 en c (VBool x)) with (pack_int en c (Z.b2z x)) by (destruct c; try discriminate; reflexivity).
        assert (RG : int_range_b c (Z.b2z x)).
        { unfold int_range_b, in_range. rewrite SG. pose proof (code_size_pos c).
          assert (2 ^ 1 <= 2 ^ (8 * Z.of_nat (code_size c))) by (apply Z.pow_le_mono_r; lia).
          change (2 ^ 1) with 2 in *. destruct x; cbn; lia. }
        rewrite pack_int_range by auto. do 2 f_equal. apply Z.mod_small.
        unfold int_range_b, in_range in RG. rewrite SG in RG. auto. }
      rewrite PB. cbn [bind]. rewrite P. cbn [bind]. eexists. split; [reflexivity|].
      constructor; auto.
      * cbn [get_byte_size] in GS. rewrite GS. unfold csize, len. now rewrite LW.
      * unfold len. rewrite enc_n_length. now rewrite LW.
      * rewrite stored_number_enc; [destruct x; reflexivity|]. pose proof (code_size_pos c).
        assert (2 ^ 1 <= 2 ^ (8 * Z.of_nat (code_size c))) by (apply Z.pow_le_mono_r; lia).
        change (2 ^ 1) with 2 in *. destruct x; cbn; lia.
Qed.

Lemma fast_booleans orc fuel mt bo ms d cls ms' attrs op bs off vals depth v n c :
  everywhere sound (DStructure mt bo ms) ->
  create orc (DStructure mt bo ms) None = Ok (Some (MStructure true d cls ms' attrs op)) ->
  Forall (fun m => number_type (type_of m) \/ exists f fv tv, type_of m = DBoolean f fv tv) ms ->
  0 <= off ->
  maps orc fuel (MStructure true d cls ms' attrs op) bs off vals depth v n ->
  (Forall (fun m => no_single (type_of m)) ms \/ no_nan v) ->
  exists b, fst (foldbs orc (MStructure true d cls ms' attrs op) v c) = Ok (VBytes b) /\
    rewritten (order_on (o_host orc) bo) (map type_of ms) (map (fun m => py_getattr v (dt_name m)) ms)
      (window bs off n) b.
Proof.
  intros E C K OF (c0 & M & ZC) Q. cbn [mapbs] in M. unfold map_struct_linear in M.
  destruct (get_byte_size d) as [k|] eqn:G; [|discriminate].
  destruct (Z.ltb_spec (len bs - off) k); [discriminate|]. destruct op as [o|]; [|discriminate].
  destruct (linear_facts _ _ _ _ _ _ _ _ _ _ _ E C eq_refl G) as (-> & ND & A & S1 & S2 & EN & PC & LM).
  destruct (read_from o (slice_from bs off)) as [t| |] eqn:RD; try discriminate. cbn [bind] in M.
  pose proof (csizes_nonneg (op_codes o)) as CN.
  apply (read_ok o bs off k) in RD; try lia.
  assert (LT : List.length t = List.length ms) by (subst t; rewrite unpack_length; apply Forall2_len in PC; auto).
  destruct (linear_values ms (map snd attrs) t) as [vs| |] eqn:LV; try discriminate. cbn [bind] in M.
  destruct (linear_members_values _ _ _ _ _ LM _ _ LT LV) as (LN & R).
  destruct (instance_cases cls (map fst attrs) vs) as [IE|IE]; rewrite IE in M; [|discriminate].
  inversion M; subst v c0. clear M.
  cbn in ZC. inversion ZC; subst n.
  assert (LA : List.length vs = List.length (map fst attrs)) by (rewrite A, map_length; auto).
  pose proof (getattr_names cls (map fst attrs) ND vs LA) as GN.
  set (v := new_struct cls (map fst attrs) vs) in *.
  assert (Lo : csizes (op_codes o) <= len (skipn (Z.to_nat off) bs)) by (rewrite len_skipn; lia).
  destruct (pack_rewritten (op_endian o) ms (op_codes o) PC vs _ Lo LN K) as (NV & b & P & RW).
  - clear -LM. intros m n I. assert (H : exists a, lin_member orc (m_name mt) bo m a).
    { clear n. induction LM as [|m1 a1 l1 l2 K F IH]; [destruct I|]. destruct I as [-> | I]; eauto. }
    destruct H as (a & p & q & b & _ & -> & _ & _ & (j & J1 & J2) & _). rewrite used_size in J2. congruence.
  - clear -LM. intros m I. assert (H : exists a, lin_member orc (m_name mt) bo m a).
    { induction LM as [|m1 a1 l1 l2 K F IH]; [destruct I|]. destruct I as [-> | I]; eauto. }
    destruct H as (a & p & q & b & _ & -> & _ & _ & (j & J1 & J2) & _). congruence.
  - subst t. exact R.
  - destruct Q as [Q|Q]; [now left|right]. rewrite <- GN. apply Forall_forall. intros x Hx.
    apply in_map_iff in Hx. destruct Hx as (a & <- & _). now apply no_nan_getattr.
  - exists b. rewrite <- EN. split.
    + cbn [foldbs]. unfold fold_struct_linear. fold v. rewrite GN.
      assert (FT : filter (fun x => negb (is_VNone x)) vs = vs).
      { clear -NV. induction NV as [|x l X F IH]; [reflexivity|]. cbn. destruct x; cbn; try congruence. }
      rewrite FT. unfold write_to. rewrite P. reflexivity.
    + rewrite A in GN. rewrite map_map in GN. rewrite GN. unfold window. rewrite S2. exact RW.
Qed.

(** ** Sizes that agree *)

Lemma same_size orc e el vals fvals :
  (forall x, e_data_size_expr e = Some x \/ e_number_expr e = Some x ->
     o_eval orc x (ns vals) = o_eval orc x (ns fvals)) ->
  forall n, stream_size orc e el vals n -> stream_size orc e el fvals n.
Proof.
  intros H n.
  assert (G : forall fixed expr k, expr = e_data_size_expr e \/ expr = e_number_expr e ->
     measure orc fixed expr vals k -> measure orc fixed expr fvals k).
  { intros fixed expr k Hx [M|(F & x & -> & N & M)]; [now left|right]. split; auto. exists x. split; auto. split; auto.
    rewrite <- (H x); auto. destruct Hx; auto. }
  intros [(D & M)|(D & k & b & B & M & E)]; [left|right]; split; auto. exists k, b. auto.
Qed.

(** C22: without expressions *)
Lemma fixed_sizes_agree orc d : everywhere fixed_sizes d ->
  forall vals fvals v, sizes_agree orc d vals fvals v.
Proof.
  induction d using dtype_rect'; intros E vals fvals w; try exact I.
  - destruct E as [L _]. destruct k; try exact I; destruct L as [L1 L2]; cbn [sizes_agree]; intros n0; apply same_size;
      intros x [Hx|Hx]; congruence.
  - apply agrees_members. intros i m' Hm _. destruct E as [_ E]. apply go_forall in E.
    rewrite Forall_forall in E, H. apply nth_error_In in Hm. apply H; auto.
  - destruct E as [_ E]. cbn [sizes_agree]. auto.
Qed.
