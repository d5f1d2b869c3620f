(** Size hints. *)
From Coq Require Import String List ZArith Bool Lia.
From Verif Require Import Base PyVal PyStruct DataTypes ClassFactory DataMaps
  BytesProofs SpecPrim PrimProofs SpecMap SpecCreate MapProofs ContextProofs StructProofs CreateProofs
  ContainerProofs LinearProofs StreamProofs FixedProofs SteadyProofs WindowProofs SpecFold FoldProofs SpecResume ResumeProofs FuelProofs SpecHint.
Import ListNotations.
Open Scope Z_scope.
Arguments Z.pow : simpl never.
Arguments Z.mul : simpl never.
Arguments Z.div : simpl never.
Arguments Z.modulo : simpl never.

(** *** Padding *)

Lemma padding_same a o o' : 0 < a -> (o - o') mod a = 0 -> padding_size a o = padding_size a o'.
Proof.
  intros A H. unfold padding_size. apply Z.mod_divide in H; [|lia]. destruct H as [k H].
  replace o with (o' + k * a) by lia. rewrite Z_mod_plus_full. reflexivity.
Qed.

Lemma padding_up a o : 0 < a -> exists k, o + padding_size a o = k * a /\ o <= k * a < o + a.
Proof.
  intros A. unfold padding_size. pose proof (Z.mod_pos_bound o a A). pose proof (Z.div_mod o a).
  destruct (Z.ltb_spec 0 (o mod a)).
  - exists (o / a + 1). nia.
  - exists (o / a). nia.
Qed.

Lemma padding_monotone a o o' : 0 < a -> o <= o' -> o + padding_size a o <= o' + padding_size a o'.
Proof.
  intros A L. destruct (padding_up a o A) as (k & -> & K). destruct (padding_up a o' A) as (k' & -> & K').
  destruct (Z_le_gt_dec k k'); nia.
Qed.

(** *** Members that did not fit *)

Lemma scan_end t bs off : 0 < len t -> forall fuel doff v d,
  0 <= doff ->
  stream_scan fuel bs (len t) (VBytes t) off doff (doff + len t) (slice bs doff (doff + len t)) = Ok (None, v, d) ->
  len bs <= d /\ (len t = 1 -> doff <= len bs -> d = len bs).
Proof.
  intros Ht. induction fuel as [|fuel IH]; intros doff v d Hd H; [discriminate|]. cbn [stream_scan] in H.
  rewrite is_empty_slice_from in H by lia.
  destruct (Z.leb_spec (len bs) doff) as [E|E].
  - inversion H; subst. lia.
  - destruct (bytes_is _ _); [discriminate|]. apply IH in H; [|lia]. split; [tauto|]. intros L _. apply H; lia.
Qed.

Lemma calc_like orc e ed c vals : extensional orc -> c_state c = st_empty -> same_values (c_values c) vals ->
  fst (calc_data_size orc e ed (Some c)) = fst (calc_data_size orc e ed (Some (ctx_new vals))).
Proof. intros X C V. now apply (calc_agrees orc X e ed (Some c) (Some (ctx_new vals))). Qed.

Lemma calc_state orc e ed c c' r : c_state c = st_empty -> calc_data_size orc e ed (Some c) = (r, Some c') ->
  c_state c' = st_empty.
Proof.
  intros C. unfold calc_data_size. cbn [ctx_state]. rewrite C. cbn [st_empty s_elements_data_size truthy_Z s_number_of_elements].
  destruct (has_data_size e); [intros E; inversion E; subst; exact C|].
  destruct (has_number e); [|intros E; inversion E; subst; exact C].
  destruct (get_byte_size ed); [|intros E; inversion E; subst; exact C].
  unfold eval_number. destruct (truthy_Z _); [intros E; inversion E; subst; exact C|].
  destruct (truthy_str _); intros E; inversion E; subst; exact C.
Qed.

Lemma stream_short orc e ed em bs off vals depth c0 c : extensional orc -> steady (MStream e ed em) ->
  0 <= off <= len bs -> c_state c0 = st_empty -> same_values (c_values c0) vals ->
  map_stream orc e ed bs off (Some c0) depth = (Raise ByteStreamTooSmallError, Some c) ->
  c_byte_size c = None /\
  ((exists n, stream_size orc e ed vals n /\ len bs - off < n /\ s_elements_data_size (c_state c) = Some n) \/
   (unsized_stream e ed /\ exists t d, e_terminator e = Some (VBytes t) /\ get_byte_size ed = Some (len t) /\
      0 < len t /\ s_elements_data_size (c_state c) = None /\ s_elements_data_offset (c_state c) = Some (d - off) /\
      len bs <= d /\ (len t = 1 -> d = len bs))).
Proof.
  intros X [_ ST] Ho C V M. unfold map_stream in M.
  pose proof (calc_like orc e ed c0 vals X C V) as Q.
  destruct (calc_spec orc e ed vals) as (A & B & R & _).
  destruct (calc_data_size orc e ed (Some c0)) as [r c1] eqn:E. cbn [fst] in Q. rewrite <- Q in *.
  pose proof (keeps_calc orc e ed (Some c0)) as K. rewrite E in K. cbn [snd] in K.
  destruct c1 as [c1|]; [|cbn in K; tauto]. apply calc_state in E; auto.
  destruct r as [[n|]|x|]; try discriminate.
  - destruct (Z.ltb_spec (len bs - off) n); [|discriminate]. inversion M; subst c. cbn. split; auto.
    left. exists n. split; [now apply A|]. auto.
  - destruct (e_terminator e) as [t|] eqn:T; [|discriminate].
    destruct (ST t eq_refl) as (b & -> & G & L). rewrite G in M.
    destruct (scan_spec b bs off L (scan_fuel bs off) off) as [(k & K1 & S)|(N & v & d & S & W)];
      [lia|unfold scan_fuel; lia|unfold scan_fuel; lia| |].
    + rewrite S in M. replace (bytes_is b (VBytes b)) with true in M by (unfold bytes_is; cbn; symmetry; now apply bytes_eqb_eq). discriminate.
    + rewrite S in M. destruct (bytes_is v (VBytes b)) eqn:BI; cbn [negb] in M; [discriminate|].
      inversion M; subst c. cbn. rewrite E. cbn. split; auto. right. split; [now apply B|]. exists b, d. apply scan_end in S; [|lia..].
      destruct S. repeat split; auto. intros; apply H0; lia.
  - specialize (R x eq_refl). subst. discriminate.
Qed.

Lemma elems_short orc e ed em bs off vals depth c0 c : extensional orc -> steady (MStream e ed em) ->
  0 <= off <= len bs -> c_state c0 = st_empty -> same_values (c_values c0) vals ->
  map_stream orc e ed bs off (Some c0) depth = (Raise ByteStreamTooSmallError, Some c) ->
  forall h0 size, exists h, fst (hint_elems orc e ed h0 size (Some c)) = Ok (Some h) /\ len bs - off < h /\
    (narrow (MStream e ed em) -> forall fuel s v n, maps orc fuel (MStream e ed em) (bs ++ s) off vals depth v n -> h <= n).
Proof.
  intros X ST Ho C V M h0 size.
  destruct (stream_short _ _ _ em _ _ _ _ _ _ X ST Ho C V M) as (B & [(n & N & L & S)|(U & t & d & T & G & Lt & S1 & S2 & L & W)]).
  - exists n. unfold hint_elems. cbn [opt_bind ctx_state]. rewrite B, S.
    assert (TZ : truthy_Z (Some n) = Some n) by (cbn; destruct (Z.eqb_spec n 0); [lia|reflexivity]).
    rewrite TZ. split; [reflexivity|]. split; [lia|]. intros _ fuel s v k Mp.
    assert (NU : ~ unsized_stream e ed).
    { destruct (calc_spec orc e ed vals) as (A & B' & _). rewrite <- B'. apply A in N. rewrite N. discriminate. }
    destruct ST as [SB _].
    apply (proj1 (stream_sized orc fuel e ed em (bs ++ s) off vals depth (proj1 Ho) SB NU)) in Mp.
    destruct Mp as (K & _). destruct (calc_spec orc e ed vals) as (A & _). apply A in K, N. rewrite K in N. inversion N. lia.
  - exists (d - off + len t). unfold hint_elems. cbn [opt_bind ctx_state]. rewrite B, S1. cbn [truthy_Z].
    destruct U as [U1 U2]. rewrite U1. unfold has_terminator. rewrite T. cbn [is_some]. rewrite G, S2. cbn [opt_default fst].
    split; [reflexivity|]. split; [lia|]. intros NW fuel s v n Mp. cbn in NW. destruct NW as [_ NW]; [congruence|].
    assert (L1 : len t = 1) by congruence. specialize (W L1). subst d.
    assert (UN : unsized_stream e ed) by (split; auto).
    pose proof (proj1 (proj1 (stream_terminated orc fuel e ed em t (bs ++ s) off vals depth (proj1 Ho) UN T G Lt) v n) Mp) as (k & F & Hn & _).
    rewrite L1 in Hn. destruct (Z_lt_le_dec (off + k) (len bs)); [|lia]. exfalso.
    assert (F2 : fails orc fuel (MStream e ed em) bs off vals depth ByteStreamTooSmallError).
    { destruct (fresh orc fuel (MStream e ed em) bs off c0 depth vals X C V) as [Q _]. unfold fails. rewrite <- Q.
      cbn [mapbs]. rewrite M. reflexivity. }
    pose proof (proj1 (proj1 (proj2 (stream_terminated orc fuel e ed em t bs off vals depth (proj1 Ho) UN T G Lt))) F2) as NF.
    apply (NF k). destruct F as (F0 & F3 & F4). rewrite L1 in *.
    split; [auto|]. rewrite L1. split.
    + rewrite WindowProofs.window_app in F3 by lia. exact F3.
    + intros j Hj. specialize (F4 j Hj). rewrite WindowProofs.window_app in F4 by lia. exact F4.
Qed.

(** [size] is where the hint assumes the member to start, relative to [off]. *)
Definition sizes_at (off e size : Z) (x : dmap) : Prop :=
  aligned off x /\ size = e - off.

Lemma string_too_small orc e ed bs off c depth c' :
  map_string orc e ed bs off c depth = (Raise ByteStreamTooSmallError, c') ->
  map_stream orc e ed bs off c depth = (Raise ByteStreamTooSmallError, c').
Proof.
  unfold map_string. destruct (map_stream _ _ _ _ _ _ _) as [[v|x|] c1]; try discriminate; [|intros E; inversion E; subst; auto].
  destruct v; try discriminate. destruct (e_terminator e) as [t|].
  - destruct (py_len t) as [n|x|] eqn:PL; cbn [bind].
    + destruct (string_cut _ _ _ _ _) as [k|x|] eqn:SC; cbn [bind].
      * destruct (o_decode _ _ _); discriminate.
      * intros E. inversion E; subst. now apply string_cut_never in SC.
      * discriminate.
    + intros E. inversion E; subst. destruct t; discriminate.
    + discriminate.
  - destruct (o_decode _ _ _); discriminate.
Qed.

Lemma leaf_short orc fuel x bs off e size c0 c vals depth : extensional orc -> steady x -> leaf x ->
  0 <= e <= len bs -> c_state c0 = st_empty -> same_values (c_values c0) vals ->
  sizes_at off e size x ->
  mapbs orc fuel x bs e (Some c0) depth = (Raise ByteStreamTooSmallError, Some c) ->
  exists h, fst (hint orc x size (Some c)) = Ok (Some h) /\ len bs - e < h /\
    (narrow x -> forall s v n, maps orc fuel x (bs ++ s) e vals depth v n -> h <= n).
Proof.
  intros X ST LF He C V [AL SZ] M. destruct x; try contradiction.
  - cbn [mapbs] in M. unfold map_prim in M. destruct (get_byte_size d) as [n|] eqn:G; [|discriminate].
    destruct (Z.ltb_spec (len bs - e) n).
    2:{ destruct (match op with Some _ => _ | None => _ end); discriminate. }
    exists n. cbn [hint fst]. rewrite G. split; [reflexivity|]. split; [lia|].
    intros _ s v k (c' & M' & K). cbn [mapbs] in M'. unfold map_prim in M'. rewrite G in M'.
    destruct (_ <? _); [discriminate|]. destruct (match op with Some _ => _ | None => _ end); inversion M'; subst. cbn in K. inversion K. lia.
  - cbn [mapbs] in M. unfold map_uuid in M. destruct (get_byte_size d) as [n|] eqn:G; [|discriminate].
    destruct (Z.ltb_spec (len bs - e) n).
    2:{ destruct (match dt_byte_order d with Some _ => _ | None => _ end); discriminate. }
    exists n. cbn [hint fst]. rewrite G. split; [reflexivity|]. split; [lia|].
    intros _ s v k (c' & M' & K). cbn [mapbs] in M'. unfold map_uuid in M'. rewrite G in M'.
    destruct (_ <? _); [discriminate|]. destruct (match dt_byte_order d with Some _ => _ | None => _ end); inversion M'; subst. cbn in K. inversion K. lia.
  - destruct ST as (mt & bo & a & -> & A). cbn [aligned] in AL. cbn [mapbs] in M. unfold map_padding in M.
    destruct (Z.eqb_spec a 0); [lia|].
    destruct (Z.ltb_spec (len bs - e) (padding_size a e)); [|discriminate]. inversion M; subst c.
    exists (padding_size a e). cbn [hint]. unfold hint_padding. cbn [opt_bind option_map set_sizes c_byte_size fst].
    destruct (Z.eqb_spec a 0); [lia|].
    rewrite (padding_same a size e).
    2:lia. 2:{ subst size. apply Z.mod_divide in AL; [|lia]. destruct AL as [k ->]. apply Z.mod_divide; [lia|]. exists (- k). lia. }
    split; [reflexivity|]. split; [lia|].
    intros _ s v k (c' & M' & K). cbn [mapbs] in M'. unfold map_padding in M'.
    destruct (Z.eqb_spec a 0); [lia|]. destruct (_ <? _); [discriminate|]. inversion M'; subst. cbn in K. inversion K. lia.
  - destruct linear; [|contradiction]. cbn [mapbs] in M. unfold map_seq_linear in M.
    destruct (elems_byte_size e0 (get_byte_size ed)) as [n|] eqn:G; [|discriminate].
    destruct (Z.ltb_spec (len bs - e) n).
    2:{ destruct op; [|discriminate]. destruct em as [[]|]; try discriminate.
        destruct (read_from _ _); try discriminate. destruct (map_values _ _) eqn:MV; try discriminate. cbn in M. inversion M; subst.
        now apply map_values_never in MV. }
    inversion M; subst c. exists n. cbn [hint]. unfold hint_elems. cbn.
    destruct (Z.eqb_spec n 0); [lia|]. split; [reflexivity|]. split; [lia|].
    intros _ s v k (c' & M' & K). cbn [mapbs] in M'. unfold map_seq_linear in M'. rewrite G in M'.
    destruct (_ <? _); [discriminate|]. destruct op; [|discriminate]. destruct em as [[]|]; try discriminate.
    destruct (read_from _ _); try discriminate. destruct (map_values _ _); cbn in M'; inversion M'; subst. cbn in K. inversion K. lia.
  - cbn [mapbs] in M. cbn [hint].
    destruct (elems_short orc e0 ed em bs e vals depth c0 c X ST He C V M
      (match em with Some x => Some (hint orc x) | None => None end) size) as (h & H1 & H2 & H3).
    exists h. split; auto. split; auto. intros NW s v n. apply H3. exact NW.
  - cbn [mapbs] in M. cbn [hint]. apply string_too_small in M.
    destruct (elems_short orc e0 ed em bs e vals depth c0 c X ST He C V M
      (match em with Some x => Some (hint orc x) | None => None end) size) as (h & H1 & H2 & H3).
    exists h. split; auto. split; auto. intros NW s v n Mp.
    assert (BT : byte_terminator (e_terminator e0)).
    { destruct ST as [_ ST]. destruct (e_terminator e0); cbn; auto. destruct (ST p eq_refl) as (b & -> & _ & L). eauto. }
    apply (proj1 (string_layout orc fuel e0 ed em (bs ++ s) e vals depth BT)) in Mp.
    destruct Mp as (l & r & w & Mp & _). eapply H3; [exact NW|exact Mp].
  - destruct linear; [|contradiction]. cbn [mapbs] in M. unfold map_struct_linear in M.
    destruct (get_byte_size d) as [n|] eqn:G; [|discriminate].
    destruct (Z.ltb_spec (len bs - e) n).
    2:{ destruct (match op with Some _ => _ | None => _ end); discriminate. }
    inversion M; subst c. exists n. cbn [hint]. unfold hint_struct. cbn [opt_bind option_map on_state set_state set_sizes c_byte_size c_state ctx_state upd_members s_attribute_index s_members_data_size opt_default].
    destruct LF as [CN _]. rewrite (struct_values_new _ _ _ CN) by (cbn; now rewrite C). cbn iota beta.
    rewrite skipn_all2. 2:{ rewrite map_length. unfold len. lia. }
    cbn. split; [reflexivity|]. split; [lia|].
    intros _ s v k (c' & M' & K). cbn [mapbs] in M'. unfold map_struct_linear in M'. rewrite G in M'.
    destruct (_ <? _); [discriminate|]. destruct (match op with Some _ => _ | None => _ end); inversion M'; subst. cbn in K. inversion K. lia.
Qed.

(** *** Members that have not been tried *)

Definition tidy (m : dmap) : Prop :=
  match m with
  | MSequence true e ed _ _ => e_terminator e = None /\
      (has_data_size e = false \/ has_number e = false) /\
      (forall n, e_data_size e = Some n -> 0 < n) /\ (forall n, e_number e = Some n -> 0 < n)
  | MStream e ed _ | MString e ed _ =>
      (has_data_size e = false \/ has_number e = false) /\
      (forall n, e_data_size e = Some n -> 0 < n) /\ (forall n, e_number e = Some n -> 0 < n)
  | MSequence false e ed em _ =>
      (has_data_size e = false \/ has_number e = false) /\
      (forall n, e_data_size e = Some n -> 0 < n) /\ (forall n, e_number e = Some n -> 0 < n) /\
      (forall x, em = Some x -> solid x -> map_byte_size x = get_byte_size ed)
  | MStructure true d cls ms attrs op =>
      forall o n, op = Some o -> get_byte_size d = Some n ->
        exists ks, Forall2 (fun a k => exists p q, snd a = Some (MPrim p q) /\ get_byte_size p = Some k) attrs ks /\
          n = fold_right Z.add 0 ks
  | _ => True
  end.

Lemma lin_sizes orc sn bo ms attrs cs :
  Forall2 (lin_member orc sn bo) ms attrs ->
  Forall2 (fun m c => prim_code (type_of m) = Some c) ms cs ->
  exists ks, Forall2 (fun (a : string * option dmap) k => exists p q, snd a = Some (MPrim p q) /\ get_byte_size p = Some k) attrs ks /\
    csizes cs = fold_right Z.add 0 ks.
Proof.
  intros F. revert cs. induction F as [|m a ms attrs K F IH]; intros cs G; inversion G; subst.
  - exists []. split; auto.
  - destruct (IH _ H3) as (ks & A & B).
    destruct K as (p & op & b & P1 & -> & _ & PO & (k & K1 & K2) & _ & _ & IP).
    exists (k :: ks). split.
    + constructor; [eauto|exact A].
    + cbn [csizes fold_right]. fold (csizes l'). rewrite B. f_equal.
      symmetry. apply (prim_size (used_type sn bo m) y); [|exact K2].
      now rewrite used_code.
Qed.

Lemma solid_size orc d ov x : create orc d ov = Ok (Some x) -> solid x -> map_byte_size x = get_byte_size (apply_ov ov d).
Proof.
  intros C S. destruct d; cbn [create] in C; try discriminate;
    try (apply bind_ok in C; destruct C as (o & O & C); inversion C; subst; reflexivity);
    try (inversion C; subst; first [contradiction|reflexivity]).
  - destruct false_value, true_value; try discriminate; (apply bind_ok in C; destruct C as (o & O & C); inversion C; subst; reflexivity).
  - apply create_elems in C. destruct C as (eov & em & O & Ce & _ & C). destruct k.
    + destruct (sequence_is_linear _ _); [destruct C as (o & _ & ->)|subst x]; contradiction.
    + destruct C as [_ ->]. contradiction.
    + destruct C as [_ ->]. contradiction.
  - rename m into mt, members into ms. change (create orc (DStructure mt bo ms) ov = Ok (Some x)) in C.
    rewrite create_apply in C.
    set (d := apply_ov ov (DStructure mt bo ms)) in *.
    assert (Q : exists mt' bo', d = DStructure mt' bo' ms) by (subst d; destruct ov as [[nm b]|]; cbn; eauto).
    destruct Q as (mt' & bo' & Q). clearbody d. subst d.
    apply created_structure in C. apply create_structure_inv in C.
    destruct C as (attrs & MM & NE & ND & A & X).
    destruct X as [(L & op & OP & ->)|(L & ->)]; reflexivity.
  - apply bind_ok in C. destruct C as (df & D & C).
    apply bind_ok in C. destruct C as (b & B & C). destruct members; [discriminate|].
    apply bind_ok in C. destruct C as (entries & G & C). inversion C; subst. contradiction.
Qed.

(** C11: a map reports the size of its definition. *)
Lemma elems_of_size ov e b : elems_byte_size (elems_of ov e) b = elems_byte_size e b.
Proof. destruct ov as [[n o]|]; reflexivity. Qed.

Lemma created_size orc d ov m : create orc d ov = Ok (Some m) -> map_byte_size m = get_byte_size d.
Proof.
  intros C. rewrite <- (apply_ov_size ov d).
  destruct d; cbn [create] in C; try discriminate;
    try (apply bind_ok in C; destruct C as (o & O & C); inversion C; subst; reflexivity);
    try (inversion C; subst; reflexivity).
  - destruct false_value, true_value; try discriminate; (apply bind_ok in C; destruct C as (o & O & C); inversion C; subst; reflexivity).
  - rewrite apply_ov_size. apply create_elems in C. destruct C as (eov & em & O & Ce & _ & C). cbn [get_byte_size].
    destruct k; [destruct (sequence_is_linear _ _); [destruct C as (o & _ & ->)|subst m]|destruct C as [_ ->]|destruct C as [_ ->]];
      cbn [map_byte_size]; now rewrite apply_ov_size, elems_of_size.
  - rename m0 into mt, members into ms. change (create orc (DStructure mt bo ms) ov = Ok (Some m)) in C.
    rewrite create_apply in C.
    set (d := apply_ov ov (DStructure mt bo ms)) in *.
    assert (Q : exists mt' bo', d = DStructure mt' bo' ms) by (subst d; destruct ov as [[nm b]|]; cbn; eauto).
    destruct Q as (mt' & bo' & Q). clearbody d. subst d.
    apply created_structure in C. apply create_structure_inv in C.
    destruct C as (attrs & MM & NE & ND & A & X).
    destruct X as [(L & op & OP & ->)|(L & ->)]; reflexivity.
  - apply bind_ok in C. destruct C as (df & D & C).
    apply bind_ok in C. destruct C as (b & B & C). destruct members; [discriminate|].
    apply bind_ok in C. destruct C as (entries & G & C). inversion C; subst. destruct ov as [[nm o]|]; reflexivity.
Qed.

Lemma map_size orc d m : create orc d None = Ok (Some m) -> map_byte_size m = get_byte_size d.
Proof. apply created_size. Qed.

Lemma created_tidy orc d ov m : everywhere sound d -> create orc d ov = Ok (Some m) -> tidy m.
Proof.
  intros E C. pose proof (everywhere_here _ _ E) as S.
  destruct d; cbn [create] in C; try discriminate; try (inversion C; subst; exact I);
    try (apply bind_ok in C; destruct C as (o & O & C); inversion C; subst; exact I).
  - destruct false_value, true_value; try discriminate; (apply bind_ok in C; destruct C as (o & O & C); inversion C; subst; exact I).
  - apply create_elems in C. destruct C as (eov & em & O & Ce & _ & C).
    destruct S as [(S1 & S2 & S3 & S4) _].
    assert (T : e_terminator (elems_of ov e) = e_terminator e /\ e_data_size (elems_of ov e) = e_data_size e /\
                e_number (elems_of ov e) = e_number e /\ has_data_size (elems_of ov e) = has_data_size e /\
                has_number (elems_of ov e) = has_number e) by (destruct ov as [[nm b]|]; repeat split).
    destruct T as (T1 & T2 & T3 & T4 & T5).
    destruct k.
    + destruct (sequence_is_linear _ _) eqn:L.
      * destruct C as (o & Op & ->). cbn [tidy]. rewrite T2, T3, T4, T5. split; auto.
        unfold sequence_is_linear in L. apply negb_true_iff in L.
        apply orb_false_iff in L. destruct L as [L _]. apply orb_false_iff in L. destruct L as [_ L].
        destruct (e_terminator (elems_of ov e)); [discriminate|reflexivity].
      * subst m. cbn [tidy]. rewrite T2, T3, T4, T5. repeat (split; [assumption|]).
        intros x -> SO. now apply solid_size in Ce.
    + destruct C as [_ ->]. cbn [tidy]. rewrite T2, T3, T4, T5. auto.
    + destruct C as [_ ->]. cbn [tidy]. rewrite T2, T3, T4, T5. auto.
  - rename m0 into mt, members into ms. change (create orc (DStructure mt bo ms) ov = Ok (Some m)) in C.
    rewrite create_apply in C.
    set (d := apply_ov ov (DStructure mt bo ms)) in *.
    assert (Q : exists mt' bo', d = DStructure mt' bo' ms) by (subst d; destruct ov as [[nm b]|]; cbn; eauto).
    destruct Q as (mt' & bo' & Q). clearbody d. subst d.
    assert (C' := C). apply created_structure in C'. apply create_structure_inv in C'.
    destruct C' as (attrs & MM & NE & ND & A & X). rewrite map_map in *. cbn [fst] in *. rewrite map_id in *.
    destruct X as [(L & op & OP & ->)|(L & ->)]; [|exact I].
    cbn [tidy]. cbn [apply_ov ov_name ov_bo] in *. intros o n -> N.
    assert (DT : distinct_types (m_name mt') bo' ms) by (eapply well_named_distinct; destruct S as [_ S]; exact S).
    pose proof (structure_own_maps _ _ _ _ _ _ _ _ _ _ C DT) as F.
    rewrite structure_size in N. destruct ms as [|m0 ms0]; [congruence|].
    destruct (lin_cases orc (m_name mt') bo' _ attrs F _ _ _ L N) as [(K & cs & T & PC & ->)|(T & _)].
    + rewrite Z.add_0_l. eapply lin_sizes; eauto.
    + unfold struct_op in OP. rewrite T in OP. discriminate.
  - apply bind_ok in C. destruct C as (df & D & C).
    apply bind_ok in C. destruct C as (b & B & C). destruct members; [discriminate|].
    apply bind_ok in C. destruct C as (entries & G & C). inversion C; subst. exact I.
Qed.

Lemma all_tidy orc d m : everywhere sound d -> create orc d None = Ok (Some m) -> all_maps tidy m.
Proof.
  intros E C. eapply (created_all orc (everywhere sound)); eauto.
  - intros. eapply created_tidy; eauto.
  - now apply everywhere_everywhere.
Qed.

Definition hints (orc : oracle) (attrs : list (string * option dmap)) :=
  map (fun x => match snd x with Some y => Some (hint orc y) | None => None end) attrs.

Lemma prim_loop orc attrs :
  (forall a, In a attrs -> exists p q, snd a = Some (MPrim p q)) ->
  Forall (fun a => on_opt (all_maps steady) (snd a)) attrs ->
  forall size sub, exists k, hint_loop (hints orc attrs) size sub = Ok k /\ size <= k /\
    forall ks, Forall2 (fun a k => exists p q, snd a = Some (MPrim p q) /\ get_byte_size p = Some k) attrs ks ->
      k = size + fold_right Z.add 0 ks.
Proof.
  induction attrs as [|a attrs IH]; intros L S size sub.
  - exists size. split; [reflexivity|]. split; [lia|]. intros ks F. inversion F; subst. cbn. lia.
  - inversion S as [|? ? S1 S2]; subst.
    destruct (L a) as (p & q & E); [now left|]. unfold hints. cbn [map hint_loop]. rewrite E. cbn [hint fst].
    rewrite E in S1. cbn in S1. destruct S1 as [S1 _].
    destruct (get_byte_size p) as [n|] eqn:G.
    + destruct (S1 n eq_refl) as [N _].
      destruct (IH (fun a I => L a (or_intror I)) S2 (size + n) (ctx_new [])) as (k & K1 & K2 & K3).
      exists k. split; [exact K1|]. split; [lia|]. intros ks F. inversion F; subst.
      destruct H1 as (p' & q' & E' & G'). rewrite E in E'. inversion E'; subst. rewrite (K3 _ H3). cbn. assert (n = y) by congruence. lia.
    + exists size. split; [reflexivity|]. split; [lia|]. intros ks F. inversion F; subst.
      destruct H1 as (p' & q' & E' & G'). rewrite E in E'. inversion E'; subst. congruence.
Qed.

(** What is bound in the first namespace is bound in the second. *)
Definition within (w vals : env) : Prop :=
  forall k v, dict_get k (ns w) = Some v -> dict_get k (ns vals) = Some v.

Lemma within_nil vals : within [] vals.
Proof. intros k v. rewrite !ns_get. destruct (String.eqb k "__builtins__"); auto. discriminate. Qed.

Lemma measure_within orc fixed expr w vals n : monotone_eval orc -> within w vals ->
  measure orc fixed expr w n -> measure orc fixed expr vals n.
Proof.
  intros MO W [H|(H & x & E & N & D)]; [now left|]. right. split; auto. exists x. split; auto. split; auto.
  assert (NE : o_eval orc x (ns w) <> EvExc) by (destruct D as [(-> & _)|(b & -> & _)]; discriminate).
  rewrite (MO x (ns w) (ns vals) W NE). exact D.
Qed.

(** A stream or string of which nothing is known yet. *)
Lemma stream_fresh orc e ed em h0 size w : steady (MStream e ed em) -> tidy (MStream e ed em) -> leaf (MStream e ed em) ->
  exists r, fst (hint_elems orc e ed h0 size (Some (ctx_new w))) = Ok r /\
  forall h, r = Some h -> 0 <= h /\
    (narrow (MStream e ed em) -> monotone_eval orc -> forall fuel bs o vals depth v n, within w vals -> 0 <= o ->
       maps orc fuel (MStream e ed em) bs o vals depth v n -> h <= n).
Proof.
  intros [SB ST] (T1 & T2 & T3) LF. cbn [leaf] in LF. unfold hint_elems. cbn [opt_bind ctx_new c_byte_size ctx_state c_state st_empty s_elements_data_size truthy_Z ctx_values c_values s_elements_data_offset s_number_of_elements opt_default].
  destruct (has_data_size e) eqn:HD.
  { assert (NU : ~ unsized_stream e ed) by (intros [U _]; congruence).
    assert (HN : has_number e = false) by (destruct T1; congruence).
    assert (NN : e_number e = None) by (unfold has_number in HN; destruct (e_number e); [discriminate|reflexivity]).
    assert (SZ : forall fuel bs o vals depth v n, 0 <= o -> maps orc fuel (MStream e ed em) bs o vals depth v n ->
        measure orc (e_data_size e) (e_data_size_expr e) vals n).
    { intros fuel bs o vals depth v n Ho Mp.
      apply (proj1 (stream_sized orc fuel e ed em bs o vals depth Ho SB NU)) in Mp. destruct Mp as ([[_ M]|[M _]] & _); [exact M|congruence]. }
    unfold elems_byte_size. rewrite NN. cbn [truthy_Z].
    destruct (truthy_Z (e_data_size e)) as [n|] eqn:DS.
    - apply truthy_Z_some in DS. destruct DS as [DS DN]. exists (Some n). split; [reflexivity|]. intros h H. inversion H; subst h.
      specialize (T2 n DS). split; [lia|]. intros _ _ fuel bs o vals depth v k W Ho Mp. apply SZ in Mp; [|exact Ho].
      assert (measure orc (e_data_size e) (e_data_size_expr e) vals n) by (left; rewrite DS; repeat split; lia).
      rewrite (measure_det _ _ _ _ _ _ Mp H0). lia.
    - cbn [fst]. destruct (eval_data_size_spec orc e w) as (A & B & D).
      destruct (eval_data_size orc e w) as [n|x|] eqn:EV.
      + exists (Some n). split; [reflexivity|]. intros h H. inversion H; subst h.
        assert (M : measure orc (e_data_size e) (e_data_size_expr e) w n) by now apply A.
        split; [eapply measure_nonneg; exact M|]. intros _ MO fuel bs o vals depth v k W Ho Mp. apply SZ in Mp; [|exact Ho].
        rewrite (measure_det _ _ _ _ _ _ Mp (measure_within _ _ _ w vals _ MO W M)). lia.
      + rewrite (B x eq_refl). exists None. split; [reflexivity|]. discriminate.
      + congruence. }
  unfold has_terminator. destruct (e_terminator e) as [t|] eqn:T; cbn [is_some].
  { destruct (ST t eq_refl) as (b & -> & G & L). rewrite G. cbn [fst]. exists (Some (0 + len b)). split; [reflexivity|].
    intros h H. inversion H; subst h. split; [lia|]. intros NW _ fuel bs o vals depth v n W Ho Mp.
    cbn in NW. rewrite T in NW. destruct NW as [NW _]; [discriminate|].
    assert (UN : unsized_stream e ed) by (split; auto).
    pose proof (proj1 (proj1 (stream_terminated orc fuel e ed em b bs o vals depth Ho UN T G L) v n) Mp) as (k & F & -> & _).
    destruct F as (F & _). nia. }
  destruct (has_number e) eqn:HN.
  2:{ exists None. split; [reflexivity|]. discriminate. }
  destruct (LF eq_refl) as (b & G & B).
  assert (TB : truthy_Z (get_byte_size ed) = Some b) by (apply truthy_Z_some; split; [auto|lia]).
  pose proof (eval_number_spec orc e (Some (ctx_new w))) as (A & R & D). cbn [ctx_values c_values ctx_new] in A.
  destruct (eval_number orc e (Some (ctx_new w))) as [r c1] eqn:EV. cbn [fst] in *.
  destruct r as [n|x|].
  - rewrite TB. cbn [fst]. exists (Some (n * b)). split; [reflexivity|]. intros h H. inversion H; subst h.
    assert (M : measure orc (e_number e) (e_number_expr e) w n) by now apply A.
    pose proof (measure_nonneg _ _ _ _ _ M). split; [nia|]. intros _ MO fuel bs o vals depth v k W Ho Mp.
    assert (NU : ~ unsized_stream e ed) by (intros [_ [U|U]]; congruence).
    apply (proj1 (stream_sized orc fuel e ed em bs o vals depth Ho SB NU)) in Mp.
    destruct Mp as ([[M' _]|[_ (j & b' & G' & M' & ->)]] & _); [congruence|].
    rewrite (measure_det _ _ _ _ _ _ M' (measure_within _ _ _ w vals _ MO W M)). assert (b' = b) by congruence. subst. lia.
  - rewrite (R x eq_refl). exists None. split; [reflexivity|]. discriminate.
  - congruence.
Qed.

Lemma leaf_fresh orc x off size w : all_maps steady x -> tidy x -> leaf x -> aligned off x ->
  exists r, fst (hint orc x size (Some (ctx_new w))) = Ok r /\
  forall h, r = Some h -> 0 <= h /\
    (narrow x -> monotone_eval orc -> forall fuel bs o vals depth v n, within w vals -> 0 <= o ->
       maps orc fuel x bs o vals depth v n -> size <= o - off -> size + h <= o + n - off).
Proof.
  intros SA TI LF AL. pose proof (all_maps_here _ _ SA) as ST.
  destruct x; try contradiction.
  - cbn [hint fst]. exists (get_byte_size d). split; [reflexivity|]. intros h G. split; [destruct (ST h G); lia|].
    intros _ _ fuel bs o vals depth v n W Ho (c' & M' & K). cbn [mapbs] in M'. unfold map_prim in M'. rewrite G in M'.
    destruct (_ <? _); [discriminate|]. destruct (match op with Some _ => _ | None => _ end); inversion M'; subst. cbn in K. inversion K. lia.
  - cbn [hint fst]. exists (get_byte_size d). split; [reflexivity|]. intros h G. split; [specialize (ST h G); lia|].
    intros _ _ fuel bs o vals depth v n W Ho (c' & M' & K). cbn [mapbs] in M'. unfold map_uuid in M'. rewrite G in M'.
    destruct (_ <? _); [discriminate|]. destruct (match dt_byte_order d with Some _ => _ | None => _ end); inversion M'; subst. cbn in K. inversion K. lia.
  - destruct ST as (mt & bo & a & -> & A). cbn [hint]. unfold hint_padding. cbn [opt_bind ctx_new c_byte_size fst].
    destruct (Z.eqb_spec a 0) as [|_]; [lia|]. exists (Some (padding_size a size)). split; [reflexivity|].
    intros h H. inversion H; subst h. split; [now apply padding_nonneg|].
    intros _ _ fuel bs o vals depth v n W Ho (c' & M' & K) L. cbn [mapbs] in M'. unfold map_padding in M'.
    destruct (Z.eqb_spec a 0) as [|_]; [lia|]. destruct (_ <? _); [discriminate|]. inversion M'; subst. cbn in K. inversion K; subst.
    cbn [aligned] in AL.
    rewrite (padding_same a o (o - off)) by (try lia; replace (o - (o - off)) with off by lia; exact AL).
    pose proof (padding_monotone a size (o - off) A L). lia.
  - destruct linear; [|contradiction]. destruct TI as (TT & T1 & T2 & T3). cbn [leaf] in LF. cbn [steady] in ST.
    cbn [hint]. unfold hint_elems. cbn [opt_bind ctx_new c_byte_size ctx_state c_state st_empty s_elements_data_size truthy_Z ctx_values c_values s_elements_data_offset s_number_of_elements opt_default].
    assert (SZ : forall fuel bs o vals depth v n, maps orc fuel (MSequence true e ed em op) bs o vals depth v n ->
        elems_byte_size e (get_byte_size ed) = Some n).
    { intros fuel bs o vals depth v n (c' & M' & K). cbn [mapbs] in M'. unfold map_seq_linear in M'.
      destruct (elems_byte_size e (get_byte_size ed)) as [k|]; [|discriminate].
      destruct (_ <? _); [discriminate|]. destruct op; [|discriminate]. destruct em as [[]|]; try discriminate.
      destruct (read_from _ _); try discriminate. destruct (map_values _ _); cbn in M'; inversion M'; subst. cbn in K. congruence. }
    destruct (has_data_size e) eqn:HD.
    { destruct (elems_byte_size e (get_byte_size ed)) as [n|] eqn:G.
      - exists (Some n). split; [reflexivity|]. intros h H. inversion H; subst h. destruct (ST n eq_refl). split; [lia|].
        intros _ _ fuel bs o vals depth v k W Ho Mp L. apply SZ in Mp. assert (n = k) by congruence. lia.
      - destruct (eval_data_size_spec orc e w) as (A & B & D). cbn [fst].
        destruct (eval_data_size orc e w) as [n|y|] eqn:EV.
        + exists (Some n). split; [reflexivity|]. intros h H. inversion H; subst h.
          assert (M : measure orc (e_data_size e) (e_data_size_expr e) w n) by now apply A.
          split; [eapply measure_nonneg; exact M|]. intros _ _ fuel bs o vals depth v k W Ho Mp L. apply SZ in Mp. congruence.
        + rewrite (B y eq_refl). exists None. split; [reflexivity|]. discriminate.
        + congruence. }
    unfold has_terminator. rewrite TT. cbn [is_some].
    destruct (has_number e) eqn:HN.
    2:{ exists None. split; [reflexivity|]. discriminate. }
    destruct (LF eq_refl) as (b & G & B).
    assert (TB : truthy_Z (get_byte_size ed) = Some b) by (apply truthy_Z_some; split; [auto|lia]).
    assert (DS : truthy_Z (e_data_size e) = None) by (unfold has_data_size in HD; destruct (e_data_size e); [discriminate|reflexivity]).
    unfold elems_byte_size in SZ. rewrite DS, TB in SZ.
    pose proof (eval_number_spec orc e (Some (ctx_new w))) as (A & R & D). cbn [ctx_values c_values ctx_new] in A.
    destruct (eval_number orc e (Some (ctx_new w))) as [r c1] eqn:EV. cbn [fst] in *.
    destruct r as [n|y|].
    + rewrite TB. cbn [fst]. exists (Some (n * b)). split; [reflexivity|]. intros h H. inversion H; subst h.
      assert (M : measure orc (e_number e) (e_number_expr e) w n) by now apply A.
      pose proof (measure_nonneg _ _ _ _ _ M). split; [nia|]. intros _ _ fuel bs o vals depth v k W Ho Mp L. apply SZ in Mp.
      destruct (truthy_Z (e_number e)) as [q|] eqn:Q; [|discriminate]. apply truthy_Z_some in Q. destruct Q as [Q QN].
      assert (measure orc (e_number e) (e_number_expr e) w q).
      { left. rewrite Q. pose proof (T3 q Q). repeat split; lia. }
      rewrite (measure_det _ _ _ _ _ _ M H1) in *. inversion Mp. lia.
    + rewrite (R y eq_refl). exists None. split; [reflexivity|]. discriminate.
    + congruence.
  - cbn [hint]. destruct (stream_fresh orc e ed em (match em with Some x => Some (hint orc x) | None => None end) size w ST TI LF) as (r & H1 & H2).
    exists r. split; [exact H1|]. intros h Hh. destruct (H2 h Hh) as [H3 H4]. split; auto.
    intros NW MO fuel bs o vals depth v n W Ho Mp L. pose proof (H4 NW MO _ _ _ _ _ _ _ W Ho Mp). lia.
  - cbn [hint]. destruct (stream_fresh orc e ed em (match em with Some x => Some (hint orc x) | None => None end) size w ST TI LF) as (r & H1 & H2).
    exists r. split; [exact H1|]. intros h Hh. destruct (H2 h Hh) as [H3 H4]. split; auto.
    intros NW MO fuel bs o vals depth v n W Ho Mp L.
    assert (BT : byte_terminator (e_terminator e)).
    { destruct ST as [_ ST]. destruct (e_terminator e); cbn; auto. destruct (ST p eq_refl) as (b & -> & _ & Lb). eauto. }
    apply (proj1 (string_layout orc fuel e ed em bs o vals depth BT)) in Mp.
    destruct Mp as (l & q & w0 & Mp & _). pose proof (H4 NW MO _ _ _ _ _ _ _ W Ho Mp). lia.
  - destruct linear; [|contradiction]. cbn [leaf] in LF. destruct LF as [CN LF]. apply all_maps_attrs in SA. destruct SA as [_ SA].
    destruct (prim_loop orc attrs LF SA 0 (ctx_new [(cls, new_struct cls (map fst attrs) [])])) as (k & K1 & K2 & K3).
    exists (Some k). split.
    + cbn [hint]. unfold hint_struct. cbn [opt_bind ctx_new c_byte_size ctx_state c_state st_empty s_attribute_index s_mapped_values s_context s_members_data_size opt_default fst].
      rewrite (struct_values_new _ _ _ CN) by reflexivity. cbn iota beta.
      change (Z.to_nat 0) with O. cbn [skipn]. change (type_name (new_struct cls (map fst attrs) [])) with cls.
      unfold hints, ctx_new in K1. unfold ctx_new. rewrite K1. reflexivity.
    + intros h H. inversion H; subst h. split; [lia|].
      intros _ _ fuel bs o vals depth v n W Ho (c' & M' & K) L. cbn [mapbs] in M'. unfold map_struct_linear in M'.
      cbn [tidy] in TI. destruct (get_byte_size d) as [z|] eqn:G; [|discriminate].
      destruct (_ <? _); [discriminate|]. destruct op as [op|]; [|discriminate].
      destruct (TI _ _ eq_refl eq_refl) as (ks & F & N). pose proof (K3 _ F).
      destruct (read_from _ _); try discriminate. cbn [bind] in M'. destruct (linear_values _ _ _); try discriminate. cbn [bind] in M'.
      rewrite (instance_clear _ _ _ CN) in M'. inversion M'; subst. cbn in K. inversion K; subst. lia.
Qed.

(** *** The structure *)

Lemma maps_within orc fuel x bs o vals depth v n : extensional orc -> all_maps steady x -> 0 <= o <= len bs ->
  maps orc fuel x bs o vals depth v n -> 0 <= n /\ o + n <= len bs.
Proof.
  intros X SA Ho Mp. destruct (steady_contained orc x X SA fuel bs o vals depth Ho) as [CT _].
  destruct (CT _ _ Mp) as (r & RA & RB & _). lia.
Qed.

Lemma uncond_false orc d e : unconditional d -> condition_is orc d e false -> False.
Proof. unfold unconditional. intros U H. apply condition_spec in H. unfold eval_condition in H. rewrite U in H. discriminate. Qed.

Lemma combine_snd {A B} (l : list A) : forall (l' : list B), List.length l = List.length l' -> map snd (combine l l') = l'.
Proof. induction l; destruct l'; cbn; intros H; try discriminate; auto. f_equal. apply IHl. lia. Qed.

(** *** Reading by hints *)

Lemma leaf_ends orc x : steady x -> leaf x -> ends orc x.
Proof.
  intros S L. destruct x; try contradiction.
  - apply prim_ends.
  - apply uuid_ends.
  - now apply padding_ends.
  - destruct linear; [apply linear_seq_ends|contradiction].
  - now apply stream_ends.
  - now apply string_ends.
  - destruct linear; [apply linear_struct_ends|contradiction].
Qed.

Lemma maps_deep orc fuel m b off vals depth v c : extensional orc ->
  mapbs orc fuel m b off (Some (ctx_new vals)) depth = (Ok v, c) ->
  exists n, maps orc fuel m b off vals depth v n.
Proof.
  intros X M. destruct (fresh orc fuel m b off (ctx_new vals) depth vals X eq_refl (same_values_refl _)) as [_ F].
  rewrite M in F. destruct (F v eq_refl) as (k & c' & Mp & _). eauto.
Qed.
