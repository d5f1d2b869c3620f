(** Size hints of nested structures and of sequences. *)
From Coq Require Import String List ZArith Bool Lia.
From Verif Require Import Base PyVal PyStruct DataTypes ClassFactory DataMaps
  BytesProofs SpecPrim PrimProofs SpecMap SpecCreate MapProofs ContextProofs StructProofs CreateProofs
  ContainerProofs SeqProofs LinearProofs StreamProofs FixedProofs SteadyProofs WindowProofs SpecFold FoldProofs
  SpecResume ResumeProofs SeqResumeProofs FuelProofs GroupProofs SpecHint HintProofs.
Import ListNotations.
Open Scope Z_scope.
Arguments Z.pow : simpl never.
Arguments Z.mul : simpl never.
Arguments Z.div : simpl never.
Arguments Z.modulo : simpl never.

(** The hint after the member did not fit. *)
Definition short (orc : oracle) (off : Z) (x : dmap) : Prop :=
  forall fuel bs e size c0 c vals depth,
  0 <= e <= len bs -> c_state c0 = st_empty -> same_values (c_values c0) vals -> size = e - off ->
  mapbs orc fuel x bs e (Some c0) depth = (Raise ByteStreamTooSmallError, Some c) ->
  exists h, fst (hint orc x size (Some c)) = Ok (Some h) /\ len bs - e < h /\
    (frugal x -> monotone_eval orc -> unhidden (map fst vals) x ->
     forall s v n, maps orc fuel x (bs ++ s) e vals depth v n -> h <= n).

(** The hint before the member was tried. *)
Definition untried (orc : oracle) (off : Z) (x : dmap) : Prop :=
  forall size w, exists r, fst (hint orc x size (Some (ctx_new w))) = Ok r /\
  forall h, r = Some h -> 0 <= h /\
    (frugal x -> monotone_eval orc -> forall fuel bs o vals depth v n,
       unhidden (map fst vals) x -> within w vals -> 0 <= o <= len bs ->
       maps orc fuel x bs o vals depth v n -> size <= o - off -> size + h <= o + n - off).

Lemma leaf_frugal x : leaf x -> frugal x -> narrow x.
Proof. destruct x; cbn; auto; destruct linear; auto; contradiction. Qed.

Lemma leaf_short_ok orc off x : extensional orc -> all_maps steady x -> leaf x -> aligned off x -> short orc off x.
Proof.
  intros X SA LF AL fuel bs e size c0 c vals depth He C V -> M.
  destruct (leaf_short orc fuel x bs off e (e - off) c0 c vals depth X (all_maps_here _ _ SA) LF He C V
    (conj AL eq_refl) M) as (h & H1 & H2 & H3).
  exists h. split; auto. split; auto. intros FR _ _. apply H3. now apply leaf_frugal.
Qed.

Lemma leaf_untried orc off x : all_maps steady x -> tidy x -> leaf x -> aligned off x -> untried orc off x.
Proof.
  intros SA TI LF AL size w. destruct (leaf_fresh orc x off size w SA TI LF AL) as (r & R1 & R2).
  exists r. split; auto. intros h Hh. destruct (R2 h Hh) as [H1 H2]. split; auto.
  intros FR MO fuel bs o vals depth v n _ W Ho Mp L. eapply H2; eauto; [now apply leaf_frugal|lia].
Qed.

(** *** Sequences of elements of a fixed size *)

Lemma solid_takes orc x b : solid x -> map_byte_size x = Some b ->
  (forall fuel bs o vals depth v n, maps orc fuel x bs o vals depth v n -> n = b) /\
  (forall fuel bs o vals depth, fails orc fuel x bs o vals depth ByteStreamTooSmallError -> len bs - o < b).
Proof.
  intros S G. destruct x; try contradiction; cbn [map_byte_size] in G.
  - split.
    + intros fuel bs o vals depth v n (c' & M & K). cbn [mapbs] in M. unfold map_prim in M. rewrite G in M.
      destruct (_ <? _); [discriminate|]. destruct (match op with Some _ => _ | None => _ end); inversion M; subst. cbn in K. congruence.
    + intros fuel bs o vals depth F. unfold fails in F. cbn [mapbs] in F. unfold map_prim in F. rewrite G in F.
      destruct (Z.ltb_spec (len bs - o) b); [lia|]. exfalso.
      destruct (match op with Some _ => _ | None => _ end); discriminate.
  - split.
    + intros fuel bs o vals depth v n (c' & M & K). cbn [mapbs] in M. unfold map_uuid in M. rewrite G in M.
      destruct (_ <? _); [discriminate|]. destruct (match dt_byte_order d with Some _ => _ | None => _ end); inversion M; subst. cbn in K. congruence.
    + intros fuel bs o vals depth F. unfold fails in F. cbn [mapbs] in F. unfold map_uuid in F. rewrite G in F.
      destruct (Z.ltb_spec (len bs - o) b); [lia|]. exfalso.
      destruct (match dt_byte_order d with Some _ => _ | None => _ end); discriminate.
  - destruct linear; [|contradiction]. split.
    + intros fuel bs o vals depth v n (c' & M & K). cbn [mapbs] in M. unfold map_struct_linear in M. rewrite G in M.
      destruct (_ <? _); [discriminate|]. destruct (match op with Some _ => _ | None => _ end); inversion M; subst. cbn in K. congruence.
    + intros fuel bs o vals depth F. unfold fails in F. cbn [mapbs] in F. unfold map_struct_linear in F. rewrite G in F.
      destruct (Z.ltb_spec (len bs - o) b); [lia|]. exfalso.
      destruct (match op with Some _ => _ | None => _ end); discriminate.
Qed.

Lemma solid_elements orc fuel x b bs depth : solid x -> map_byte_size x = Some b ->
  forall vs o e, elements orc fuel x bs depth o vs e -> e = o + len vs * b.
Proof.
  intros S G vs. destruct (solid_takes orc x b S G) as [T _].
  induction vs as [|v vs IH]; intros o e H; inversion H; subst.
  - change (len (@nil pyval)) with 0. lia.
  - rewrite len_cons.
    match goal with M : maps _ _ _ _ _ _ _ _ _ |- _ => apply T in M; subst end.
    match goal with Q : elements _ _ _ _ _ _ vs _ |- _ => apply IH in Q; subst end. lia.
Qed.

(** What governs a sequence of elements of [b] bytes. *)
Lemma bounds_of orc e ed b vals number size term : get_byte_size ed = Some b -> 0 < b ->
  fst (seq_bounds orc e ed (Some (ctx_new vals))) = Ok (number, size, term) ->
  (has_data_size e = true /\ exists z, 0 <= z /\ number = Some (z / b) /\ size = Some z /\ term = None) \/
  (has_data_size e = false /\ size = None /\
    ((has_terminator e = true /\ number = None /\ term = e_terminator e) \/
     (has_terminator e = false /\ has_number e = true /\ term = None /\
      exists k, number = Some k /\ measure orc (e_number e) (e_number_expr e) vals k))).
Proof.
  intros G B. unfold seq_bounds. destruct (has_data_size e).
  - cbn [fst ctx_values ctx_new c_values]. destruct (eval_data_size_spec orc e vals) as (A & _ & _).
    destruct (eval_data_size orc e vals) as [z| |]; cbn [bind]; try discriminate. rewrite G.
    destruct (Z.eqb_spec b 0); [lia|]. intros E. inversion E; subst. left. split; auto. exists z.
    split; [|auto]. eapply measure_nonneg. now apply A.
  - destruct (has_terminator e) eqn:T.
    + cbn [fst]. destruct (e_terminator e) as [t|] eqn:ET; [|discriminate]. intros E. inversion E; subst.
      right. auto 6.
    + destruct (has_number e); [|discriminate]. pose proof (eval_number_spec orc e (Some (ctx_new vals))) as (A & _ & _).
      cbn [ctx_values c_values ctx_new] in A. cbn [ctx_new] in A.
      destruct (eval_number orc e (Some (ctx_new vals))) as [[k| |] c']; cbn [fst bind] in *; try discriminate.
      intros E. inversion E; subst. right. split; auto. split; auto. right. repeat split; auto. exists k. split; auto. now apply A.
Qed.

Lemma walk_before orc fuel x bs depth number size term off vs n k b : solid x -> map_byte_size x = Some b ->
  walk orc fuel x bs depth number size term off vs n -> 0 <= k < len vs -> number <> Some k.
Proof.
  intros SO G [E W] K. subst.
  assert (S : vs = firstn (Z.to_nat k) vs ++ skipn (Z.to_nat k) vs) by (symmetry; apply firstn_skipn).
  assert (L : len (firstn (Z.to_nat k) vs) = k) by (unfold len in *; rewrite firstn_length; lia).
  rewrite S in E. apply elements_prefix in E. destruct E as (e1 & E1 & _).
  pose proof (solid_elements orc fuel x b bs depth SO G _ _ _ E1) as Q. rewrite L in Q. subst e1.
  intros ->. eapply (W _ _ (k * b) S); [|exact E1|].
  - intros H. apply (f_equal (@List.length pyval)) in H. rewrite skipn_length in H. cbn in H. unfold len in *. lia.
  - left. now rewrite L.
Qed.

(** What is left in the context of a sequence that was too short. *)
Lemma seq_stopped orc fuel e ed x op b bs off vals depth c0 c : extensional orc ->
  all_maps steady (MSequence false e ed (Some x) op) -> solid x -> map_byte_size x = Some b ->
  get_byte_size ed = Some b -> 0 < b ->
  0 <= off <= len bs -> c_state c0 = st_empty -> same_values (c_values c0) vals ->
  mapbs orc fuel (MSequence false e ed (Some x) op) bs off (Some c0) depth = (Raise ByteStreamTooSmallError, Some c) ->
  depth <= 10 /\ exists number size term vs,
    fst (seq_bounds orc e ed (Some (ctx_new vals))) = Ok (number, size, term) /\ term <> Some VNone /\
    walk orc fuel x bs depth number size term off vs (len vs * b) /\
    ~ accepted number size term vs (len vs * b) /\
    len bs - off < len vs * b + b /\
    c_byte_size c = None /\ s_elements_data_size (c_state c) = size /\
    s_elements_data_offset (c_state c) = Some (len vs * b) /\ s_number_of_elements (c_state c) = number.
Proof.
  intros X SA SO G GE B Ho C V M.
  pose proof (all_maps_here _ _ SA) as ST. cbn [steady] in ST. destruct ST as [real real2].
  assert (SX : all_maps steady x) by (destruct SA as [_ SA]; exact SA).
  assert (D : depth <= 10).
  { cbn [mapbs] in M. unfold map_seq in M. destruct (Z.ltb_spec max_depth depth) as [D|D]; [discriminate|]. unfold max_depth in D. lia. }
  split; [exact D|].
  cbn [mapbs] in M. unfold map_seq in M.
  destruct (Z.ltb_spec max_depth depth) as [H|_]; [unfold max_depth in H; lia|].
  destruct (bounds_state orc e ed c0) as (c1 & Q & CS). pose proof (bounds_same orc e ed c0 vals X V) as BS.
  pose proof (bounds_not_short orc e ed (Some c0)) as BN.
  destruct (seq_bounds orc e ed (Some c0)) as [r c'] eqn:EB. cbn [fst snd] in *. subst c'.
  destruct r as [[[number size] term]|x0|]; [|inversion M; subst; congruence|discriminate].
  symmetry in BS.
  exists number, size, term.
  cbn [ctx_state] in M. rewrite CS, C in M.
  cbn [st_empty s_element_index s_elements_data_offset s_mapped_values s_context opt_default] in M.
  set (s0 := mkSeq off 0 0 VNone [] (ctx_new [])) in *.
  assert (NN : nonnegative orc x).
  { intros fu b0 o vs dp v n Hb Mp. destruct (maps_within _ _ _ _ _ _ _ _ _ X SX Hb Mp). lia. }
  assert (I0 : inv orc fuel x bs depth number size term off s0 [] 0).
  { constructor; cbn; auto.
    - apply walk_nil.
    - lia.
    - apply same_values_refl. }
  pose proof (seq_loop_spec orc X fuel x bs depth number size term off (proj1 Ho) NN fuel s0 [] 0 I0 ltac:(congruence)) as S.
  pose proof (bounds_of orc e ed b vals number size term GE B BS) as BO.
  assert (REAL : term <> Some VNone).
  { destruct BO as [(_ & z & _ & _ & _ & ->)|(_ & _ & [(_ & _ & ->)|(_ & _ & -> & _)])]; auto; discriminate. }
  pose proof (bounds_shape orc e ed (Some (ctx_new vals)) number size term BS) as shape.
  assert (SZ : forall vs n, walk orc fuel x bs depth number size term off vs n -> n = len vs * b).
  { intros vs n [E _]. apply (solid_elements orc fuel x b bs depth SO G) in E. lia. }
  destruct (solid_takes orc x b SO G) as [_ SF].
  destruct (seq_loop fuel (Some (mapbs orc fuel x)) bs number size term depth s0) as [s|s|s|]; try discriminate.
  - destruct S as (vs & n & I & S & _). destruct I as [W VV XX DD OO L CC U].
    revert DD OO. pose proof (SZ _ _ W). subst n. intros DD OO. exists vs.
    assert (FIN : (Raise ByteStreamTooSmallError, on_state (seq_save number size s) (option_map (set_byte_size None) (Some c1))) =
        (@Raise pyval ByteStreamTooSmallError, Some c) /\
      ~ accepted number size term vs (len vs * b) /\ len bs <= off + len vs * b).
    { rewrite XX, L in M.
      destruct shape as [[-> N2]|[N1 ->]].
      - destruct term as [t|]; [|congruence].
        destruct (negb (py_eq (last vs VNone) t) && match size with Some n0 => q_doff s <? n0 | None => true end) eqn:Q1; [|discriminate].
        split; [exact M|].
        apply andb_true_iff in Q1. destruct Q1 as [Q1 Q2]. apply negb_true_iff in Q1.
        assert (NC : ~ complete None size (Some t) vs (len vs * b)).
        { intros [A|[(z & A & A')|(t' & A & A1 & A2)]].
          - discriminate.
          - rewrite A in Q2. apply Z.ltb_lt in Q2. lia.
          - congruence. }
        split; [exact NC|]. destruct S as [S|S]; [contradiction|exact S].
      - destruct number as [k|]; [|congruence]. cbn [andb] in M.
        destruct (Z.eqb_spec (len vs) k) as [E|E]; cbn [negb] in M; [discriminate|].
        split; [exact M|]. split; [cbn; exact E|].
        destruct S as [[S|[(z & SS & S)|(t & S & _)]]|S]; try congruence.
        exfalso. destruct BO as [(_ & z' & Z0 & Z1 & Z2 & _)|(_ & BO & _)]; [|congruence].
        rewrite SS in Z2. inversion Z2; subst z'. inversion Z1; subst k.
        pose proof (len_nonneg vs). pose proof (Z.div_pos z b Z0 B).
        assert (z / b <= len vs) by (apply Z.div_le_upper_bound; lia).
        apply (walk_before _ _ _ _ _ _ _ _ _ _ _ (z / b) b SO G W ltac:(lia)). reflexivity. }
    clear M. destruct FIN as (M & F2 & F3). cbn [on_state option_map] in M. inversion M; subst c.
    split; [exact BS|]. split; [exact REAL|]. split; [exact W|]. split; [exact F2|]. split; [lia|].
    cbn. rewrite DD. auto.
  - destruct S as (vs & n & W & NC & L & F & T & DD). revert DD. pose proof (SZ _ _ W). subst n. intros DD. exists vs.
    cbn [on_state option_map] in M. inversion M; subst c.
    split; [exact BS|]. split; [exact REAL|]. split; [exact W|]. split; [intros A; apply NC; eapply accepted_complete; exact A|].
    apply SF in F. split; [lia|]. cbn. rewrite DD. auto.
Qed.

Lemma seq_takes orc fuel e ed x op b bs off vals depth v n : extensional orc ->
  all_maps steady (MSequence false e ed (Some x) op) -> solid x -> map_byte_size x = Some b ->
  get_byte_size ed = Some b -> 0 < b -> 0 <= off <= len bs ->
  maps orc fuel (MSequence false e ed (Some x) op) bs off vals depth v n ->
  depth <= 10 /\ exists number size term vs,
    fst (seq_bounds orc e ed (Some (ctx_new vals))) = Ok (number, size, term) /\
    walk orc fuel x bs depth number size term off vs n /\ accepted number size term vs n /\ n = len vs * b.
Proof.
  intros X SA SO G GE B Ho Mp. pose proof (all_maps_here _ _ SA) as ST. cbn [steady] in ST. destruct ST as [real real2].
  assert (SX : all_maps steady x) by (destruct SA as [_ SA]; exact SA).
  pose proof Mp as (c & M & K). cbn [mapbs] in M. unfold map_seq in M.
  destruct (Z.ltb_spec max_depth depth) as [D|D]; [discriminate|]. unfold max_depth in D. split; [lia|].
  destruct (seq_bounds orc e ed (Some (ctx_new vals))) as [r c'] eqn:EB.
  destruct r as [[[number size] term]|x0|]; try discriminate. exists number, size, term. clear M.
  assert (BS : fst (seq_bounds orc e ed (Some (ctx_new vals))) = Ok (number, size, term)) by now rewrite EB.
  assert (NN : nonnegative orc x).
  { intros fu b0 o vs dp v0 n0 Hb Mp0. destruct (maps_within _ _ _ _ _ _ _ _ _ X SX Hb Mp0). lia. }
  assert (REAL : term <> Some VNone).
  { destruct (bounds_of orc e ed b vals number size term GE B BS) as [(_ & z & _ & _ & _ & ->)|(_ & _ & [(_ & _ & ->)|(_ & _ & -> & _)])]; auto; discriminate. }
  destruct (sequence_layout orc fuel x bs depth number size term off e ed op vals X (proj1 Ho) NN REAL BS ltac:(lia)) as [SL _].
  apply SL in Mp. destruct Mp as (vs & -> & W & A & _). exists vs. split; [reflexivity|]. split; [exact W|]. split; [exact A|].
  destruct W as [E _]. apply (solid_elements orc fuel x b bs depth SO G) in E. lia.
Qed.

Lemma seq_short orc off e ed x op b : extensional orc ->
  all_maps steady (MSequence false e ed (Some x) op) -> solid x -> map_byte_size x = Some b ->
  get_byte_size ed = Some b -> 0 < b -> short orc off (MSequence false e ed (Some x) op).
Proof.
  intros X SA SO G GE B fuel bs o size c0 c vals depth Ho C V _ M.
  destruct (seq_stopped orc fuel e ed x op b bs o vals depth c0 c X SA SO G GE B Ho C V M)
    as (D & number & sz & term & vs & BS & REAL & W & NA & L & C1 & C2 & C3 & C4).
  assert (SX : all_maps steady x) by (destruct SA as [_ SA']; exact SA').
  assert (TB : truthy_Z (get_byte_size ed) = Some b) by (apply truthy_Z_some; split; [auto|lia]).
  pose proof (len_nonneg vs) as LV.
  cbn [hint]. unfold hint_elems. cbn [opt_bind ctx_state]. rewrite C1, C2, C3, C4.
  destruct (bounds_of orc e ed b vals number sz term GE B BS) as
    [(HD & z & Z0 & -> & -> & ->)|(HD & -> & [(HT & -> & ->)|(HT & HN & -> & k & -> & MS)])].
  - cbn [accepted] in NA.
    assert (LT : len vs < z / b).
    { destruct (Z.lt_trichotomy (len vs) (z / b)) as [H|[H|H]]; [exact H|contradiction|].
      exfalso. apply (walk_before _ _ _ _ _ _ _ _ _ _ _ (z / b) b SO G W); [|reflexivity].
      split; [apply Z.div_pos; lia|exact H]. }
    pose proof (Z.mul_div_le z b B). assert (0 < z) by nia.
    cbn [truthy_Z]. destruct (Z.eqb_spec z 0); [lia|]. exists z. split; [reflexivity|]. split; [nia|].
    intros FR. cbn in FR. destruct FR. congruence.
  - cbn [truthy_Z]. rewrite HD, HT, GE. cbn [opt_default fst]. exists (len vs * b + b). split; [reflexivity|]. split; [lia|].
    intros _ _ _ s v n Mp.
    assert (HO : 0 <= o <= len (bs ++ s)) by (rewrite len_app; pose proof (len_nonneg s); lia).
    destruct (seq_takes orc fuel e ed x op b (bs ++ s) o vals depth v n X SA SO G GE B HO Mp)
      as (_ & number' & sz' & term' & vs' & BS' & W' & A' & ->).
    rewrite BS in BS'. inversion BS'; subst number' sz' term'.
    pose proof (SeqResumeProofs.walk_grow orc X fuel x depth None None (e_terminator e) o (proj1 Ho) SX bs s vs _ (proj2 Ho) W) as WG.
    pose proof (accepted_complete _ _ _ _ _ A') as A2.
    destruct (walk_compare orc fuel x (bs ++ s) depth None None (e_terminator e) o _ _ _ _ WG W') as [[-> _]|[[H _]|[H N]]].
    + contradiction.
    + unfold len in *. nia.
    + contradiction.
  - cbn [truthy_Z]. rewrite HD, HT, HN, TB. cbn [fst]. exists (k * b). split; [reflexivity|].
    pose proof (measure_nonneg _ _ _ _ _ MS) as K0. cbn [accepted] in NA.
    assert (LT : len vs < k).
    { destruct (Z.lt_trichotomy (len vs) k) as [H|[H|H]]; [exact H|contradiction|].
      exfalso. apply (walk_before _ _ _ _ _ _ _ _ _ _ _ k b SO G W); [|reflexivity]. lia. }
    split; [nia|]. intros _ _ _ s v n Mp.
    assert (HO : 0 <= o <= len (bs ++ s)) by (rewrite len_app; pose proof (len_nonneg s); lia).
    destruct (seq_takes orc fuel e ed x op b (bs ++ s) o vals depth v n X SA SO G GE B HO Mp)
      as (_ & number' & sz' & term' & vs' & BS' & W' & A' & ->).
    rewrite BS in BS'. inversion BS'; subst number' sz' term'. cbn [accepted] in A'. subst k. lia.
Qed.

Lemma seq_untried orc off e ed x op b : extensional orc ->
  all_maps steady (MSequence false e ed (Some x) op) -> tidy (MSequence false e ed (Some x) op) -> solid x ->
  map_byte_size x = Some b -> get_byte_size ed = Some b -> 0 < b -> untried orc off (MSequence false e ed (Some x) op).
Proof.
  intros X SA (T1 & T2 & T3 & _) SO G GE B size w.
  assert (TB : truthy_Z (get_byte_size ed) = Some b) by (apply truthy_Z_some; split; [auto|lia]).
  cbn [hint]. unfold hint_elems. cbn [opt_bind ctx_new c_byte_size ctx_state c_state st_empty s_elements_data_size truthy_Z ctx_values c_values s_elements_data_offset s_number_of_elements opt_default].
  destruct (has_data_size e) eqn:HD.
  { assert (HN : has_number e = false) by (destruct T1; congruence).
    assert (NN : e_number e = None) by (unfold has_number in HN; destruct (e_number e); [discriminate|reflexivity]).
    unfold elems_byte_size. rewrite NN. cbn [truthy_Z].
    destruct (truthy_Z (e_data_size e)) as [n|] eqn:DS.
    - apply truthy_Z_some in DS. destruct DS as [DS DN]. exists (Some n). split; [reflexivity|]. intros h H. inversion H; subst h.
      specialize (T2 n DS). split; [lia|]. intros FR. cbn in FR. destruct FR. congruence.
    - cbn [fst]. destruct (eval_data_size_spec orc e w) as (A & R & D).
      destruct (eval_data_size orc e w) as [n|y|] eqn:EV.
      + exists (Some n). split; [reflexivity|]. intros h H. inversion H; subst h.
        assert (M : measure orc (e_data_size e) (e_data_size_expr e) w n) by now apply A.
        split; [eapply measure_nonneg; exact M|]. intros FR. cbn in FR. destruct FR. congruence.
      + rewrite (R y eq_refl). exists None. split; [reflexivity|]. discriminate.
      + congruence. }
  destruct (has_terminator e) eqn:HT.
  { rewrite GE. cbn [fst]. exists (Some (0 + b)). split; [reflexivity|]. intros h H. inversion H; subst h. split; [lia|].
    intros _ _ fuel bs o vals depth v n _ _ Ho Mp L.
    destruct (seq_takes orc fuel e ed x op b bs o vals depth v n X SA SO G GE B Ho Mp)
      as (_ & number & sz & term & vs & BS & W & A & ->).
    destruct (bounds_of orc e ed b vals number sz term GE B BS) as
      [(HD' & _)|(_ & -> & [(_ & -> & ->)|(HT' & _)])]; try congruence.
    cbn [accepted] in A. destruct A as [A|[(s & A & _)|(t & _ & A & _)]]; try discriminate.
    destruct vs as [|v0 vs]; [congruence|]. rewrite len_cons. pose proof (len_nonneg vs). nia. }
  destruct (has_number e) eqn:HN.
  2:{ exists None. split; [reflexivity|]. discriminate. }
  pose proof (eval_number_spec orc e (Some (ctx_new w))) as (A & R & D). cbn [ctx_values c_values ctx_new] in A. cbn [ctx_new] in A, R, D.
  destruct (eval_number orc e (Some (ctx_new w))) as [r c1] eqn:EV. cbn [fst ctx_new] in *. 
  destruct r as [n|y|].
  - unfold ctx_new in EV. rewrite TB. cbn [fst]. exists (Some (n * b)). split; [reflexivity|]. intros h H. inversion H; subst h.
    assert (M : measure orc (e_number e) (e_number_expr e) w n) by now apply A.
    pose proof (measure_nonneg _ _ _ _ _ M). split; [nia|]. intros _ MO fuel bs o vals depth v k _ W Ho Mp L.
    destruct (seq_takes orc fuel e ed x op b bs o vals depth v k X SA SO G GE B Ho Mp)
      as (_ & number & sz & term & vs & BS & _ & A' & ->).
    destruct (bounds_of orc e ed b vals number sz term GE B BS) as
      [(HD' & _)|(_ & -> & [(HT' & _)|(_ & _ & -> & k & -> & MS)])]; try congruence.
    cbn [accepted] in A'. rewrite A'.
    rewrite (measure_det _ _ _ _ _ _ MS (measure_within _ _ _ w vals _ MO W M)). lia.
  - rewrite (R y eq_refl). exists None. split; [reflexivity|]. discriminate.
  - congruence.
Qed.

(** *** Structures *)

Definition unhid_members (names : list string) (attrs : list (string * option dmap)) : Prop :=
  Forall (fun a => on_opt (unhidden names) (snd a)) attrs.

Lemma unhidden_attrs names d cls ms attrs op :
  unhidden names (MStructure false d cls ms attrs op) <-> ~ In cls names /\ unhid_members (names ++ [cls]) attrs.
Proof.
  cbn [unhidden]. apply and_iff_compat_l. unfold unhid_members.
  induction attrs as [|[n [x|]] l IH]; split; intros H; auto.
  - destruct H. constructor; [cbn; auto|tauto].
  - inversion H; subst. cbn in *. tauto.
  - constructor; [exact I|tauto].
  - inversion H; subst. tauto.
Qed.

Lemma frugal_attrs d cls ms attrs op :
  frugal (MStructure false d cls ms attrs op) <->
  (forall m, In m ms -> unconditional m) /\ Forall (fun a => on_opt frugal (snd a)) attrs.
Proof.
  cbn [frugal]. apply and_iff_compat_l.
  induction attrs as [|[n [x|]] l IH]; split; intros H; auto.
  - destruct H. constructor; [cbn; auto|tauto].
  - inversion H; subst. cbn in *. tauto.
  - constructor; [exact I|tauto].
  - inversion H; subst. tauto.
Qed.

Lemma hinted_attrs d cls ms attrs op :
  hinted (MStructure false d cls ms attrs op) <->
  clear_names cls (map fst attrs) /\ forall a, In a attrs -> exists x, snd a = Some x /\ hinted x.
Proof.
  cbn [hinted]. apply and_iff_compat_l.
  induction attrs as [|[n [x|]] l IH]; split; intros H; auto.
  - intros a [].
  - destruct H as [H1 H2]. intros a [<-|A]; [exists x; cbn; auto|]. exact (proj1 IH H2 a A).
  - split.
    + destruct (H _ (or_introl eq_refl)) as (y & E & Hy). cbn in E. inversion E; subst. exact Hy.
    + apply IH. intros a A. apply H. now right.
  - contradiction.
  - destruct (H _ (or_introl eq_refl)) as (y & E & _). discriminate.
Qed.

Lemma dict_get_none {A} k (l : list (string * A)) : ~ In k (map fst l) -> dict_get k l = None.
Proof.
  induction l as [|[k' v] l IH]; cbn; intros H; auto. destruct (String.eqb_spec k k'); [subst; tauto|].
  apply IH. tauto.
Qed.

Lemma within_scope cls s vals : ~ In cls (map fst vals) -> within [(cls, s)] (scope cls s vals).
Proof.
  intros N k v. unfold ns. rewrite !dict_get_set. destruct (String.eqb k "__builtins__"); auto.
  cbn [dict_get]. destruct (String.eqb_spec k cls); [subst|discriminate]. intros H.
  unfold scope. rewrite dict_get_app, (dict_get_none _ _ N). cbn. now rewrite String.eqb_refl.
Qed.

Lemma scope_names cls s vals : map fst (scope cls s vals) = map fst vals ++ [cls].
Proof. unfold scope. now rewrite map_app. Qed.

Lemma loop_untried orc off (l : list field) : extensional orc ->
  (forall f, In f l -> exists x, snd (snd f) = Some x /\ all_maps steady x /\ untried orc off x) ->
  forall size w, exists k, hint_loop (hints orc (map snd l)) size (ctx_new w) = Ok k /\ size <= k /\
    ((forall f, In f l -> on_opt frugal (snd (snd f)) /\ unconditional (fst f)) -> monotone_eval orc ->
     forall fuel cls vals bs depth s o s' e, 0 <= o <= len bs -> size <= o - off ->
       (forall f, In f l -> on_opt (unhidden (map fst vals ++ [cls])) (snd (snd f))) ->
       within w (scope cls s vals) ->
       fields orc fuel cls vals bs depth l s o s' e -> k <= e - off).
Proof.
  intros X. induction l as [|[d [name x]] l IH]; intros P size w.
  - exists size. split; [reflexivity|]. split; [lia|]. intros _ _ fuel cls vals bs depth s o s' e Ho L _ _ F. inversion F; subst. lia.
  - destruct (P _ (or_introl eq_refl)) as (x' & E & SA & UT). cbn in E. subst x. rename x' into x.
    destruct (UT size w) as (r & R1 & R2).
    unfold hints. cbn [map snd hint_loop]. rewrite R1. destruct r as [h|].
    + destruct (R2 h eq_refl) as [H1 H2].
      destruct (IH (fun f I => P f (or_intror I)) (size + h) []) as (k & K1 & K2 & K3).
      exists k. split; [exact K1|]. split; [lia|].
      intros Q MO fuel cls vals bs depth s o s' e Ho L UH WS F.
      destruct (Q _ (or_introl eq_refl)) as [FR UC]. cbn in FR, UC.
      pose proof (UH _ (or_introl eq_refl)) as UX. cbn in UX.
      inversion F; subst; try (exfalso; eapply uncond_false; eassumption).
      match goal with H : maps _ _ _ _ _ _ _ _ _ |- _ => rename H into Mp end.
      assert (UX' : unhidden (map fst (scope cls s vals)) x) by now rewrite scope_names.
      pose proof (H2 FR MO _ _ _ _ _ _ _ UX' WS Ho Mp L) as HH.
      pose proof (maps_within _ _ _ _ _ _ _ _ _ X SA Ho Mp) as WI.
      match goal with H : fields _ _ _ _ _ _ l _ _ _ _ |- _ => rename H into F' end.
      eapply (K3 (fun f I => Q f (or_intror I)) MO); [| | |apply within_nil|exact F']; [lia|lia|].
      intros f I. apply UH. now right.
    + exists size. split; [reflexivity|]. split; [lia|].
      intros Q MO fuel cls vals bs depth s o s' e Ho L UH WS F.
      assert (CT : Forall (fun f => on_opt (contained orc) (snd (snd f))) ((d, (name, Some x)) :: l)).
      { apply Forall_forall. intros f I. destruct (P f I) as (y & -> & SY & _). cbn. now apply steady_contained. }
      pose proof (fields_monotone _ _ _ _ _ _ _ _ _ _ _ [] F CT Ho). lia.
Qed.

(** The structure did not fit. *)
Lemma struct_short orc off d cls ms attrs op bs c0 c vals depth fuel size : extensional orc ->
  all_maps steady (MStructure false d cls ms attrs op) ->
  (forall a, In a attrs -> exists x, snd a = Some x /\ short orc off x /\ untried orc off x) ->
  0 <= off <= len bs -> c_state c0 = st_empty -> same_values (c_values c0) vals ->
  mapbs orc fuel (MStructure false d cls ms attrs op) bs off (Some c0) depth = (Raise ByteStreamTooSmallError, Some c) ->
  exists h, fst (hint orc (MStructure false d cls ms attrs op) size (Some c)) = Ok (Some h) /\ len bs - off < h /\
    (frugal (MStructure false d cls ms attrs op) -> monotone_eval orc -> unhid_members (map fst vals ++ [cls]) attrs ->
     forall s v n, maps orc fuel (MStructure false d cls ms attrs op) (bs ++ s) off vals depth v n -> h <= n).
Proof.
  intros X SA W Ho CE V M.
  pose proof (all_maps_here _ _ SA) as [SL SN].
  apply all_maps_attrs in SA. destruct SA as [_ SA].
  assert (DP : depth <= 10).
  { cbn [mapbs] in M. unfold map_struct in M. destruct (Z.ltb_spec max_depth depth) as [D|D]; [discriminate|]. unfold max_depth in D. lia. }
  assert (CN : clear_names cls (map fst attrs)).
  { destruct (clear_dec cls (map fst attrs)) as [CN|CN]; [exact CN|]. exfalso.
    destruct (fresh orc fuel (MStructure false d cls ms attrs op) bs off c0 depth vals X CE V) as [F _].
    rewrite M in F. cbn [fst] in F. rewrite (unclear_run _ _ _ _ _ _ _ _ _ _ _ CN DP) in F. inversion F as [Q].
    now destruct (constructor_not_small cls (map fst attrs)). }
  cbn [mapbs] in M. unfold map_struct in M.
  destruct (Z.ltb_spec max_depth depth) as [D|D]; [discriminate|].
  cbn [ctx_state] in M. rewrite CE in M.
  rewrite (struct_values_new _ _ _ CN) in M by reflexivity.
  cbn [st_empty s_attribute_index s_mapped_values s_context opt_default ctx_values] in M.
  rewrite attrs_of_fields, blank_new in M.
  assert (LL : len (map (attr_of orc fuel) (combine ms attrs)) <=? 0 = false).
  { apply Z.leb_gt. rewrite len_map. now apply combine_nonempty. }
  rewrite LL in M. change (Z.to_nat 0) with O in M. cbn [skipn] in M.
  pose proof (tail_spec orc fuel cls vals bs depth (combine ms attrs) X 0 (blank cls attrs) off 0
      (struct_subcontext (blank cls attrs) (c_values c0)) (like_new _ _ _ _ V) eq_refl) as T.
  destruct (struct_loop _ _ _ _ _ _) as [t|j t|ex t|]; try discriminate.
  2:{ cbn in T. destruct T as [-> _]. discriminate. }
  cbn in T. destruct T as (before & mem & name & x & after & e & sub0 & E & F & CC & J & L & Z & MM & TS).
  cbn [on_state option_map] in M. inversion M; subst c. clear M.
  assert (AT : attrs = map snd before ++ (name, Some x) :: map snd after).
  { rewrite <- (combine_snd ms attrs SL), E, map_app. reflexivity. }
  assert (MEM : forall f, In f (combine ms attrs) -> exists y, snd (snd f) = Some y /\ all_maps steady y /\ short orc off y /\ untried orc off y).
  { intros [d0 a0] I. pose proof (in_combine_r _ _ _ _ I) as I2. destruct (W a0 I2) as (y & Y & LF & AL). exists y. cbn.
    rewrite Forall_forall in SA. pose proof (SA _ I2) as S1. rewrite Y in S1. cbn in S1. auto. }
  assert (CT : Forall (fun f => on_opt (contained orc) (snd (snd f))) (combine ms attrs)).
  { apply Forall_forall. intros f I. destruct (MEM f I) as (y & -> & SY & _). cbn. now apply steady_contained. }
  assert (CB : Forall (fun f => on_opt (contained orc) (snd (snd f))) before).
  { rewrite E in CT. apply Forall_app in CT. tauto. }
  pose proof (fields_monotone _ _ _ _ _ _ _ _ _ _ _ [] F CB Ho) as [He _].
  destruct (MEM (mem, (name, Some x))) as (x' & X' & SX & SH & UT).
  { rewrite E. apply in_or_app. right. now left. }
  cbn in X'. inversion X'; subst x'. clear X'.
  assert (E1 : 0 <= e <= len bs) by lia.
  destruct (SH fuel bs e (t_size t) sub0 (t_sub t) _ (depth + 1) E1 Z (proj1 (proj2 L)) ltac:(lia) MM) as (h & H1 & H2 & H3).
  destruct (loop_untried orc off after X) with (size := t_size t + h) (w := @nil (string * pyval)) as (k & K1 & K2 & K3).
  { intros f I. destruct (MEM f) as (y & Y1 & Y2 & Y3 & Y4); [rewrite E; apply in_or_app; right; now right|eauto]. }
  exists k. split; [|split].
  - cbn [hint]. unfold hint_struct. cbn [opt_bind set_state set_byte_size c_byte_size c_state ctx_state struct_save s_attribute_index s_mapped_values s_context s_members_data_size opt_default fst].
    fold (hints orc attrs). rewrite J.
    assert (SK : skipn (Z.to_nat (0 + len before)) (hints orc attrs) = Some (hint orc x) :: hints orc (map snd after)).
    { rewrite AT. unfold hints. rewrite map_app. cbn [map snd]. rewrite skipn_app, skipn_all2.
      2:{ rewrite !map_length. unfold len. lia. }
      rewrite !map_length. replace (Z.to_nat (0 + len before) - List.length before)%nat with O by (unfold len; lia). reflexivity. }
    rewrite SK. cbn [hint_loop]. rewrite H1. unfold ctx_new in K1. unfold ctx_new. rewrite K1. reflexivity.
  - lia.
  - intros FR MO UH s v n Mp. apply frugal_attrs in FR. destruct FR as [UC FR].
    assert (AF : forall f, In f (combine ms attrs) -> on_opt frugal (snd (snd f)) /\ unconditional (fst f)).
    { intros [d0 a0] I. pose proof (in_combine_r _ _ _ _ I) as I2. pose proof (in_combine_l _ _ _ _ I) as I1. cbn.
      rewrite Forall_forall in FR. split; [exact (FR a0 I2)|auto]. }
    assert (AU : forall f, In f (combine ms attrs) -> on_opt (unhidden (map fst vals ++ [cls])) (snd (snd f))).
    { intros [d0 a0] I. pose proof (in_combine_r _ _ _ _ I) as I2. unfold unhid_members in UH. rewrite Forall_forall in UH.
      exact (UH a0 I2). }
    pose proof (proj1 (proj1 (structure_layout orc fuel d cls ms attrs op (bs ++ s) off vals depth X SL SN CN DP) v n) Mp) as FF.
    rewrite E in FF.
    pose proof (fields_monotone _ _ _ _ _ _ _ _ _ _ _ s F CB Ho) as [_ F'].
    pose proof (fields_prefix_det _ _ _ _ _ _ _ _ _ _ _ _ _ _ F' FF) as G.
    assert (IX : In (mem, (name, Some x)) (combine ms attrs)) by (rewrite E; apply in_or_app; right; now left).
    destruct (AF _ IX) as [NX UX]. pose proof (AU _ IX) as HX.
    cbn in NX, UX, HX. inversion G; subst; try (exfalso; eapply uncond_false; eassumption).
      match goal with H : maps _ _ _ _ _ _ _ _ _ |- _ => rename H into Mx end.
      match goal with H : fields _ _ _ _ _ _ after _ _ _ _ |- _ => rename H into Fa end.
      rewrite <- (scope_names cls (t_vals t)) in HX.
      pose proof (H3 NX MO HX s _ _ Mx) as Hn.
      assert (len bs <= len (bs ++ s)) by (rewrite len_app; pose proof (len_nonneg s); lia).
      assert (e <= len (bs ++ s)) by lia.
      pose proof (maps_within _ _ _ _ _ _ _ _ _ X SX (conj (Z.le_trans _ _ _ (proj1 Ho) (proj1 He)) H0) Mx) as WI.
      assert (K4 : k <= off + n - off).
      { eapply (K3 (fun f I => AF f ltac:(rewrite E; apply in_or_app; right; now right)) MO); [| | |apply within_nil|exact Fa]; [lia|lia|].
        intros f I. apply AU. rewrite E. apply in_or_app. right. now right. }
      lia.
Qed.

(** The structure was not tried. *)
Lemma struct_untried orc off d cls ms attrs op : extensional orc ->
  all_maps steady (MStructure false d cls ms attrs op) -> clear_names cls (map fst attrs) ->
  (forall a, In a attrs -> exists x, snd a = Some x /\ forall o, untried orc o x) ->
  untried orc off (MStructure false d cls ms attrs op).
Proof.
  intros X SA CN W size w.
  pose proof (all_maps_here _ _ SA) as [SL SN].
  apply all_maps_attrs in SA. destruct SA as [_ SA].
  assert (MEM : forall o f, In f (combine ms attrs) -> exists y, snd (snd f) = Some y /\ all_maps steady y /\ untried orc o y).
  { intros o [d0 a0] I. pose proof (in_combine_r _ _ _ _ I) as I2. destruct (W a0 I2) as (y & Y & LF). exists y. cbn.
    rewrite Forall_forall in SA. pose proof (SA _ I2) as S1. rewrite Y in S1. cbn in S1. auto. }
  destruct (loop_untried orc 0 (combine ms attrs) X (MEM 0) 0 [(cls, blank cls attrs)]) as (k & K1 & K2 & _).
  cbn [hint]. unfold hint_struct. cbn [opt_bind ctx_new c_byte_size ctx_state c_state st_empty s_attribute_index s_members_data_size s_context opt_default fst].
  rewrite (struct_values_new _ _ _ CN) by reflexivity. change (Z.to_nat 0) with O. cbn [skipn]. rewrite blank_new.
  fold (hints orc attrs). cbn [fst]. cbn [type_name blank]. fold (blank cls attrs). rewrite (combine_snd ms attrs SL) in K1.
  change (type_name (blank cls attrs)) with cls. unfold ctx_new in K1 |- *. rewrite K1. cbn [res_map].
  exists (Some k). split; [reflexivity|]. intros h H. inversion H; subst h. split; [lia|].
  intros FR MO fuel bs o vals depth v n UH _ Ho Mp L.
  apply frugal_attrs in FR. destruct FR as [UC FR]. apply unhidden_attrs in UH. destruct UH as [UN UH].
  assert (DP : depth <= 10).
  { destruct Mp as (c & M & _). cbn [mapbs] in M. unfold map_struct in M. destruct (Z.ltb_spec max_depth depth) as [D|D]; [discriminate|]. unfold max_depth in D. lia. }
  pose proof (proj1 (proj1 (structure_layout orc fuel d cls ms attrs op bs o vals depth X SL SN CN DP) v n) Mp) as FF.
  destruct (loop_untried orc o (combine ms attrs) X (MEM o) 0 [(cls, blank cls attrs)]) as (k' & K1' & _ & K3).
  rewrite (combine_snd ms attrs SL) in K1'. unfold ctx_new in K1'. rewrite K1 in K1'. inversion K1'; subst k'.
  assert (k <= o + n - o).
  { eapply K3; [|exact MO| | | |apply within_scope; exact UN|exact FF]; [|lia|lia|].
    - intros [d0 a0] I. pose proof (in_combine_r _ _ _ _ I) as I2. pose proof (in_combine_l _ _ _ _ I) as I1. cbn.
      rewrite Forall_forall in FR. split; [exact (FR a0 I2)|auto].
    - intros [d0 a0] I. pose proof (in_combine_r _ _ _ _ I) as I2. unfold unhid_members in UH. rewrite Forall_forall in UH.
      exact (UH a0 I2). }
  lia.
Qed.

(** *** Sequences of elements of different sizes *)

Lemma done_any orc fuel m b off c0 depth v c n off' :
  mapbs orc fuel m b off (Some c0) depth = (Ok v, Some c) -> c_byte_size c = Some n ->
  fst (hint orc m off' (Some c)) = Ok (Some n).
Proof.
  intros M N. destruct m; cbn [hint fst];
    try (unfold hint_padding, hint_elems, hint_struct, hint_group; cbn [opt_bind]; rewrite N; reflexivity).
  - cbn [mapbs] in M. unfold map_prim in M. destruct (get_byte_size d); [|discriminate].
    destruct (_ <? _); [discriminate|]. destruct (match op with Some _ => _ | None => _ end); inversion M; subst. cbn in N. congruence.
  - cbn [mapbs] in M. unfold map_uuid in M. destruct (get_byte_size d); [|discriminate].
    destruct (_ <? _); [discriminate|].
    destruct (match dt_byte_order d with Some _ => _ | None => _ end); inversion M; subst; cbn in N; congruence.
  - cbn [mapbs] in M. discriminate.
  - cbn [mapbs] in M. discriminate.
Qed.

(** The hint before an element was tried is positive, and so is the size of its values. *)
Definition positive (orc : oracle) (x : dmap) : Prop :=
  (forall size w, exists h, fst (hint orc x size (Some (ctx_new w))) = Ok (Some h) /\ 0 < h) /\
  (forall fuel bs o vals depth v n, 0 <= o <= len bs -> maps orc fuel x bs o vals depth v n -> 0 < n).

Lemma fixed_positive orc x b : (exists d op, x = MPrim d op /\ get_byte_size d = Some b) \/ (exists d, x = MUUID d /\ get_byte_size d = Some b) ->
  0 < b -> positive orc x.
Proof.
  intros E B.
  assert (G : map_byte_size x = Some b) by (destruct E as [(d & op & -> & G)|(d & -> & G)]; exact G).
  assert (SO : solid x) by (destruct E as [(d & op & -> & _)|(d & -> & _)]; exact I).
  split.
  - intros size w. exists b. split; auto. destruct E as [(d & op & -> & K)|(d & -> & K)]; cbn [hint fst]; now rewrite K.
  - intros fuel bs o vals depth v n _ Mp. apply (proj1 (solid_takes orc x b SO G)) in Mp. lia.
Qed.

Lemma ended_positive orc e ed em : steady (MStream e ed em) ->
  has_data_size e = false -> has_number e = false -> e_terminator e <> None ->
  positive orc (MStream e ed em) /\ positive orc (MString e ed em).
Proof.
  intros ST HD HN HT. pose proof ST as [SB S2]. destruct (e_terminator e) as [t|] eqn:T; [|congruence].
  destruct (S2 t eq_refl) as (b & -> & G & L).
  assert (P1 : forall size w, exists h, fst (hint_elems orc e ed (match em with Some x => Some (hint orc x) | None => None end) size (Some (ctx_new w))) = Ok (Some h) /\ 0 < h).
  { intros size w. unfold hint_elems. cbn [opt_bind ctx_new c_byte_size ctx_state c_state st_empty s_elements_data_size truthy_Z s_elements_data_offset opt_default].
    rewrite HD. unfold has_terminator. rewrite T. cbn [is_some]. rewrite G. cbn [fst]. exists (0 + len b). split; [reflexivity|lia]. }
  assert (P2 : forall fuel bs o vals depth v n, 0 <= o <= len bs -> maps orc fuel (MStream e ed em) bs o vals depth v n -> 0 < n).
  { intros fuel bs o vals depth v n Ho Mp. apply (stream_cases orc fuel e ed em) in Mp; [|lia|exact ST].
    destruct Mp as (_ & _ & _ & [[U _]|(_ & t & k & _ & P & (K & _) & ->)]); [|nia].
    exfalso. apply U. split; auto. }
  split; (split; [exact P1|]); [exact P2|].
  intros fuel bs o vals depth v n Ho Mp.
  assert (BT : byte_terminator (e_terminator e)) by (rewrite T; cbn; eauto).
  apply (proj1 (string_layout orc fuel e ed em bs o vals depth BT)) in Mp. destruct Mp as (l & r & w & Mp & _). eapply P2; eauto.
Qed.

Lemma opening_positive orc d cls m0 ms name x attrs op : extensional orc ->
  all_maps steady (MStructure false d cls (m0 :: ms) ((name, Some x) :: attrs) op) -> clear_names cls (map fst ((name, Some x) :: attrs)) ->
  unconditional m0 -> positive orc x ->
  (forall a, In a attrs -> exists x, snd a = Some x /\ forall o, untried orc o x) ->
  positive orc (MStructure false d cls (m0 :: ms) ((name, Some x) :: attrs) op).
Proof.
  intros X SA CN UC [P1 P2] W.
  pose proof (all_maps_here _ _ SA) as [SL SN].
  apply all_maps_attrs in SA. destruct SA as [_ SA].
  assert (SX : all_maps steady x) by (inversion SA; subst; auto).
  assert (MEM : forall f, In f (combine ms attrs) -> exists y, snd (snd f) = Some y /\ all_maps steady y /\ untried orc 0 y).
  { intros [d0 a0] I. pose proof (in_combine_r _ _ _ _ I) as I2. destruct (W a0 I2) as (y & Y & LF). exists y. cbn.
    inversion SA as [|? ? _ SA']; subst. rewrite Forall_forall in SA'. pose proof (SA' _ I2) as S1. rewrite Y in S1. cbn in S1. auto. }
  split.
  - intros size w. destruct (P1 0 [(cls, blank cls ((name, Some x) :: attrs))]) as (h & H1 & H2).
    destruct (loop_untried orc 0 (combine ms attrs) X MEM (0 + h) []) as (k & K1 & K2 & _).
    exists k. split; [|lia].
    cbn [hint]. unfold hint_struct. cbn [opt_bind ctx_new c_byte_size ctx_state c_state st_empty s_attribute_index s_members_data_size s_context opt_default fst].
    rewrite (struct_values_new _ _ _ CN) by reflexivity. change (Z.to_nat 0) with O. cbn [skipn]. rewrite blank_new.
    cbn [fst]. change (type_name (blank cls ((name, Some x) :: attrs))) with cls.
    cbn [map snd hint_loop]. unfold ctx_new in *. rewrite H1.
    rewrite (combine_snd ms attrs) in K1 by (cbn in SL; lia). fold (hints orc attrs). rewrite K1. reflexivity.
  - intros fuel bs o vals depth v n Ho Mp.
    assert (DP : depth <= 10).
    { destruct Mp as (c & M & _). cbn [mapbs] in M. unfold map_struct in M. destruct (Z.ltb_spec max_depth depth) as [D|D]; [discriminate|]. unfold max_depth in D. lia. }
    pose proof (proj1 (proj1 (structure_layout orc fuel d cls _ _ op bs o vals depth X SL SN CN DP) v n) Mp) as FF.
    cbn [combine] in FF. inversion FF; subst; try (exfalso; eapply uncond_false; eassumption).
    match goal with H : maps _ _ x _ _ _ _ _ _ |- _ => rename H into Mx end.
    match goal with H : fields _ _ _ _ _ _ (combine ms attrs) _ _ _ _ |- _ => rename H into Fa end.
    pose proof (P2 _ _ _ _ _ _ _ Ho Mx) as PX.
    pose proof (maps_within _ _ _ _ _ _ _ _ _ X SX Ho Mx) as WI.
    assert (CT : Forall (fun f => on_opt (contained orc) (snd (snd f))) (combine ms attrs)).
    { apply Forall_forall. intros f I. destruct (MEM f I) as (y & -> & SY & _). cbn. now apply steady_contained. }
    pose proof (fields_monotone _ _ _ _ _ _ _ _ _ _ _ [] Fa CT ltac:(lia)). lia.
Qed.

Definition readied (orc : oracle) (x : dmap) (bs : bytes) (off : Z) (s : seqst) : Prop :=
  c_state (q_sub s) = st_empty /\ same_values (c_values (q_sub s)) [] /\ q_off s = off + q_doff s /\ 0 <= q_off s <= len bs /\
  exists h, fst (hint orc x 0 (Some (q_sub s))) = Ok (Some h) /\ 0 < h.

(** What the loop leaves behind when it stops. *)
Lemma loop_readied orc fuel x bs off number term depth : extensional orc -> all_maps steady x -> positive orc x -> (forall o, short orc o x) ->
  forall k s, readied orc x bs off s ->
  match seq_loop k (Some (mapbs orc fuel x)) bs number None term depth s with
  | LDone s' => readied orc x bs off s' /\
      (len bs <= q_off s' \/ opt_eqZ number (q_index s') = true \/ is_term term (q_last s') = true)
  | LTooSmall s' => q_off s' = off + q_doff s' /\
      exists h, fst (hint orc x 0 (Some (q_sub s'))) = Ok (Some h) /\ len bs - q_off s' < h
  | _ => True
  end.
Proof.
  intros X SX [_ P2] SH. induction k as [|k IH]; intros s R; cbn [seq_loop]; [exact I|].
  pose proof R as (C & V & O & B & _).
  rewrite is_empty_slice_from by lia. destruct (Z.leb_spec (len bs) (q_off s)) as [L|L]; [auto|].
  destruct (opt_eqZ number (q_index s)) eqn:N; [auto|]. cbn [opt_leZ].
  destruct (fresh orc fuel x bs (q_off s) (q_sub s) (depth + 1) [] X C V) as [F1 F2].
  pose proof (mapbs_keeps orc fuel x bs (q_off s) (Some (q_sub s)) (depth + 1)) as K.
  destruct (mapbs orc fuel x bs (q_off s) (Some (q_sub s)) (depth + 1)) as [[v|ex|] c'] eqn:EQ; cbn [fst snd] in *; [| |exact I].
  - destruct (F2 v eq_refl) as (j & c2 & M & Hc & Hb & Hs & Hv & _). subst c'. cbn [opt_default]. rewrite Hb.
    pose proof (P2 _ _ _ _ _ _ _ B M) as J. pose proof (maps_within _ _ _ _ _ _ _ _ _ X SX B M) as WI.
    assert (R' : readied orc x bs off (mkSeq (q_off s + j) (q_index s + 1) (q_doff s + j) v (q_vals s ++ [v]) c2)).
    { repeat split; cbn; auto; try lia.
      - destruct Hv as [-> | ->]; auto. eapply same_values_trans; [|exact V]. apply same_values_ns.
      - exists j. split; [eapply done_any; [exact EQ|exact Hb]|exact J]. }
    destruct (is_term term v) eqn:IT; [|exact (IH _ R')]. split; [exact R'|]. right. right. exact IT.
  - destruct c' as [c'|]; [|cbn in K; tauto]. destruct ex; try exact I. cbn [opt_default q_set_sub q_off q_doff q_sub].
    split; [exact O|].
    destruct (SH (q_off s) fuel bs (q_off s) 0 (q_sub s) c' [] (depth + 1) B C V ltac:(lia) EQ) as (h & H1 & H2 & _). eauto.
Qed.

Lemma varying_short orc off e ed x op : extensional orc ->
  all_maps steady (MSequence false e ed (Some x) op) -> get_byte_size ed = None -> has_data_size e = false ->
  positive orc x -> (forall o, short orc o x) -> short orc off (MSequence false e ed (Some x) op).
Proof.
  intros X SA GE HD PO SH fuel bs o size c0 c vals depth Ho C V _ M.
  assert (SX : all_maps steady x) by (destruct SA as [_ SA']; exact SA').
  cbn [mapbs] in M. unfold map_seq in M. destruct (_ <? _); [discriminate|].
  destruct (bounds_state orc e ed c0) as (c1 & Q & CS).
  pose proof (bounds_not_short orc e ed (Some c0)) as BN.
  assert (BO : forall number sz term, fst (seq_bounds orc e ed (Some c0)) = Ok (number, sz, term) ->
    sz = None /\ (has_terminator e = true /\ number = None \/
                 has_terminator e = false /\ has_number e = true /\ number <> None /\ term = None)).
  { intros number sz term. unfold seq_bounds. rewrite HD. destruct (has_terminator e); cbn [fst].
    - destruct (e_terminator e); intros E; inversion E; auto.
    - destruct (has_number e); [|discriminate]. destruct (eval_number orc e (Some c0)) as [[n|z|] y]; cbn; intros E; inversion E.
      split; auto. right. split; auto. split; auto. split; [discriminate|auto]. }
  destruct (seq_bounds orc e ed (Some c0)) as [r c'] eqn:EB. cbn [fst snd] in *. subst c'.
  destruct r as [[[number sz] term]|x0|]; [|inversion M; subst; congruence|discriminate].
  destruct (BO _ _ _ eq_refl) as [-> BD]. clear BO BN.
  cbn [ctx_state] in M. rewrite CS, C in M.
  cbn [st_empty s_element_index s_elements_data_offset s_mapped_values s_context opt_default] in M.
  set (s0 := mkSeq o 0 0 VNone [] (ctx_new [])) in *.
  assert (R0 : readied orc x bs o s0).
  { split; [reflexivity|]. split; [apply same_values_refl|]. split; [cbn; lia|]. split; [exact Ho|]. exact (proj1 PO 0 []). }
  pose proof (loop_readied orc fuel x bs o number term depth X SX PO SH fuel s0 R0) as S.
  assert (FIN : exists s h, (@Raise pyval ByteStreamTooSmallError, on_state (seq_save number None s) (option_map (set_byte_size None) (Some c1))) =
      (Raise ByteStreamTooSmallError, Some c) /\ q_off s = o + q_doff s /\ fst (hint orc x 0 (Some (q_sub s))) = Ok (Some h) /\ len bs - q_off s < h).
  { destruct (seq_loop fuel (Some (mapbs orc fuel x)) bs number None term depth s0) as [s|s|s|]; try discriminate.
    - destruct S as [(S1 & S2 & S3 & S4 & h & S5 & S6) S]. exists s, h.
      assert (L : len bs <= q_off s /\ (Raise ByteStreamTooSmallError, on_state (seq_save number None s) (option_map (set_byte_size None) (Some c1))) =
        (@Raise pyval ByteStreamTooSmallError, Some c)).
      { destruct number as [n|].
        - destruct BD as [[_ BD]|(_ & _ & _ & ->)]; [discriminate|]. cbn [opt_eqZ is_term] in S.
          destruct (q_index s =? n); cbn [negb andb] in M; [discriminate|].
          split; [|exact M]. destruct S as [S|[S|S]]; [exact S|discriminate|discriminate].
        - cbn [opt_eqZ] in S. destruct term as [t|]; cbn [andb] in M; [|discriminate].
          cbn [is_term] in S. destruct (py_eq (q_last s) t); cbn [negb andb] in M; [discriminate|].
          split; [|exact M]. destruct S as [S|[S|S]]; [exact S|discriminate|discriminate]. }
      destruct L as [L L']. split; [exact L'|]. split; [exact S3|]. split; [exact S5|lia].
    - destruct S as (S1 & h & S2 & S3). exists s, h. auto. }
  clear M S s0 R0. destruct FIN as (s & h & M & S1 & S2 & S3). cbn [on_state option_map] in M. inversion M; subst c. clear M.
  exists (q_doff s + h). split; [|split; [lia|]].
  - cbn [hint]. unfold hint_elems. cbn [opt_bind set_state set_byte_size c_byte_size c_state ctx_state seq_save s_elements_data_size s_number_of_elements truthy_Z].
    assert (E : fst (hint_element (Some (hint orc x)) (Some (set_state (seq_save number None s (c_state c1)) (set_byte_size None c1)))) = Ok (Some (q_doff s + h))).
    { unfold hint_element. cbn [ctx_state set_state c_state seq_save s_context s_elements_data_offset opt_default].
      destruct (hint orc x 0 (Some (q_sub s))) as [r y]. cbn [fst] in S2. subst r. reflexivity. }
    cbn [set_state set_byte_size c_state] in E.
    rewrite HD, GE. cbn [truthy_Z]. destruct BD as [[HT ->]|(HT & HN & NN & _)]; rewrite HT.
    + destruct (hint_element _ _) as [r y]. cbn [fst] in *. subst r. reflexivity.
    + rewrite HN. destruct number as [n|]; [|congruence]. destruct (hint_element _ _) as [r y]. cbn [fst] in *. subst r. reflexivity.
  - intros FR. cbn in FR. destruct FR. congruence.
Qed.

(** No context is as good as a new one. *)
Lemma hint_none orc x size : fst (hint orc x size None) = fst (hint orc x size (Some (ctx_new []))).
Proof.
  assert (E : forall e ed h, fst (hint_elems orc e ed h size None) = fst (hint_elems orc e ed h size (Some (ctx_new [])))).
  { intros e ed h. unfold hint_elems. cbn [opt_bind ctx_new c_byte_size ctx_state c_state ctx_values c_values].
    cbn [st_empty s_elements_data_size truthy_Z s_elements_data_offset s_number_of_elements opt_default].
    destruct (has_data_size e); [destruct (elems_byte_size _ _); reflexivity|].
    assert (EL : forall c, ctx_state c = st_empty -> fst (hint_element h c) = fst (hint_element h None)).
    { intros c C. unfold hint_element. rewrite C. destruct h as [h|]; [|reflexivity]. cbn [ctx_state st_empty s_context]. destruct (h 0 None). reflexivity. }
    destruct (has_terminator e).
    - destruct (get_byte_size ed); [reflexivity|]. pose proof (EL (Some (ctx_new [])) eq_refl) as Q. unfold ctx_new in Q.
      destruct (hint_element h None), (hint_element h (Some _)). cbn [fst] in *. now rewrite Q.
    - destruct (has_number e); [|reflexivity].
      assert (EN : exists r c1 c2, eval_number orc e None = (r, c1) /\ eval_number orc e (Some (ctx_new [])) = (r, c2) /\
        ctx_state c1 = st_empty /\ ctx_state c2 = st_empty).
      { unfold eval_number. destruct (truthy_Z (e_number e)); [eauto 8|]. destruct (truthy_str (e_number_expr e)); eauto 8. }
      destruct EN as (r & c1 & c2 & E1 & E2 & S1 & S2). rewrite E1, E2. destruct r as [n|y|]; [|destruct y; reflexivity|reflexivity].
      destruct (truthy_Z (get_byte_size ed)); [reflexivity|].
      pose proof (EL c1 S1) as Q1. pose proof (EL c2 S2) as Q2.
      destruct (hint_element h c1), (hint_element h c2). cbn [fst] in *. now rewrite Q1, Q2. }
  destruct x; cbn [hint]; try reflexivity; auto.
  - unfold hint_struct. cbn [opt_bind ctx_new c_byte_size ctx_state c_state st_empty s_attribute_index s_members_data_size s_context opt_default].
    destruct (struct_values _ _ _); reflexivity.
  - unfold hint_group. cbn [opt_bind ctx_new c_byte_size ctx_state c_state st_empty s_context s_member_identifier opt_default].
    destruct (match val_get _ _ with Some (Some _) => _ | _ => _ end) as [h|]; [|reflexivity]. destruct (h size _). reflexivity.
Qed.

Lemma varying_untried orc off e ed x op :
  get_byte_size ed = None -> has_data_size e = false ->
  positive orc x -> untried orc off (MSequence false e ed (Some x) op).
Proof.
  intros GE HD [PO _] size w.
  assert (FR : ~ frugal (MSequence false e ed (Some x) op)) by (intros [_ F]; congruence).
  cut (exists r, fst (hint orc (MSequence false e ed (Some x) op) size (Some (ctx_new w))) = Ok r /\ forall h, r = Some h -> 0 <= h).
  { intros (r & R1 & R2). exists r. split; auto. intros h Hh. split; [auto|]. intros F. contradiction. }
  cbn [hint]. unfold hint_elems. cbn [opt_bind ctx_new c_byte_size ctx_state c_state st_empty s_elements_data_size truthy_Z ctx_values c_values s_elements_data_offset s_number_of_elements opt_default].
  rewrite HD, GE. cbn [truthy_Z].
  assert (E : forall y, ctx_state y = st_empty -> exists h, fst (hint_element (Some (hint orc x)) y) = Ok (Some h) /\ 0 <= h).
  { intros y Y. unfold hint_element. rewrite Y. cbn [st_empty s_context s_elements_data_offset opt_default].
    destruct (PO 0 []) as (h & H1 & H2). rewrite <- hint_none in H1. destruct (hint orc x 0 None) as [r z]. cbn [fst] in H1. subst r.
    exists (0 + h). split; [reflexivity|lia]. }
  destruct (has_terminator e).
  - destruct (E (Some (ctx_new w)) eq_refl) as (h & H1 & H2). unfold ctx_new in H1. destruct (hint_element _ _) as [r z]. cbn [fst] in *. subst r.
    exists (Some h). split; [reflexivity|]. intros h' Q. inversion Q; subst. exact H2.
  - destruct (has_number e).
    2:{ exists None. split; [reflexivity|]. discriminate. }
    pose proof (eval_number_spec orc e (Some (ctx_new w))) as (_ & R & D).
    assert (S1 : ctx_state (snd (eval_number orc e (Some (ctx_new w)))) = st_empty).
    { unfold eval_number. destruct (truthy_Z _); [reflexivity|]. destruct (truthy_str _); reflexivity. }
    cbn [ctx_new] in R, D, S1.
    destruct (eval_number orc e _) as [r c1] eqn:EV. cbn [fst snd] in *.
    destruct r as [n|y|].
    + destruct (E c1 S1) as (h & H1 & H2). destruct (hint_element _ _) as [r z]. cbn [fst] in *. subst r.
      exists (Some h). split; [reflexivity|]. intros h' Q. inversion Q; subst. exact H2.
    + rewrite (R y eq_refl). exists None. split; [reflexivity|]. discriminate.
    + congruence.
Qed.





Lemma hinted_opens orc x : extensional orc -> all_maps steady x -> all_maps tidy x -> hinted x ->
  (forall off, short orc off x /\ untried orc off x) /\ (opens x -> positive orc x).
Proof.
  intros X. induction x using dmap_rect'; intros SA TA HI;
    pose proof (all_maps_here _ _ TA) as TI; pose proof (all_maps_here _ _ SA) as SH; try contradiction;
    try (split; [intros off; split; [apply leaf_short_ok; auto; exact I|apply leaf_untried; auto; exact I]|]).
  - intros (b & G & B). apply (fixed_positive orc _ b); eauto.
  - intros (b & G & B). apply (fixed_positive orc _ b); eauto.
  - split; [|intros []]. intros off. destruct l.
    + split; [apply leaf_short_ok; auto; exact I|apply leaf_untried; auto; exact I].
    + cbn [hinted] in HI. destruct HI as [((x & -> & SO) & b & GE & B)|(GE & HD & HI)].
      * assert (G : map_byte_size x = Some b).
        { cbn in TI. destruct TI as (_ & _ & _ & TI). rewrite (TI x eq_refl SO). exact GE. }
        split; [eapply seq_short|eapply seq_untried]; eauto.
      * destruct em as [x|]; [|contradiction]. destruct HI as [OP HI]. cbn [on_opt] in H.
        assert (SX : all_maps steady x) by (destruct SA as [_ SA']; exact SA').
        assert (TX : all_maps tidy x) by (destruct TA as [_ TA']; exact TA').
        destruct (H SX TX HI) as [H1 H2]. specialize (H2 OP).
        split; [apply varying_short; auto; intros o; apply H1|apply varying_untried; auto].
  - intros (A & B & C). now apply ended_positive.
  - intros (A & B & C). now apply (ended_positive orc e ed em).
  - destruct l.
    + split; [|intros []]. intros off. split; [apply leaf_short_ok; auto; exact I|apply leaf_untried; auto; exact I].
    + apply hinted_attrs in HI. destruct HI as [CN HI].
      pose proof SA as SA'. apply all_maps_attrs in SA'. destruct SA' as [_ SM].
      apply all_maps_attrs in TA. destruct TA as [_ TM].
      assert (MEM : forall a, In a attrs -> exists x, snd a = Some x /\ (forall o, short orc o x /\ untried orc o x) /\ (opens x -> positive orc x)).
      { intros a A. destruct (HI a A) as (x & E & Hx). exists x. split; auto.
        rewrite Forall_forall in H, SM, TM. pose proof (H a A) as P1. pose proof (SM a A) as P2. pose proof (TM a A) as P3.
        rewrite E in P1, P2, P3. cbn in P1, P2, P3. apply P1; auto. }
      split; [intros off; split|].
      * intros fuel bs e size c0 c vals depth He C V _ M.
        destruct (struct_short orc e d cls ms attrs op bs c0 c vals depth fuel size X SA) as (h & H1 & H2 & H3); auto.
        { intros a A. destruct (MEM a A) as (x & E & Q & _). exists x. split; auto. }
        exists h. split; auto. split; auto. intros FR MO UH. apply H3; auto. now apply unhidden_attrs in UH.
      * apply struct_untried; auto. intros a A. destruct (MEM a A) as (x & E & Q & _). exists x. split; auto. intros o. apply Q.
      * cbn [opens]. destruct ms as [|m0 ms]; [contradiction|]. destruct attrs as [|[name [x|]] attrs]; try contradiction. intros [UC OP].
        apply opening_positive; auto.
        -- destruct (MEM _ (or_introl eq_refl)) as (y & E & _ & Q). cbn in E. inversion E; subst y. auto.
        -- intros a A. destruct (MEM a (or_intror A)) as (y & E & Q & _). exists y. split; auto. intros o. apply Q.
Qed.

Lemma hinted_ok orc x : extensional orc -> all_maps steady x -> all_maps tidy x -> hinted x ->
  forall off, short orc off x /\ untried orc off x.
Proof. intros X SA TA HI. exact (proj1 (hinted_opens orc x X SA TA HI)). Qed.

Lemma at_short orc off m : extensional orc -> all_maps steady m -> all_maps tidy m -> hinted_at off m ->
  forall fuel bs size c0 c vals depth,
  0 <= off <= len bs -> c_state c0 = st_empty -> same_values (c_values c0) vals ->
  mapbs orc fuel m bs off (Some c0) depth = (Raise ByteStreamTooSmallError, Some c) ->
  exists h, fst (hint orc m size (Some c)) = Ok (Some h) /\ len bs - off < h /\
    (frugal m -> monotone_eval orc -> unhidden_inside (map fst vals) m ->
     forall s v n, maps orc fuel m (bs ++ s) off vals depth v n -> h <= n).
Proof.
  intros X SA TA HI fuel bs size c0 c vals depth Ho C V M.
  assert (OR : (exists d cls ms attrs op, m = MStructure false d cls ms attrs op) \/
               (hinted m /\ (unhidden_inside (map fst vals) m -> unhidden (map fst vals) m))).
  { destruct m; auto. destruct linear; [auto|]. left. eauto 6. }
  destruct OR as [(d & cls & ms & attrs & op & ->)|[HM UI]].
  - cbn [hinted_at] in HI.
    pose proof SA as SA'. apply all_maps_attrs in SA'. destruct SA' as [_ SM].
    apply all_maps_attrs in TA. destruct TA as [_ TM].
    destruct (struct_short orc off d cls ms attrs op bs c0 c vals depth fuel size X SA) as (h & H1 & H2 & H3); auto.
    + intros a A. destruct (HI a A) as (x & E & Hx). exists x. split; auto.
      rewrite Forall_forall in SM, TM. pose proof (SM a A) as P2. pose proof (TM a A) as P3. rewrite E in P2, P3. cbn in P2, P3.
      destruct Hx as [Hx|[L AL]]; [now apply hinted_ok|].
      split; [now apply leaf_short_ok|apply leaf_untried; auto; now apply all_maps_here in P3].
    + exists h. split; auto. split; auto. intros FR MO UH. apply H3; auto.
      unfold unhid_members. apply Forall_forall. intros a A. cbn [unhidden_inside] in UH.
      destruct (snd a) as [x|] eqn:E; cbn; auto. eapply UH; eauto.
  - destruct (proj1 (hinted_ok orc m X SA TA HM (off - size)) fuel bs off size c0 c vals depth Ho C V ltac:(lia) M)
      as (h & H1 & H2 & H3). eauto 6.
Qed.

(** C30 *)
Lemma nested_hint orc fuel d m b off vals depth c :
  extensional orc -> everywhere sound d -> create orc d None = Ok (Some m) -> hinted_at off m -> 0 <= off <= len b ->
  mapbs orc fuel m b off (Some (ctx_new vals)) depth = (Raise ByteStreamTooSmallError, Some c) ->
  exists h, fst (hint orc m 0 (Some c)) = Ok (Some h) /\ len b - off < h /\
    (frugal m -> unhidden_inside (map fst vals) m -> monotone_eval orc ->
     forall s v n, maps orc fuel m (b ++ s) off vals depth v n -> h <= n).
Proof.
  intros X S C HI Ho M.
  destruct (at_short orc off m X (all_steady _ _ _ S C) (all_tidy _ _ _ S C) HI fuel b 0 (ctx_new vals) c vals depth Ho
    eq_refl (same_values_refl _) M) as (h & H1 & H2 & H3). eauto 6.
Qed.

(** *** Structure groups *)

Lemma chosen_entry entries id y : chosen None entries id (Some y) -> exists k, In (k, Some y) entries.
Proof.
  intros [(bf & k & af & -> & _)|[_ H]]; [|discriminate]. exists k. apply in_or_app. right. now left.
Qed.

Lemma group_short orc fuel m b off vals depth c : extensional orc -> all_maps steady m -> all_maps tidy m ->
  group_of (hinted_at off) m -> no_default m -> 0 <= off <= len b ->
  mapbs orc fuel m b off (Some (ctx_new vals)) depth = (Raise ByteStreamTooSmallError, Some c) ->
  exists h, fst (hint orc m 0 (Some c)) = Ok (Some h) /\ len b - off < h /\
    (group_of (fun x => frugal x /\ unhidden_inside [] x) m -> monotone_eval orc ->
     forall s v n k, maps orc fuel m (b ++ s) off vals depth v n -> base_takes orc fuel m (b ++ s) off depth k ->
     h <= Z.max n k).
Proof.
  intros X SA TA GR ND Ho M. destruct m; try contradiction. cbn in ND. subst default. cbn [group_of] in GR.
  destruct GR as [(x & -> & Hx) GE].
  pose proof SA as SA'. apply all_maps_group in SA'. destruct SA' as (_ & S1 & _ & S3).
  apply all_maps_group in TA. destruct TA as (_ & T1 & _ & T3). cbn in S1, T1.
  set (m := MGroup d identifier (Some x) None maps) in *.
  pose proof M as M0. unfold m in M. cbn [mapbs] in M. unfold map_group in M.
  cbn [ctx_state ctx_new c_state st_empty s_member_identifier s_context opt_default] in M.
  fold (ctx_new []) in M.
  assert (NV : val_get VNone (map (fun y => (fst y, match snd y with Some z => Some (hint orc z) | None => None end)) maps) = None).
  { rewrite (val_get_map (fun o => match o with Some z => Some (hint orc z) | None => None end)).
    unfold val_get. destruct (find _ maps) as [[k0 y0]|] eqn:F; [|reflexivity]. apply find_some in F. destruct F as [I P].
    cbn in P. apply py_eq_none in P. destruct (GE _ I) as [Q _]. cbn in Q. contradiction. }
  pose proof (mapbs_keeps orc fuel x b off (Some (ctx_new [])) depth) as KP.
  destruct (mapbs orc fuel x b off (Some (ctx_new [])) depth) as [[bv|ex|] cb] eqn:EB; cbn [snd] in KP.
  3: discriminate.
  2:{ assert (ex = ByteStreamTooSmallError /\ c = set_state (upd_context (Some (opt_default (ctx_new []) cb)) st_empty) (ctx_new vals)) as [-> ->].
      { destruct ex; inversion M; auto. }
      destruct cb as [cb|]; [|cbn in KP; tauto].
      destruct (at_short orc off x X S1 T1 Hx fuel b 0 (ctx_new []) cb [] depth Ho eq_refl (same_values_refl _) EB) as (h & H1 & H2 & H3).
      exists h. split; [|split; [exact H2|]].
      - unfold m. cbn [hint]. unfold hint_group. cbn [opt_bind set_state ctx_new c_byte_size ctx_state c_state upd_context s_context s_member_identifier st_empty opt_default].
        rewrite NV. destruct (hint orc x 0 (Some cb)) as [r sub'] eqn:HH. cbn [fst] in *. exact H1.
      - intros [(x' & E & FR & UI) _] MO s v n k Mp (bv & Bp). inversion E; subst x'.
        pose proof (H3 FR MO UI s _ _ Bp). lia. }
  set (id := py_getattr bv identifier) in *.
  destruct (fresh orc fuel x b off (ctx_new []) depth [] X eq_refl (same_values_refl _)) as [_ FB]. rewrite EB in FB.
  destruct (FB bv eq_refl) as (kb & c2 & Bp & _). clear FB.
  assert (NN : id <> VNone) by (intros Q; rewrite Q in M; discriminate).
  assert (M' : map_group_member None
      (map (fun y => (fst y, match snd y with Some z => Some (mapbs orc fuel z) | None => None end)) maps) id b off
      (Some (set_state (upd_identifier (Some id) st_empty) (ctx_new vals))) depth = (Raise ByteStreamTooSmallError, Some c)).
  { rewrite <- M. destruct id; try congruence; reflexivity. }
  clear M. unfold map_group_member in M'.
  rewrite (val_get_map (fun o => match o with Some z => Some (mapbs orc fuel z) | None => None end)) in M'.
  cbn [ctx_state set_state c_state upd_identifier s_context st_empty opt_default] in M'.
  pose proof (chosen_find None maps id) as CH.
  destruct (val_get id maps) as [y|] eqn:VG; cbn [option_map] in M'; [|discriminate].
  destruct y as [y|]; [|discriminate].
  destruct (chosen_entry _ _ _ CH) as (ky & IY).
  destruct (GE _ IY) as (_ & y' & EY & Hy). cbn in EY. inversion EY; subst y'. clear EY.
  rewrite Forall_forall in S3, T3. pose proof (S3 _ IY) as SY. pose proof (T3 _ IY) as TY. cbn in SY, TY.
  pose proof (mapbs_keeps orc fuel y b off (Some (ctx_new [])) depth) as KY. 
  destruct (mapbs orc fuel y b off (Some (ctx_new [])) depth) as [[yv|ex|] cy] eqn:EM; cbn [snd] in KY; try discriminate.
  assert (ex = ByteStreamTooSmallError /\ exists cy', cy = Some cy' /\
     c = set_state (upd_context (Some cy') (upd_identifier (Some id) st_empty)) (ctx_new vals)) as (-> & cy' & -> & ->).
  { destruct cy as [cy|]; [|cbn in KY; tauto]. destruct ex; inversion M'; eauto. }
  destruct (at_short orc off y X SY TY Hy fuel b 0 (ctx_new []) cy' [] depth Ho eq_refl (same_values_refl _) EM) as (h & H1 & H2 & H3).
  exists h. split; [|split; [exact H2|]].
  - unfold m. cbn [hint]. unfold hint_group. cbn [opt_bind set_state ctx_new c_byte_size ctx_state c_state upd_context upd_identifier s_context s_member_identifier st_empty opt_default].
    rewrite (val_get_map (fun o => match o with Some z => Some (hint orc z) | None => None end)), VG. cbn [option_map].
    destruct (hint orc y 0 (Some cy')) as [r sub'] eqn:HH. cbn [fst] in *. exact H1.
  - intros [_ FE] MO s v n k Mp _.
    apply (proj1 (group_layout orc fuel d identifier (Some x) None maps (b ++ s) off vals depth X)) in Mp.
    destruct Mp as (id' & y' & (x' & bv' & n' & EX & Bp' & EI) & _ & CH' & My). inversion EX; subst x'. clear EX.
    assert (BG : SpecMap.maps orc fuel x (b ++ s) off [] depth bv kb).
    { destruct (steady_contained orc x X S1 fuel b off [] depth Ho) as [CM _]. destruct (CM _ _ Bp) as (r & RA & RB & _ & RW).
      apply RW; [left; rewrite len_app; pose proof (len_nonneg s); lia|apply WindowProofs.window_app; lia]. }
    destruct (maps_det _ _ _ _ _ _ _ _ _ _ _ BG Bp') as [<- _]. fold id in EI. subst id'.
    pose proof (chosen_unique _ _ _ _ _ CH CH') as Q. inversion Q; subst y'.
    destruct (FE _ IY) as (_ & y' & EY & FR & UI). cbn in EY. inversion EY; subst y'.
    pose proof (H3 FR MO UI s _ _ My). lia.
Qed.

Lemma group_hint orc fuel d m b off vals depth c :
  extensional orc -> everywhere sound d -> create orc d None = Ok (Some m) ->
  group_of (hinted_at off) m -> no_default m -> 0 <= off <= len b ->
  mapbs orc fuel m b off (Some (ctx_new vals)) depth = (Raise ByteStreamTooSmallError, Some c) ->
  exists h, fst (hint orc m 0 (Some c)) = Ok (Some h) /\ len b - off < h /\
    (group_of (fun x => frugal x /\ unhidden_inside [] x) m -> monotone_eval orc ->
     forall s v n k, maps orc fuel m (b ++ s) off vals depth v n -> base_takes orc fuel m (b ++ s) off depth k ->
     h <= Z.max n k).
Proof. intros. eapply group_short; eauto; [eapply all_steady|eapply all_tidy]; eauto. Qed.

(** *** Reading by hints *)

Lemma hinted_ends orc x : extensional orc -> all_maps steady x -> all_maps tidy x -> hinted x -> ends orc x.
Proof.
  intros X. induction x using dmap_rect'; intros SA TA HI; try (apply leaf_ends; [now apply all_maps_here in SA|exact HI]); try contradiction.
  - destruct l; [apply leaf_ends; [now apply all_maps_here in SA|exact HI]|].
    pose proof (all_maps_here _ _ TA) as (_ & _ & _ & TI).
    cbn [hinted] in HI. destruct HI as [((x & -> & SO) & b & GE & B)|(GE & HD & HI)].
    2:{ destruct em as [x|]; [|contradiction]. destruct HI as [OP HI]. cbn [on_opt] in H.
        assert (SX : all_maps steady x) by (destruct SA as [_ SA']; exact SA').
        assert (TX : all_maps tidy x) by (destruct TA as [_ TA']; exact TA').
        destruct (hinted_opens orc x X SX TX HI) as [_ PO]. specialize (PO OP). destruct PO as [_ PO].
        apply seq_ends; [exact X|now apply all_maps_here in SA|exact PO|now apply steady_contained|exact (H SX TX HI)]. }
    assert (G : map_byte_size x = Some b) by (rewrite (TI x eq_refl SO); exact GE).
    assert (SX : all_maps steady x) by (destruct SA as [_ SA']; exact SA').
    apply seq_ends; auto.
    + now apply all_maps_here in SA.
    + intros fuel bs off vals depth v n _ Mp. apply (proj1 (solid_takes orc x b SO G)) in Mp. lia.
    + cbn. now apply steady_contained.
    + cbn. destruct x; try contradiction; [apply prim_ends|apply uuid_ends|]. destruct linear; [apply linear_struct_ends|contradiction].
  - destruct l; [apply leaf_ends; [now apply all_maps_here in SA|exact HI]|].
    apply hinted_attrs in HI. destruct HI as [_ HI]. pose proof (all_maps_here _ _ SA) as S0.
    apply all_maps_attrs in SA. destruct SA as [_ SM]. apply all_maps_attrs in TA. destruct TA as [_ TM].
    rewrite Forall_forall in H, SM, TM.
    apply structure_ends; auto; apply Forall_forall; intros a A; destruct (HI a A) as (x & E & Hx);
      pose proof (H a A) as P1; pose proof (SM a A) as P2; pose proof (TM a A) as P3; rewrite E in *; cbn in *.
    + now apply steady_contained.
    + auto.
Qed.

Lemma at_ends orc off m : extensional orc -> all_maps steady m -> all_maps tidy m -> hinted_at off m -> ends orc m.
Proof.
  intros X SA TA HI.
  assert (OR : (exists d cls ms attrs op, m = MStructure false d cls ms attrs op) \/ hinted m).
  { destruct m; auto. destruct linear; [auto|]. left. eauto 6. }
  destruct OR as [(d & cls & ms & attrs & op & ->)|HM]; [|now apply hinted_ends].
  cbn [hinted_at] in HI. pose proof (all_maps_here _ _ SA) as S0.
  apply all_maps_attrs in SA. destruct SA as [_ SM]. apply all_maps_attrs in TA. destruct TA as [_ TM].
  rewrite Forall_forall in SM, TM.
  apply structure_ends; auto; apply Forall_forall; intros a A; destruct (HI a A) as (x & E & Hx);
    pose proof (SM a A) as P2; pose proof (TM a A) as P3; rewrite E in *; cbn in *.
  - now apply steady_contained.
  - destruct Hx as [Hx|[L _]]; [now apply hinted_ends|]. apply leaf_ends; auto. now apply all_maps_here in P2.
Qed.

Lemma reading_by orc fuel m b vals v n k N : extensional orc -> all_maps steady m -> ends orc m ->
  maps orc fuel m b 0 vals 0 v n -> (Z.to_nat (len b) < fuel)%nat -> 0 <= k <= len b -> n <= N <= len b ->
  (forall p s c, b = p ++ s ->
     mapbs orc fuel m p 0 (Some (ctx_new vals)) 0 = (Raise ByteStreamTooSmallError, Some c) ->
     exists h, fst (hint orc m 0 (Some c)) = Ok (Some h) /\ len p < h <= N) ->
  exists k', reads orc fuel m b vals k v k' /\ k <= k' <= Z.max k N.
Proof.
  intros X SA EN Mp FU Hk HN ST.
  pose proof (steady_contained orc m X SA) as CT.
  remember (Z.to_nat (N - k)) as g eqn:G. revert k Hk G.
  induction g as [g IH] using lt_wf_ind. intros k Hk G.
  assert (LP : len (prefix_of k b) = k) by (unfold prefix_of, len in *; rewrite firstn_length; lia).
  assert (SP : b = prefix_of k b ++ skipn (Z.to_nat k) b) by (symmetry; apply firstn_skipn).
  assert (H0 : 0 <= 0 <= len (prefix_of k b)) by lia.
  destruct (mapbs orc fuel m (prefix_of k b) 0 (Some (ctx_new vals)) 0) as [r c] eqn:M.
  assert (F : fst (mapbs orc fuel m (prefix_of k b) 0 (Some (ctx_new vals)) 0) = r) by now rewrite M.
  destruct r as [w|x|].
  - destruct (maps_deep _ _ _ _ _ _ _ _ _ X M) as (n' & Mp').
    destruct (CT fuel _ 0 vals 0 H0) as [CM _]. destruct (CM _ _ Mp') as (r & RA & RB & _ & RW).
    assert (Mb : maps orc fuel m b 0 vals 0 w n').
    { apply RW.
      - left. lia.
      - rewrite SP at 1. apply WindowProofs.window_app; lia. }
    destruct (maps_det _ _ _ _ _ _ _ _ _ _ _ Mb Mp) as [-> ->].
    exists k. split; [eapply reads_done; exact M|lia].
  - assert (x = ByteStreamTooSmallError \/ x <> ByteStreamTooSmallError) as [->|NE]
      by (destruct x; (left; reflexivity) || (right; discriminate)).
    + pose proof (mapbs_keeps orc fuel m (prefix_of k b) 0 (Some (ctx_new vals)) 0) as K. rewrite M in K. cbn [snd] in K.
      destruct c as [c|]; [|cbn in K; tauto].
      destruct (ST _ _ c SP M) as (h & H1 & H2).
      destruct (IH (Z.to_nat (N - h))) with (k := h) as (k' & R & B); [lia|lia|reflexivity|].
      exists k'. split; [eapply reads_more; eauto|lia].
    + exfalso. destruct (CT fuel _ 0 vals 0 H0) as [_ CF].
      specialize (CF x (skipn (Z.to_nat k) b) NE F). rewrite <- SP in CF. apply maps_fst in Mp. unfold fails in CF. congruence.
  - exfalso. revert F. apply EN; [lia|]. rewrite LP. lia.
Qed.

Lemma nested_reading orc fuel d m b vals v n k :
  extensional orc -> monotone_eval orc -> everywhere sound d -> create orc d None = Ok (Some m) ->
  hinted_at 0 m -> frugal m -> unhidden_inside (map fst vals) m ->
  maps orc fuel m b 0 vals 0 v n -> (Z.to_nat (len b) < fuel)%nat -> 0 <= k <= len b ->
  exists k', reads orc fuel m b vals k v k' /\ k <= k' <= Z.max k n.
Proof.
  intros X MO S C HI FR UH Mp FU Hk.
  pose proof (all_steady _ _ _ S C) as SA. pose proof (all_tidy _ _ _ S C) as TA.
  pose proof (maps_within _ _ _ _ _ _ _ _ _ X SA (conj (Z.le_refl 0) (len_nonneg b)) Mp) as WI.
  apply (reading_by orc fuel m b vals v n k n); auto; [eapply at_ends; eauto|lia|].
  intros p s c -> M.
  destruct (at_short orc 0 m X SA TA HI fuel p 0 (ctx_new vals) c vals 0 (conj (Z.le_refl 0) (len_nonneg p))
    eq_refl (same_values_refl _) M) as (h & H1 & H2 & H3).
  exists h. split; auto. specialize (H3 FR MO UH s v n Mp). lia.
Qed.

Lemma group_reading orc fuel d m b vals v n k j :
  extensional orc -> monotone_eval orc -> everywhere sound d -> create orc d None = Ok (Some m) ->
  group_of (hinted_at 0) m -> no_default m -> group_of (fun x => frugal x /\ unhidden_inside [] x) m ->
  maps orc fuel m b 0 vals 0 v n -> base_takes orc fuel m b 0 0 j ->
  (Z.to_nat (len b) < fuel)%nat -> 0 <= k <= len b ->
  exists k', reads orc fuel m b vals k v k' /\ k <= k' <= Z.max k (Z.max n j).
Proof.
  intros X MO S C HI ND FR Mp BT FU Hk.
  pose proof (all_steady _ _ _ S C) as SA. pose proof (all_tidy _ _ _ S C) as TA.
  pose proof (maps_within _ _ _ _ _ _ _ _ _ X SA (conj (Z.le_refl 0) (len_nonneg b)) Mp) as WI.
  assert (BJ : j <= len b /\ ends orc m).
  { destruct m; try contradiction. cbn in ND. subst default. destruct HI as [(x & -> & Hx) HE].
    apply all_maps_group in SA. destruct SA as (_ & S1 & _ & S3).
    apply all_maps_group in TA. destruct TA as (_ & T1 & _ & T3). cbn in S1, T1. destruct BT as (bv & Bp).
    pose proof (maps_within _ _ _ _ _ _ _ _ _ X S1 (conj (Z.le_refl 0) (len_nonneg b)) Bp). split; [lia|].
    apply group_ends; [cbn; eapply at_ends; eauto|exact I|].
    rewrite Forall_forall in *. intros a A. destruct (HE a A) as (_ & y & EY & Hy). pose proof (S3 a A) as SY. pose proof (T3 a A) as TY.
    rewrite EY in *. cbn in *. eapply at_ends; eauto. }
  destruct BJ as [BJ EN].
  apply (reading_by orc fuel m b vals v n k (Z.max n j)); auto; [lia|].
  intros p s c -> M.
  destruct (group_short orc fuel m p 0 vals 0 c X SA TA HI ND (conj (Z.le_refl 0) (len_nonneg p)) M) as (h & H1 & H2 & H3).
  exists h. split; auto. specialize (H3 FR MO s v n j Mp BT). lia.
Qed.

(** Without a bound on the hints. *)
Lemma reading_on orc fuel m b vals v n k : extensional orc -> all_maps steady m -> ends orc m ->
  maps orc fuel m b 0 vals 0 v n -> (Z.to_nat (len b) < fuel)%nat -> 0 <= k <= len b ->
  (forall p c, mapbs orc fuel m p 0 (Some (ctx_new vals)) 0 = (Raise ByteStreamTooSmallError, Some c) ->
     exists h, fst (hint orc m 0 (Some c)) = Ok (Some h) /\ len p < h) ->
  exists k', reads orc fuel m b vals k v k' /\ k <= k'.
Proof.
  intros X SA EN Mp FU Hk ST.
  pose proof (steady_contained orc m X SA) as CT.
  remember (Z.to_nat (len b - k)) as g eqn:G. revert k Hk G.
  induction g as [g IH] using lt_wf_ind. intros k Hk G.
  assert (LP : len (prefix_of k b) = k) by (unfold prefix_of, len in *; rewrite firstn_length; lia).
  assert (SP : b = prefix_of k b ++ skipn (Z.to_nat k) b) by (symmetry; apply firstn_skipn).
  assert (H0 : 0 <= 0 <= len (prefix_of k b)) by lia.
  destruct (mapbs orc fuel m (prefix_of k b) 0 (Some (ctx_new vals)) 0) as [r c] eqn:M.
  assert (F : fst (mapbs orc fuel m (prefix_of k b) 0 (Some (ctx_new vals)) 0) = r) by now rewrite M.
  destruct r as [w|x|].
  - destruct (maps_deep _ _ _ _ _ _ _ _ _ X M) as (n' & Mp').
    destruct (CT fuel _ 0 vals 0 H0) as [CM _]. destruct (CM _ _ Mp') as (r & RA & RB & _ & RW).
    assert (Mb : maps orc fuel m b 0 vals 0 w n').
    { apply RW.
      - left. lia.
      - rewrite SP at 1. apply WindowProofs.window_app; lia. }
    destruct (maps_det _ _ _ _ _ _ _ _ _ _ _ Mb Mp) as [-> ->].
    exists k. split; [eapply reads_done; exact M|lia].
  - assert (x = ByteStreamTooSmallError \/ x <> ByteStreamTooSmallError) as [->|NE]
      by (destruct x; (left; reflexivity) || (right; discriminate)).
    + pose proof (mapbs_keeps orc fuel m (prefix_of k b) 0 (Some (ctx_new vals)) 0) as K. rewrite M in K. cbn [snd] in K.
      destruct c as [c|]; [|cbn in K; tauto].
      destruct (ST _ c M) as (h & H1 & H2).
      destruct (Z.lt_ge_cases h (len b)) as [L|L].
      * destruct (IH (Z.to_nat (len b - h))) with (k := h) as (k' & R & B); [lia|lia|reflexivity|].
        exists k'. split; [eapply reads_more; eauto|lia].
      * exists h. split; [|lia]. eapply reads_more; eauto. destruct Mp as (c' & Mp & _). eapply reads_done.
        unfold prefix_of. rewrite firstn_all2 by (unfold len in *; lia). exact Mp.
    + exfalso. destruct (CT fuel _ 0 vals 0 H0) as [_ CF].
      specialize (CF x (skipn (Z.to_nat k) b) NE F). rewrite <- SP in CF. apply maps_fst in Mp. unfold fails in CF. congruence.
  - exfalso. revert F. apply EN; [lia|]. rewrite LP. lia.
Qed.

Lemma varying_reading orc fuel d m b vals v n k :
  extensional orc -> everywhere sound d -> create orc d None = Ok (Some m) ->
  hinted_at 0 m \/ (group_of (hinted_at 0) m /\ no_default m) ->
  maps orc fuel m b 0 vals 0 v n -> (Z.to_nat (len b) < fuel)%nat -> 0 <= k <= len b ->
  exists k', reads orc fuel m b vals k v k' /\ k <= k'.
Proof.
  intros X S C HI Mp FU Hk.
  pose proof (all_steady _ _ _ S C) as SA. pose proof (all_tidy _ _ _ S C) as TA.
  destruct HI as [HI|[HI ND]].
  - apply (reading_on orc fuel m b vals v n k); auto; [eapply at_ends; eauto|].
    intros p c M. destruct (at_short orc 0 m X SA TA HI fuel p 0 (ctx_new vals) c vals 0 (conj (Z.le_refl 0) (len_nonneg p))
      eq_refl (same_values_refl _) M) as (h & H1 & H2 & _).
    exists h. split; auto. lia.
  - assert (EN : ends orc m).
    { destruct m; try contradiction. cbn in ND. subst default. destruct HI as [(x & -> & Hx) HE].
      apply all_maps_group in SA. destruct SA as (_ & S1 & _ & S3).
      apply all_maps_group in TA. destruct TA as (_ & T1 & _ & T3). cbn in S1, T1.
      apply group_ends; [cbn; eapply at_ends; eauto|exact I|].
      rewrite Forall_forall in *. intros a A. destruct (HE a A) as (_ & y & EY & Hy). pose proof (S3 a A) as SY. pose proof (T3 a A) as TY.
      rewrite EY in *. cbn in *. eapply at_ends; eauto. }
    apply (reading_on orc fuel m b vals v n k); auto.
    intros p c M. destruct (group_short orc fuel m p 0 vals 0 c X SA TA HI ND (conj (Z.le_refl 0) (len_nonneg p)) M) as (h & H1 & H2 & _).
    exists h. split; auto. lia.
Qed.
