(** The byte size of a definition and the size that is mapped. *)
From Coq Require Import String List ZArith Bool Lia.
From Verif Require Import Base PyVal PyStruct DataTypes ClassFactory DataMaps.
From Verif Require Import BytesProofs ContainerProofs SpecPrim PrimProofs SpecMap SpecCreate MapProofs ContextProofs
  StructProofs LayoutProofs CreateProofs LinearProofs SeqProofs StreamProofs PaddingProofs GroupProofs SteadyProofs WindowProofs SeqKindProofs.
Import ListNotations.
Open Scope Z_scope.
Arguments Z.pow : simpl never.
Arguments Z.mul : simpl never.
Arguments Z.div : simpl never.
Arguments Z.modulo : simpl never.

(** The map takes up [s] bytes whenever it succeeds inside a stream. *)
Definition takes (orc : oracle) (m : dmap) (s : Z) : Prop :=
  forall fuel bs off vals depth v n, 0 <= off -> maps orc fuel m bs off vals depth v n -> n = s.

Lemma elements_takes orc x b : takes orc x b -> 0 <= b -> forall fuel bs depth vs off e, 0 <= off ->
  elements orc fuel x bs depth off vs e -> e = off + len vs * b.
Proof.
  intros T B fuel bs depth vs. induction vs as [|v vs IH]; intros off e Ho E; inversion E; subst.
  - unfold len; cbn; lia.
  - match goal with M : maps _ _ _ _ _ _ _ _ _ |- _ => apply T in M; auto; subst end.
    match goal with H : elements _ _ _ _ _ _ vs _ |- _ => apply IH in H; [|lia]; rewrite len_cons; lia end.
Qed.

Lemma stream_size_known orc e ed vals n s :
  (has_data_size e = false \/ has_number e = false) ->
  stream_size orc e ed vals n -> elems_byte_size e (get_byte_size ed) = Some s -> n = s.
Proof.
  intros X S Z. unfold elems_byte_size in Z.
  assert (MU : forall f x k, measure orc f x vals k -> forall j, truthy_Z f = Some j -> k = j).
  { intros f x k M j T. apply truthy_Z_some in T. destruct T as [-> N].
    destruct M as [(_ & Q & _)|([Q|Q] & _)]; congruence. }
  destruct (truthy_Z (e_data_size e)) as [k|] eqn:D.
  - inversion Z; subst k. destruct S as [[_ S]|[S _]]; [eauto|].
    apply truthy_Z_some in D. destruct D as [D _]. unfold has_data_size in S. rewrite D in S. discriminate.
  - destruct (truthy_Z (e_number e)) as [k|] eqn:K; [|discriminate].
    pose proof K as K'. apply truthy_Z_some in K'. destruct K' as [K' _].
    destruct X as [X|X]; [|unfold has_number in X; rewrite K' in X; discriminate].
    destruct S as [[S _]|[_ (k' & b & B & M & ->)]]; [congruence|]. rewrite B in Z.
    rewrite (MU _ _ _ M _ K). destruct (truthy_Z (Some b)) as [b'|] eqn:T; [|discriminate].
    apply truthy_Z_some in T. destruct T as [T _]. inversion T; subst b'. inversion Z. lia.
Qed.

Lemma stream_takes orc e ed em s :
  (has_data_size e = false \/ has_number e = false) -> byte_terminator (e_terminator e) ->
  (forall b, get_byte_size ed = Some b -> 0 <= b) ->
  elems_byte_size e (get_byte_size ed) = Some s -> takes orc (MStream e ed em) s /\ takes orc (MString e ed em) s.
Proof.
  intros X BT B Z.
  assert (U : ~ unsized_stream e ed).
  { intros [U V]. unfold elems_byte_size in Z. unfold has_data_size in U. destruct (e_data_size e) as [k|]; [discriminate|].
    cbn [truthy_Z] in Z. destruct V as [V|V].
    - unfold has_number in V. destruct (e_number e); discriminate.
    - rewrite V in Z. destruct (truthy_Z (e_number e)); discriminate. }
  assert (A : takes orc (MStream e ed em) s).
  { intros fuel bs off vals depth v n Ho M. apply (stream_sized orc fuel e ed em bs off vals depth Ho B U) in M.
    destruct M as (S & _). eapply stream_size_known; eauto. }
  split; auto. intros fuel bs off vals depth v n Ho M.
  apply (string_layout orc fuel e ed em bs off vals depth BT) in M.
  destruct M as (l & r & t & M & _). eapply A; eauto.
Qed.

Lemma prim_takes orc d op s : get_byte_size d = Some s -> takes orc (MPrim d op) s.
Proof.
  intros S fuel bs off vals depth v n Ho (c & M & N). cbn [mapbs] in M. unfold map_prim in M. rewrite S in M.
  destruct (_ <? _); [discriminate|]. destruct (match op with Some _ => _ | None => _ end); inversion M; subst. cbn in N. congruence.
Qed.

Lemma uuid_takes orc d s : get_byte_size d = Some s -> takes orc (MUUID d) s.
Proof.
  intros S fuel bs off vals depth v n Ho (c & M & N). cbn [mapbs] in M. unfold map_uuid in M. rewrite S in M.
  destruct (_ <? _); [discriminate|].
  destruct (dt_byte_order d) as [[]|]; try destruct (_ =? _); inversion M; subst; cbn in N; congruence.
Qed.

(** A structure, by what its members take up. *)
Lemma fields_size orc fuel cls vals bs depth off : forall ms attrs s acc s' e t,
  List.length ms = List.length attrs ->
  Forall2 (fun m a => forall o o', 0 <= o -> struct_size_step o (pad_align m) (get_byte_size m) = Some o' ->
     o <= o' /\ truthy_str (member_cond m) = None /\
     forall y v n vals depth, snd a = Some y -> maps orc fuel y bs (off + o) vals depth v n -> o + n = o') ms attrs ->
  0 <= acc -> fields orc fuel cls vals bs depth (combine ms attrs) s (off + acc) s' e ->
  struct_size_loop ms acc = Some t -> e = off + t.
Proof.
  intros ms attrs s acc s' e t L F. clear L. revert s acc s' e t.
  induction F as [|m a ms attrs H F IH]; intros s acc s' e t Ha X Z.
  - cbn in X, Z. inversion X; subst. inversion Z; subst. reflexivity.
  - cbn [struct_size_loop] in Z. destruct (struct_size_step acc _ _) as [acc'|] eqn:S; [|discriminate].
    destruct (H acc acc' Ha S) as (LE & TC & HM). destruct a as [name x]. cbn [combine] in X. inversion X; subst.
    + match goal with M : maps _ _ _ _ _ _ _ _ _ |- _ => specialize (HM _ _ _ _ _ eq_refl M) end.
      match goal with Y : fields _ _ _ _ _ _ _ _ (off + acc + ?k) _ _ |- _ =>
        replace (off + acc + k) with (off + acc') in Y by lia; eapply IH; [|exact Y|exact Z]; lia end.
    + exfalso. match goal with Q : condition_is _ _ _ false |- _ => unfold condition_is in Q; rewrite TC in Q; discriminate end.
Qed.

Lemma step_size m o o' : pad_align m = None -> struct_size_step o (pad_align m) (get_byte_size m) = Some o' ->
  exists z, get_byte_size m = Some z /\ get_byte_size (type_of m) = Some z /\ o' = o + z /\ truthy_str (member_cond m) = None.
Proof.
  intros P. rewrite P. cbn. destruct (get_byte_size m) as [z|] eqn:Z; [|discriminate]. intros Q; inversion Q; subst.
  exists z. split; auto. destruct m; cbn in *; auto. destruct (truthy_str condition); [discriminate|auto].
Qed.

(** The members of a structure. *)
Lemma struct_takes orc off mt bo ms m s :
  extensional orc -> everywhere sound (DStructure mt bo ms) ->
  create orc (DStructure mt bo ms) None = Ok (Some m) ->
  get_byte_size (DStructure mt bo ms) = Some s -> 0 <= off ->
  Forall (fun d => match pad_align d with
    | Some a => off mod a = 0
    | None => forall ov x z, create orc (type_of d) ov = Ok (Some x) -> get_byte_size (type_of d) = Some z -> takes orc x z
    end) ms ->
  forall fuel bs vals depth v n, maps orc fuel m bs off vals depth v n -> n = s.
Proof.
  intros X E C S Ho F fuel bs vals depth v n M.
  assert (C' := C). apply created_structure in C'. apply create_structure_inv in C'.
  destruct C' as (attrs & MM & NE & ND & A & Y). rewrite map_map in *. cbn [fst] in *. rewrite map_id in *.
  cbn [ov_name ov_bo apply_ov] in *.
  destruct Y as [(L & op & OP & ->)|(L & ->)].
  - destruct M as (c & M & N). cbn [mapbs] in M. unfold map_struct_linear in M. rewrite S in M.
    destruct (_ <? _); [discriminate|]. destruct (match op with Some _ => _ | None => _ end); inversion M; subst. cbn in N. congruence.
  - assert (LA : List.length ms = List.length attrs).
    { apply (f_equal (@List.length _)) in A. rewrite !map_length in A. auto. }
    assert (D : depth <= 10).
    { destruct (Z.lt_ge_cases 10 depth) as [D|D]; [|lia]. apply maps_fst in M. rewrite too_deep in M by (cbn; auto). discriminate. }
    pose proof (maps_clear _ _ _ _ _ _ _ _ _ _ _ _ _ _ M) as CN. apply structure_layout in M; auto.
    pose proof (everywhere_here _ _ E) as [_ WN].
    assert (DT : distinct_types (m_name mt) bo ms) by (eapply well_named_distinct; exact WN).
    pose proof (structure_own_maps _ _ _ _ _ _ _ _ _ _ C DT) as OM.
    rewrite structure_size in S. destruct ms as [|m0 ms0] eqn:Ems; [discriminate|]. rewrite <- Ems in *.
    replace off with (off + 0) in M at 1 by lia.
    assert (K : off + n = off + s); [|lia].
    eapply (fields_size orc fuel _ vals bs depth off ms attrs _ 0 _ _ s); eauto; [|lia].
    destruct E as [_ E]. apply everywhere_list in E. clear -E OM F Ho.
    induction OM as [|d a ms attrs (N & Cd) OM IH]; inversion E; inversion F; subst; constructor; auto.
    intros o o' Hq St. destruct (pad_align d) as [al|] eqn:PA.
    + destruct d; try discriminate. cbn in PA. cbn in St. apply truthy_Z_some in PA. destruct PA as [-> NZ].
      assert (P : 0 < al).
      { match goal with Q : everywhere sound (DPadding _ _ _) |- _ => destruct Q as [[(al' & Q & P) _] _] end. congruence. }
      inversion St; subst o'. pose proof (padding_nonneg al o P). split; [lia|]. split; auto.
      intros y v n vals depth Hy M. rewrite Hy in Cd.
      assert (G : exists mt' bo', used_type (m_name mt) bo (DPadding m bo0 (Some al)) = DPadding mt' bo' (Some al)).
      { unfold used_type. cbn. destruct bo, bo0; cbn; eauto. }
      destruct G as (mt' & bo' & G). rewrite G in Cd.
      destruct (padding_mapping orc fuel mt' bo' al bs (off + o) vals depth P ltac:(lia)) as (y' & Cy & MY & _).
      assert (y' = y) by congruence. subst y'. apply MY in M. destruct M as (M & _).
      f_equal. eapply aligns_unique; [exact M|].
      replace (padding_size al o) with (padding_size al (off + o)); [apply padding_aligns; auto|].
      unfold padding_size. rewrite <- Zplus_mod_idemp_l.
      match goal with Q : off mod al = 0 |- _ => rewrite Q end. reflexivity.
    + destruct (step_size d o o' PA) as (z & Z1 & Z2 & -> & TC); [now rewrite PA|].
      match goal with Q : everywhere sound d |- _ => pose proof (sound_size _ Q _ Z1) end.
      split; [lia|]. split; auto. intros y v n vals depth Hy M. rewrite Hy in Cd.
      destruct (used_as_ov (m_name mt) bo d) as [ov' U]. destruct (U orc) as [U1 _]. rewrite U1 in Cd.
      match goal with Q : forall ov x z, create _ _ _ = _ -> _ |- _ => pose proof (Q _ _ _ Cd Z2) as TK end.
      apply TK in M; [lia|lia].
Qed.

Lemma exact_takes orc : extensional orc -> forall d ov m s,
  everywhere sound d -> everywhere exact d -> create orc d ov = Ok (Some m) -> get_byte_size d = Some s -> takes orc m s.
Proof.
  intros X d. induction d as [d IH] using dtype_ind_type. intros ov m s E Q C S.
  destruct d; try discriminate.
  - cbn [create] in C. destruct false_value, true_value; try discriminate;
      (apply bind_ok in C; destruct C as (o & O & C); inversion C; subst; apply prim_takes; now rewrite apply_ov_size).
  - cbn [create] in C. apply bind_ok in C; destruct C as (o & O & C); inversion C; subst; apply prim_takes; now rewrite apply_ov_size.
  - cbn [create] in C. apply bind_ok in C; destruct C as (o & O & C); inversion C; subst; apply prim_takes; now rewrite apply_ov_size.
  - cbn [create] in C. apply bind_ok in C; destruct C as (o & O & C); inversion C; subst; apply prim_takes; now rewrite apply_ov_size.
  - cbn [create] in C. inversion C; subst. apply uuid_takes. now rewrite apply_ov_size.
  - (* element sequences *)
    pose proof E as [[(S1 & S2 & S3 & S4) _] Ed]. destruct Q as [Q Qd].
    apply create_elems in C. destruct C as (eov & em & O & Ce & _ & C).
    assert (T : e_terminator (elems_of ov e) = e_terminator e /\ e_data_size (elems_of ov e) = e_data_size e /\
                e_number (elems_of ov e) = e_number e /\ has_data_size (elems_of ov e) = has_data_size e /\
                has_number (elems_of ov e) = has_number e /\ e_data_size_expr (elems_of ov e) = e_data_size_expr e /\
                e_number_expr (elems_of ov e) = e_number_expr e) by (destruct ov as [[nm b]|]; repeat split; auto).
    destruct T as (T1 & T2 & T3 & T4 & T5 & T6 & T7).
    assert (TS : elems_byte_size (elems_of ov e) = elems_byte_size e) by (unfold elems_byte_size; now rewrite T2, T3).
    pose proof (sound_size _ Ed) as SD. cbn [get_byte_size] in S.
    destruct k.
    + assert (LC : takes orc (MSequence true (elems_of ov e) (apply_ov eov d) em None) s /\
               forall op, takes orc (MSequence true (elems_of ov e) (apply_ov eov d) em op) s).
      { assert (L : forall op, takes orc (MSequence true (elems_of ov e) (apply_ov eov d) em op) s); [|auto].
        intros op fuel bs off vals depth v n Ho (c & M & N). cbn [mapbs] in M. unfold map_seq_linear in M.
        rewrite TS, apply_ov_size, S in M. destruct (_ <? _); [discriminate|].
        destruct op as [op|]; [|discriminate]. destruct em as [em|]; [|discriminate].
        destruct em; try discriminate. destruct (read_from _ _); try discriminate.
        inversion M; subst. cbn in N. congruence. }
      destruct (sequence_is_linear _ _) eqn:LN; [destruct C as (o & _ & ->); apply LC|]. subst m. clear LC.
      intros fuel bs off vals depth v n Ho M.
      pose proof (seq_maps_deep _ _ _ _ _ _ _ _ _ _ _ _ M) as Hd.
      destruct (seq_maps_bounds _ _ _ _ _ _ _ _ _ _ _ _ M) as (r & B).
      assert (KB : exists b k, get_byte_size d = Some b /\ 0 < b /\ s = k * b /\
                   fst (fst r) = Some k /\ snd r = None).
      { pose proof B as B'. unfold elems_byte_size in S. destruct Q as [Q1 Q2].
        destruct (truthy_Z (e_data_size e)) as [j|] eqn:DS.
        - inversion S; subst j. apply truthy_Z_some in DS. destruct DS as [DS NZ].
          destruct (Q2 _ DS) as (b & Hb & MD). pose proof (SD _ Hb).
          assert (D : has_data_size (elems_of ov e) = true) by (rewrite T4; unfold has_data_size; now rewrite DS).
          apply (bounds_sized orc _ _ vals D) in B'. destruct B' as (s' & MS & [(b' & B1 & B2 & ->)|(t & B1 & _)]);
            rewrite apply_ov_size, Hb in B1; [|discriminate]. inversion B1; subst b'.
          rewrite T2, DS in MS. assert (s' = s) by (destruct MS as [(_ & MS & _)|([MS|MS] & _)]; congruence). subst s'.
          exists b, (s / b). split; auto. split; [lia|]. split; [|auto].
          rewrite (Z.div_mod s b) at 1 by lia. lia.
        - destruct (truthy_Z (e_number e)) as [k|] eqn:K; [|discriminate]. apply truthy_Z_some in K. destruct K as [K NZ].
          destruct (truthy_Z (get_byte_size d)) as [b|] eqn:Hb; [|discriminate]. apply truthy_Z_some in Hb. destruct Hb as [Hb NZb].
          pose proof (SD _ Hb). inversion S; subst s.
          destruct S1 as [S1|S1]; [|unfold has_number in S1; rewrite K in S1; discriminate].
          destruct Q1 as [Q1|Q1]; [congruence|].
          apply (bounds_counted orc _ _ vals) in B'; [|congruence|congruence]. destruct B' as (k' & MS & ->).
          rewrite T3, K in MS. assert (k' = k) by (destruct MS as [(_ & MS & _)|([MS|MS] & _)]; congruence). subst k'.
          exists b, k. repeat split; auto; lia. }
      destruct KB as (b & k & Hb & BP & -> & R1 & R2). destruct r as [[r1 r2] r3]. cbn in R1, R2. subst r1 r3.
      assert (TX : exists x, takes orc x b /\
                maps orc fuel (MSequence false (elems_of ov e) (apply_ov eov d) (Some x) None) bs off vals depth v n).
      { destruct em as [x|].
        - exists x. split; auto. exact (IH eov x b Ed Qd Ce Hb).
        - exists (MSemantic d). split.
          + intros ? ? ? ? ? ? ? _ (? & Y & _). discriminate.
          + unfold maps in *. rewrite <- seq_none. exact M. }
      clear M. destruct TX as (x & TX & M).
      assert (NN : nonnegative orc x).
      { intros fuel' bs' off' vals' depth' v' n' Ho' M'. apply TX in M'; lia. }
      apply (sequence_layout orc fuel x bs depth (Some k) r2 None off _ _ None vals X Ho NN ltac:(discriminate) B Hd) in M.
      destruct M as (vs & -> & [W _] & A & _). cbn in A.
      apply (elements_takes orc x b TX ltac:(lia)) in W; auto. rewrite A in W. lia.
    + destruct C as [_ ->]. apply stream_takes.
      * rewrite T4, T5. auto.
      * rewrite T1. unfold byte_terminator. destruct (e_terminator e) as [t|]; auto. destruct (S4 _ eq_refl) as (b & -> & _ & P). eauto.
      * rewrite apply_ov_size. exact SD.
      * now rewrite TS, apply_ov_size.
    + destruct C as [_ ->]. apply stream_takes.
      * rewrite T4, T5. auto.
      * rewrite T1. unfold byte_terminator. destruct (e_terminator e) as [t|]; auto. destruct (S4 _ eq_refl) as (b & -> & _ & P). eauto.
      * rewrite apply_ov_size. exact SD.
      * now rewrite TS, apply_ov_size.
  - rename m0 into mt, members into ms. rewrite create_apply in C.
    set (d := apply_ov ov (DStructure mt bo ms)) in *.
    assert (G : exists mt' bo', d = DStructure mt' bo' ms) by (subst d; destruct ov as [[nm b]|]; cbn; eauto).
    destruct G as (mt' & bo' & G). assert (SZ : get_byte_size d = get_byte_size (DStructure mt bo ms)) by (subst d; apply apply_ov_size).
    clearbody d. subst d.
    assert (E' : everywhere sound (DStructure mt' bo' ms)) by exact E.
    intros fuel bs off vals depth v n Ho M.
    eapply (struct_takes orc off mt' bo' ms m s X E' C); eauto.
    destruct E as [_ E]. destruct Q as [_ Q]. apply everywhere_list in E. apply everywhere_list in Q.
    rewrite Forall_forall in *. intros x I. specialize (E x I). specialize (Q x I). specialize (IH x I).
    destruct (pad_align x) as [a|] eqn:PA.
    + destruct x; try discriminate. destruct Q as [[] _].
    + intros ov' y z Cy Z. apply (IH ov' y z); auto; apply everywhere_type; auto.
Qed.

(** C11 *)
Lemma exact_size orc fuel d m s bs off vals depth v n :
  extensional orc -> everywhere sound d -> everywhere exact d ->
  create orc d None = Ok (Some m) -> get_byte_size d = Some s -> 0 <= off ->
  maps orc fuel m bs off vals depth v n -> n = s.
Proof. intros X E Q C S Ho M. eapply (exact_takes orc X d None m s E Q C S); eauto. Qed.

Lemma padded_size orc fuel mt bo ms m s bs off vals depth v n :
  extensional orc -> everywhere sound (DStructure mt bo ms) ->
  (forall x, In x ms -> (exists pm pb a, x = DPadding pm pb (Some a) /\ off mod a = 0) \/ everywhere exact x) ->
  create orc (DStructure mt bo ms) None = Ok (Some m) ->
  get_byte_size (DStructure mt bo ms) = Some s -> 0 <= off ->
  maps orc fuel m bs off vals depth v n -> n = s.
Proof.
  intros X E Q C S Ho M. eapply (struct_takes orc off mt bo ms m s X E C S Ho); eauto.
  destruct E as [_ E]. apply everywhere_list in E. rewrite Forall_forall in *. intros x I. specialize (E x I).
  destruct (Q x I) as [(pm & pb & a & -> & A)|Qx].
  - destruct E as [[(a' & Qa & P) _] _]. inversion Qa; subst a'. cbn. destruct (Z.eqb_spec a 0); [lia|auto].
  - destruct (pad_align x) as [a|] eqn:PA.
    + destruct x; try discriminate. destruct Qx as [[] _].
    + intros ov y z Cy Z. apply (exact_takes orc X (type_of x) ov y z); auto; apply everywhere_type; auto.
Qed.

(** C18 *)
Lemma sized_sequence_size orc fuel e el m x b bs off vals depth v n :
  extensional orc -> everywhere sound (DElems KSequence e el) -> everywhere exact el ->
  create orc (DElems KSequence e el) None = Ok (Some m) ->
  create orc (element_type e el) None = Ok (Some x) ->
  has_data_size e = true -> get_byte_size el = Some b -> 0 <= off <= len bs ->
  maps orc fuel m bs off vals depth v n ->
  exists s, measure orc (e_data_size e) (e_data_size_expr e) vals s /\
    n = if sequence_is_linear e (element_type e el) then s else s / b * b.
Proof.
  intros X E Q C Cx D B Ho M.
  destruct (sized_sequence orc fuel e el m x b bs off vals depth v n X E C Cx D B Ho M) as (s & vs & k & MS & -> & L & W & F).
  exists s. split; auto. destruct (sequence_is_linear _ _); [tauto|]. subst k.
  destruct E as [_ E].
  assert (T : takes orc x b).
  { assert (G : exists ov, element_type e el = apply_ov ov el).
    { unfold element_type. destruct (e_bo e); try (exists None; reflexivity);
        destruct (dt_byte_order el) as [[]|]; try (exists None; reflexivity);
        destruct (is_composite el); try (exists None; reflexivity);
        eexists (Some (_, _)); cbn [apply_ov]; reflexivity. }
    destruct G as [ov G]. rewrite G, <- create_apply in Cx. eapply exact_takes; eauto. }
  pose proof (sound_size _ E _ B).
  apply (elements_takes orc x b T) in W; [|lia|lia]. rewrite L in W. lia.
Qed.
