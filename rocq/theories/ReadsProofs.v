(** Mapping yields exactly what the reference reading says. *)
From Coq Require Import String Ascii List ZArith Bool Lia.
From Verif Require Import Base PyVal PyStruct DataTypes ClassFactory DataMaps.
From Verif Require Import BytesProofs ContainerProofs SpecPrim PrimProofs Ieee IeeeProofs SpecMap SpecCreate SpecReads
  MapProofs ContextProofs StructProofs LayoutProofs CreateProofs LinearProofs SeqProofs StreamProofs GroupProofs
  PaddingProofs SteadyProofs WindowProofs SeqKindProofs FuelProofs FloatProofs.
Import ListNotations.
Open Scope Z_scope.
Arguments Z.pow : simpl never.
Arguments Z.mul : simpl never.
Arguments Z.div : simpl never.
Arguments Z.modulo : simpl never.

(** ** Copies with another name and byte order *)

Lemma everywhere_weaken (P Q : dtype -> Prop) : (forall d, P d -> Q d) ->
  forall d, everywhere P d -> everywhere Q d.
Proof.
  intros H d. 
  assert (L : forall l : list dtype, Forall (fun d => everywhere P d -> everywhere Q d) l ->
    (fix go (l : list dtype) : Prop := match l with [] => True | m :: r => everywhere P m /\ go r end) l ->
    (fix go (l : list dtype) : Prop := match l with [] => True | m :: r => everywhere Q m /\ go r end) l).
  { induction 1; tauto. }
  induction d using dtype_rect'; cbn [everywhere]; intros E.
  all: destruct E as [E1 E2]; split; [now apply H|]; auto.
  all: try (apply L; assumption).
  - destruct E2 as (E2 & E3); split; auto. apply L; assumption.
  - destruct E2 as (E2 & E3 & E4); split; auto. split; [destruct df; auto|]. apply L; assumption.
Qed.

Lemma regular_sound d : everywhere regular d -> everywhere sound d.
Proof. apply everywhere_weaken. intros x [H _]. exact H. Qed.

Lemma regular_copy n b d : dt_byte_order d = Some BONative ->
  (forall mt ms, d = DStructure mt BONative ms -> (exists c r, n = String c r /\ c <> "_"%char) /\
     forall x mt2 ms2, In x ms -> type_of x <> DStructure mt2 BONative ms2) ->
  everywhere regular d -> everywhere regular (set_name_bo (String.append "_" n) b d).
Proof.
  intros N K E. destruct d; cbn [set_name_bo everywhere] in *; try exact E; try (destruct E as [E1 E2]; split; [exact E1|exact E2]).
  cbn [dt_byte_order] in N. inversion N; subst bo. destruct (K _ _ eq_refl) as [(ch & r & -> & CH) K2]. clear K.
  destruct E as [[E1 (E4 & E5 & _ & E3)] E2]. split; auto. split; [exact E1|].
  split; [|split; [exact E5|split]].
  { destruct E4 as (_ & _ & E4 & _). repeat split; [discriminate|discriminate|exact E4| |].
    - intros I. apply in_map_iff in I. destruct I as (x & Q & I). exact (E5 _ _ I Q).
    - intros [[q Q] _]. inversion Q. congruence. }
  { intros x mt1 ms1 _ I T. exfalso. eapply K2; eauto. }
  destruct E3 as [E3|E3]; [left; exact E3|right]. intros x Hx. destruct (E3 x Hx) as [A B]. split; auto.
  intros b' Hb. left. destruct (B _ Hb); auto.
Qed.

Lemma levels_copy n b d : levels (set_name_bo n b d) = levels d.
Proof. destruct d; reflexivity. Qed.

Lemma levels_nonneg d : 0 <= levels d.
Proof.
  assert (L : forall ms, 0 <= fold_right (fun m a => Z.max (levels m) a) 0 ms).
  { induction ms; cbn; lia. }
  induction d using dtype_rect'; cbn [levels]; try lia.
  - destruct k; lia.
  - specialize (L ms). lia.
Qed.

Lemma levels_member m ms : In m ms -> levels m <= fold_right (fun m a => Z.max (levels m) a) 0 ms.
Proof. induction ms as [|x l IH]; cbn; [tauto|]. intros [->|H]; [lia|]. specialize (IH H). lia. Qed.

Lemma levels_type m : levels (type_of m) = levels m.
Proof. destruct m; reflexivity. Qed.

Lemma levels_used cls bo m : levels (used_type cls bo m) = levels m.
Proof. destruct (used_cases cls bo m) as [-> | [n ->]]; rewrite ?levels_copy; apply levels_type. Qed.

Lemma levels_element e el : levels (element_type e el) = levels el.
Proof.
  unfold element_type. destruct (e_bo e); auto; destruct (dt_byte_order el) as [[]|]; auto;
    destruct (is_composite el); auto; apply levels_copy.
Qed.

(** ** Leaves *)

Lemma prim_maps_iff orc fuel d m bs off vals depth v n :
  is_prim d = true -> create orc d None = Ok (Some m) -> 0 <= off ->
  (maps orc fuel m bs off vals depth v n <->
   prim_code d <> None /\ get_byte_size d = Some n /\ off + n <= len bs /\
   fst (mapbs orc fuel m bs off (Some (ctx_new vals)) depth) = Ok v).
Proof.
  intros P C Ho. destruct (prim_created _ _ _ P C) as (op & b & E & B & O). inversion E; subst m. clear E.
  unfold prim_op in O. destruct (prim_code d) as [c|] eqn:PC.
  - assert (op = Some (op1 (order_on (o_host orc) b) c)).
    { assert (Q := prim_op_some orc d b c PC). unfold prim_op in Q. rewrite PC in Q. rewrite Q in O. congruence. }
    subst op. destruct (get_byte_size d) as [k|] eqn:S.
    + assert (k = csize c) by (eapply prim_size; eauto). subst k. rewrite maps_prim by auto.
      cbn [mapbs]. rewrite (map_prim_spec d c _ (csize c)) by auto.
      destruct (Z.ltb_spec (len bs - off) (csize c)).
      * split; [lia|]. cbn. intros (_ & Q & L & _). inversion Q; lia.
      * split.
        -- intros (-> & L & ->). cbn. repeat split; auto. discriminate.
        -- intros (_ & Q & L & F). inversion Q; subst n. repeat split; auto.
           destruct (map_value d _); cbn in F; congruence.
    + split; [|intros (_ & Q & _); discriminate]. intros (x & MX & _). cbn [mapbs] in MX. unfold map_prim in MX.
      rewrite S in MX. discriminate.
  - inversion O; subst op. split; [intros M; exfalso; eapply dead_maps; eauto|tauto].
Qed.

Lemma fixed_sized f n : fixed_byte_size f = Some n -> sized f n.
Proof.
  unfold fixed_byte_size, sized. destruct (String.eqb_spec (f_units f) "bytes"); [auto|discriminate].
Qed.

Ltac numbers :=
  repeat match goal with
  | H : context [match ?z with Z0 => _ | Zpos _ => _ | Zneg _ => _ end] |- _ => destruct z; try discriminate; try congruence
  | H : context [match ?p with xI _ => _ | xO _ => _ | xH => _ end] |- _ => destruct p; try discriminate; try congruence
  end.

Lemma prim_sizes d n : is_prim d = true -> prim_code d <> None -> get_byte_size d = Some n ->
  match d with
  | DInteger f _ => In n [1; 2; 4; 8] /\ sized f n
  | DFloat f => In n [4; 8] /\ sized f n
  | DBoolean f _ _ | DCharacter f => In n [1; 2; 4] /\ sized f n
  | _ => False
  end.
Proof.
  intros P PC S. destruct d; try discriminate; cbn [get_byte_size] in S; pose proof (fixed_sized _ _ S) as Z;
    (split; [|exact Z]); destruct Z as [Z _]; cbn [prim_code] in PC; rewrite Z in PC; try destruct unsigned; cbn; numbers; lia.
Qed.

Lemma prim_reads orc fuel d m bs off vals depth v n :
  is_prim d = true -> create orc d None = Ok (Some m) -> 0 <= off ->
  (maps orc fuel m bs off vals depth v n <-> reads orc bs d off vals v n).
Proof.
  intros P C Ho. rewrite (prim_maps_iff orc fuel d m) by auto. split.
  - intros (PC & S & L & F). pose proof (prim_sizes _ _ P PC S) as Z.
    destruct d; try discriminate; destruct Z as [I Z].
    + assert (NE : false_value <> None \/ true_value <> None)
        by (cbn [create] in C; destruct false_value, true_value; try discriminate; (left; congruence) || (right; congruence)).
      rewrite (create_boolean orc f _ _ n I Z NE) in C. inversion C; subst m.
      rewrite map_boolean in F by auto.
      set (z := stored_number (order_on (o_host orc) (f_bo f)) (window bs off n)) in *.
      destruct (boolean_map_value_spec false_value true_value z NE) as (B1 & B2 & _ & B4).
      destruct B4 as [B4|[B4|B4]]; rewrite B4 in F; try discriminate; inversion F; subst v;
        apply ReadBoolean; auto; fold z; [now apply B1|now apply B2].
    + rewrite (create_character orc f n I Z) in C. inversion C; subst m.
      rewrite map_character in F by auto. cbv zeta in F.
      destruct (_ && _) eqn:CP; [|discriminate]. inversion F; subst v.
      eapply ReadCharacter; eauto. unfold code_point. apply andb_true_iff in CP. rewrite !Z.leb_le in CP. tauto.
    + rewrite (create_float orc f n I Z) in C. inversion C; subst m. rewrite map_float in F by auto. cbv zeta in F.
      cbn in I. destruct I as [<- | [<- | []]].
      * change (4 =? 4) with true in F. cbn match in F. inversion F; subst v. apply ReadSingle; auto.
        apply widened_f32. apply (stored_number_range _ _ 4). rewrite len_window; lia.
      * change (8 =? 4) with false in F. cbn match in F. inversion F; subst v. now apply ReadDouble.
    + rewrite (create_integer orc f _ n I Z) in C. inversion C; subst m.
      destruct (map_integer orc fuel f unsigned n bs off (Some (ctx_new vals)) depth I Z Ho L) as [_ Q].
      rewrite Q in F. cbn [fst] in F. inversion F; subst v. now apply ReadInteger.
  - intros R. destruct R; try discriminate.
    + rewrite (create_integer orc f _ n) in C by auto. inversion C; subst m.
      split; [rewrite (int_prim_code f u n) by auto; discriminate|]. split; [now apply sized_byte_size|]. split; auto.
      destruct (map_integer orc fuel f u n bs off (Some (ctx_new vals)) depth) as [_ Q]; auto. now rewrite Q.
    + assert (I : In 8 [4; 8]) by (cbn; auto).
      rewrite (create_float orc f 8) in C by auto. inversion C; subst m.
      split; [cbn [prim_code]; destruct H as [-> _]; discriminate|]. split; [now apply sized_byte_size|]. split; auto.
      pose proof (map_float orc fuel f 8 bs off (Some (ctx_new vals)) depth I H Ho H0) as Q. cbv zeta in Q. exact Q.
    + assert (I : In 4 [4; 8]) by (cbn; auto).
      rewrite (create_float orc f 4) in C by auto. inversion C; subst m.
      split; [cbn [prim_code]; destruct H as [-> _]; discriminate|]. split; [now apply sized_byte_size|]. split; auto.
      pose proof (map_float orc fuel f 4 bs off (Some (ctx_new vals)) depth I H Ho H0) as Q. cbv zeta in Q.
      etransitivity; [exact Q|]. change (4 =? 4) with true. cbn match. do 2 f_equal.
      eapply widened_unique; [|eassumption]. apply widened_f32. apply (stored_number_range _ _ 4). rewrite len_window; lia.
    + assert (NE : fv <> None \/ tv <> None)
        by (cbn [create] in C; destruct fv, tv; try discriminate; (left; congruence) || (right; congruence)).
      rewrite (create_boolean orc f _ _ n) in C by auto. inversion C; subst m.
      split; [cbn [prim_code]; destruct H0 as [-> _]; cbn in H; destruct H as [<- | [<- | [<- | []]]]; discriminate|].
      split; [now apply sized_byte_size|]. split; auto. rewrite map_boolean by auto. cbv zeta in H2.
      set (z := stored_number (order_on (o_host orc) (f_bo f)) (window bs off n)) in *.
      destruct (boolean_map_value_spec fv tv z NE) as (B1 & B2 & _).
      destruct b; [apply B2 in H2|apply B1 in H2]; now rewrite H2.
    + rewrite (create_character orc f n) in C by auto. inversion C; subst m.
      split; [cbn [prim_code]; destruct H0 as [-> _]; cbn in H; destruct H as [<- | [<- | [<- | []]]]; discriminate|].
      split; [now apply sized_byte_size|]. split; auto. rewrite map_character by auto. cbv zeta. rewrite <- H2.
      unfold code_point in H3. destruct (Z.leb_spec 0 z), (Z.leb_spec z 1114111); try lia. reflexivity.
Qed.

Lemma uuid_reads orc fuel f bs off vals depth v n :
  (forall k, fixed_byte_size f = Some k -> k = 16) -> 0 <= off ->
  (maps orc fuel (MUUID (DUUID f)) bs off vals depth v n <-> reads orc bs (DUUID f) off vals v n).
Proof.
  intros S Ho.
  assert (M : off + 16 <= len bs -> sized f 16 ->
    (maps orc fuel (MUUID (DUUID f)) bs off vals depth v n <-> n = 16 /\
     v = match f_bo f with BOBig => VUUID (window bs off 16) | BOLittle => VUUID (uuid_swap (window bs off 16)) | BONative => VNone end)).
  { intros L Z. unfold maps. cbn [mapbs]. unfold map_uuid. cbn [get_byte_size dt_byte_order]. rewrite (sized_byte_size f 16 Z).
    destruct (Z.ltb_spec (len bs - off) 16); [lia|]. rewrite slice_window by lia. rewrite len_window by lia. rewrite Z.eqb_refl.
    destruct (f_bo f); split.
    all: try (intros (c & E & Hc); inversion E; subst; cbn in Hc; inversion Hc; auto).
    all: intros (-> & ->); eexists; split; reflexivity. }
  split.
  - intros H. destruct (fixed_byte_size f) as [k|] eqn:K.
    + pose proof (S _ eq_refl). subst k. pose proof (fixed_sized _ _ K) as Z.
      destruct (Z.lt_ge_cases (len bs - off) 16) as [L|L].
      { destruct H as (c & E & _). cbn [mapbs] in E. unfold map_uuid in E. cbn [get_byte_size] in E. rewrite K in E.
        destruct (Z.ltb_spec (len bs - off) 16); [discriminate|lia]. }
      apply M in H; [|lia|auto]. destruct H as (-> & ->). apply ReadUUID; auto; [lia|].
      destruct (f_bo f); auto. eexists. split; [|reflexivity]. apply uuid_swap_spec. now rewrite length_window by lia.
    + destruct H as (c & E & _). cbn [mapbs] in E. unfold map_uuid in E. cbn [get_byte_size] in E. rewrite K in E. discriminate.
  - intros R. inversion R; subst. apply M; auto. split; auto.
    match goal with H : match f_bo f with _ => _ end |- _ => rename H into Q end. destruct (f_bo f); auto.
    destruct Q as (u & U & ->). rewrite uuid_swap_spec in U by now rewrite length_window by lia. now inversion U.
Qed.

Lemma padding_reads orc fuel mt bo a bs off vals depth v n :
  (exists k, a = Some k /\ 0 < k) -> 0 <= off ->
  (maps orc fuel (MPadding (DPadding mt bo a)) bs off vals depth v n <-> reads orc bs (DPadding mt bo a) off vals v n).
Proof.
  intros (k & -> & K) Ho. destruct (padding_mapping orc fuel mt bo k bs off vals depth K Ho) as (m & C & M & _).
  cbn [create apply_ov] in C. inversion C; subst m. rewrite M. split.
  - intros (A & L & ->). now apply ReadPadding.
  - intros R. inversion R; subst. auto.
Qed.

(** ** Streams and strings *)

Lemma unsized_element e el : unsized_stream e (element_type e el) <-> unsized_stream e el.
Proof. unfold unsized_stream. now rewrite element_type_size. Qed.

Lemma stream_size_element orc e el vals n : stream_size orc e (element_type e el) vals n <-> stream_size orc e el vals n.
Proof. unfold stream_size. now rewrite element_type_size. Qed.

Lemma stream_reads orc fuel e el em bs off vals depth v n :
  sound (DElems KStream e el) -> everywhere sound el -> 0 <= off ->
  (maps orc fuel (MStream e (element_type e el) em) bs off vals depth v n <->
   reads orc bs (DElems KStream e el) off vals v n).
Proof.
  intros [(_ & _ & _ & T) _] Se Ho.
  destruct (sized_or_not e el) as [U|U].
  - destruct (e_terminator e) as [t|] eqn:Et.
    + destruct (T _ eq_refl) as (b & -> & B & BP).
      destruct (stream_terminated orc fuel e (element_type e el) em b bs off vals depth) as [M _]; auto.
      { now apply unsized_element. } { now rewrite element_type_size. }
      rewrite M. split.
      * intros (k & F & -> & ->). eapply ReadStreamTerminated; eauto.
      * intros R. inversion R; subst; [contradiction|]. assert (t = b) by congruence. subst t. eauto.
    + split.
      * intros (c & E & _). cbn [mapbs] in E. unfold map_stream in E. exfalso.
        destruct (calc_spec orc e (element_type e el) vals) as (_ & B & _).
        apply unsized_element in U. apply B in U.
        destruct (calc_data_size orc e (element_type e el) (Some (ctx_new vals))) as [[[k|]|x|] c1]; try discriminate.
        rewrite Et in E. discriminate.
      * intros R. inversion R; subst; [contradiction|congruence].
  - destruct (stream_sized orc fuel e (element_type e el) em bs off vals depth) as [M _]; auto.
    { rewrite element_type_size. apply sound_size. exact Se. } { now rewrite unsized_element. }
    rewrite M, stream_size_element. split.
    + intros (S & L & ->). now apply ReadStream.
    + intros R. inversion R; subst; [auto|contradiction].
Qed.

Lemma string_reads orc fuel e el em bs off vals depth v n :
  sound (DElems KString e el) -> everywhere sound el -> 0 <= off ->
  (maps orc fuel (MString e (element_type e el) em) bs off vals depth v n <->
   reads orc bs (DElems KString e el) off vals v n).
Proof.
  intros So Se Ho. 
  destruct (string_layout orc fuel e (element_type e el) em bs off vals depth) as [M _].
  { destruct So as [(_ & _ & _ & T) _]. destruct (e_terminator e) as [t|]; cbn; auto. destruct (T _ eq_refl) as (b & -> & _ & B). eauto. }
  rewrite M. split.
  - intros (l & r & s & S & T & D & ->). eapply ReadString; eauto. now apply (stream_reads orc fuel e el em bs off vals depth).
  - intros R. inversion R; subst. exists l, r, s. split; [now apply stream_reads|auto].
Qed.

(** ** Both directions for one definition *)

Definition agrees (orc : oracle) (d : dtype) : Prop :=
  everywhere regular d -> forall m, create orc d None = Ok (Some m) -> forall bs off, 0 <= off <= len bs ->
  (forall fuel vals depth v n, maps orc fuel m bs off vals depth v n -> reads orc bs d off vals v n) /\
  (forall vals depth v n, reads orc bs d off vals v n -> depth + levels d <= 11 ->
     exists f0, forall fuel, (f0 <= fuel)%nat -> maps orc fuel m bs off vals depth v n).

Lemma created_contained orc d m : extensional orc -> everywhere regular d -> create orc d None = Ok (Some m) -> contained orc m.
Proof. intros X E C. apply steady_contained; auto. eapply all_steady; eauto. now apply regular_sound. Qed.

Lemma contained_inside orc m fuel bs off vals depth v n : contained orc m -> 0 <= off <= len bs ->
  maps orc fuel m bs off vals depth v n -> 0 <= n /\ off + n <= len bs.
Proof. intros K Ho M. destruct (K fuel bs off vals depth Ho) as [A _]. destruct (A _ _ M) as (r & N & L & _). lia. Qed.

Lemma span_app a b : span (a ++ b) = span a + span b.
Proof. unfold span. induction a; cbn; lia. Qed.

(** ** Elements *)

Lemma elements_reads orc t x fuel bs depth : extensional orc -> everywhere regular t ->
  create orc t None = Ok (Some x) -> agrees orc t ->
  forall vs off e, 0 <= off <= len bs -> elements orc fuel x bs depth off vs e ->
  exists rs, map fst rs = vs /\ reads_elements orc bs t off rs /\ e = off + span rs /\
    forall before after, rs = before ++ after -> elements orc fuel x bs depth off (map fst before) (off + span before).
Proof.
  intros X E C A. pose proof (created_contained _ _ _ X E C) as K.
  induction vs as [|v vs IH]; intros off e Ho H; inversion H; subst.
  - exists []. repeat split; [constructor|cbn; lia|]. intros before after Q. destruct before; [|discriminate].
    cbn. rewrite Z.add_0_r. constructor.
  - match goal with Q : maps _ _ _ _ _ _ _ _ ?k |- _ => rename Q into M; rename k into j end.
    destruct (contained_inside _ _ _ _ _ _ _ _ _ K Ho M) as [N L].
    match goal with Q : elements _ _ _ _ _ _ _ _ |- _ => apply IH in Q; [|lia]; destruct Q as (rs & <- & R & -> & P) end.
    exists ((v, j) :: rs). repeat split.
    + constructor; auto. eapply A; eauto.
    + cbn. unfold span. lia.
    + intros before after Q. destruct before as [|b before].
      * cbn. rewrite Z.add_0_r. constructor.
      * inversion Q; subst. cbn [map fst span fold_right snd]. fold (span before).
        rewrite Z.add_assoc. apply elements_cons with (n := j); auto. eapply P; eauto.
Qed.

Lemma reads_elements_maps orc t x bs depth : extensional orc -> everywhere regular t ->
  create orc t None = Ok (Some x) -> agrees orc t -> depth + 1 + levels t <= 11 ->
  forall rs off, 0 <= off <= len bs -> reads_elements orc bs t off rs ->
  exists f0, forall fuel, (f0 <= fuel)%nat -> forall before after, rs = before ++ after ->
    elements orc fuel x bs depth off (map fst before) (off + span before).
Proof.
  intros X E C A D. pose proof (created_contained _ _ _ X E C) as K.
  induction rs as [|[v n] rs IH]; intros off Ho H; inversion H; subst.
  - exists 0%nat. intros fuel _ before after Q. destruct before; [|discriminate]. cbn. rewrite Z.add_0_r. constructor.
  - match goal with Q : reads _ _ _ _ _ _ _ |- _ => apply (proj2 (A E x C bs off Ho) [] (depth + 1)) in Q; [destruct Q as (f1 & F1)|lia] end.
    destruct (contained_inside _ _ f1 _ _ _ _ _ _ K Ho (F1 f1 (le_n _))) as [N L].
    match goal with Q : reads_elements _ _ _ _ _ |- _ => apply IH in Q; [destruct Q as (f2 & F2)|lia] end.
    exists (Nat.max f1 f2). intros fuel Hf before after Q. destruct before as [|b before].
    { cbn. rewrite Z.add_0_r. constructor. }
    inversion Q; subst. cbn [map fst span fold_right snd]. fold (span before). rewrite Z.add_assoc.
    apply elements_cons with (n := n); auto; [apply F1; lia|]. apply (F2 fuel ltac:(lia) before after). reflexivity.
Qed.

Lemma elements_at orc fuel x bs depth off rs : 0 <= off ->
  (forall before after, rs = before ++ after -> elements orc fuel x bs depth off (map fst before) (off + span before)) ->
  forall vb va n, map fst rs = vb ++ va -> elements orc fuel x bs depth off vb (off + n) ->
  exists before after, rs = before ++ after /\ vb = map fst before /\ va = map fst after /\ n = span before.
Proof.
  intros Ho P vb va n Q E. exists (firstn (List.length vb) rs), (skipn (List.length vb) rs).
  assert (L : (List.length vb <= List.length rs)%nat)
    by (apply (f_equal (@List.length pyval)) in Q; rewrite map_length, app_length in Q; lia).
  assert (B : vb = map fst (firstn (List.length vb) rs)).
  { rewrite <- firstn_map, Q, firstn_app, Nat.sub_diag, firstn_all. cbn. now rewrite app_nil_r. }
  split; [now rewrite firstn_skipn|]. split; auto. split.
  - rewrite <- skipn_map, Q, skipn_app, Nat.sub_diag, skipn_all. reflexivity.
  - specialize (P _ _ (eq_sym (firstn_skipn (List.length vb) rs))). rewrite <- B in P.
    destruct (elements_det _ _ _ _ _ _ _ _ _ _ E P eq_refl) as [_ Z]. lia.
Qed.

(** ** Sequences *)

Lemma regular_element e el k : everywhere regular (DElems k e el) -> everywhere regular (element_type e el).
Proof.
  intros [_ E]. unfold element_type. destruct (e_bo e); auto; destruct (dt_byte_order el) as [[]|] eqn:B; auto;
    destruct (is_composite el) eqn:CE; auto; (apply regular_copy; [exact B| |exact E]);
    intros mt ms ->; discriminate CE.
Qed.

Lemma element_map orc e el m : everywhere regular (DElems KSequence e el) ->
  create orc (DElems KSequence e el) None = Ok (Some m) -> exists x, create orc (element_type e el) None = Ok (Some x).
Proof.
  intros [[_ [E _]] _] C. apply created_elems in C. destruct C as ([x|] & C & _); [eauto|]. exfalso.
  assert (Q : exists ov, element_type e el = apply_ov ov el).
  { unfold element_type. destruct (e_bo e); try (exists None; now auto); destruct (dt_byte_order el) as [[]|]; try (exists None; now auto);
    destruct (is_composite el); try (exists None; now auto); eexists (Some (_, _)); reflexivity. }
  destruct Q as (ov & Q). rewrite Q, <- create_apply in C.
  destruct el; try contradiction; cbn [create] in C;
    repeat match type of C with
    | bind _ _ = _ => let y := fresh in apply bind_ok in C; destruct C as (y & _ & C)
    | (match ?z with _ => _ end) = _ => destruct z; try discriminate
    end; discriminate.
Qed.

Lemma linear_prim orc e el m x op : create orc (DElems KSequence e el) None = Ok (Some m) ->
  m = MSequence true e (element_type e el) (Some x) op -> create orc (element_type e el) None = Ok (Some x) ->
  is_prim (element_type e el) = true.
Proof.
  intros C -> Cx. apply linear_created in C. destruct C as (_ & _ & L & Ce & O).
  assert (IC : is_composite (element_type e el) = false) by (unfold sequence_is_linear in L; destruct (is_composite _); auto; discriminate).
  unfold sequence_op in O. apply bind_ok in O. destruct O as (en & En & _).
  clear -IC Cx En. destruct (element_type e el); try discriminate; auto; cbn [create] in Cx; inversion Cx; subst; discriminate.
Qed.

Lemma reads_prim_size orc bs d off vals v n b : is_prim d = true -> get_byte_size d = Some b -> reads orc bs d off vals v n -> n = b.
Proof.
  intros P B R. destruct R; try discriminate; cbn [get_byte_size] in B;
    match goal with Z : sized _ _ |- _ => rewrite (sized_byte_size _ _ Z) in B; congruence end.
Qed.

Lemma prim_span orc bs t b : is_prim t = true -> get_byte_size t = Some b ->
  forall rs off, reads_elements orc bs t off rs -> span rs = len rs * b /\ (rs = [] \/ off + span rs <= len bs).
Proof.
  intros P B. induction rs as [|[v n] rs IH]; intros off R; inversion R; subst.
  - cbn. auto.
  - match goal with Q : reads_elements _ _ _ _ _ |- _ => apply IH in Q; destruct Q as [S L] end.
    match goal with Q : reads _ _ _ _ _ _ _ |- _ =>
      assert (LB : off + n <= len bs) by (destruct Q; try discriminate; auto);
      apply (reads_prim_size _ _ _ _ _ _ _ _ P B) in Q; subst n end.
    cbn [span fold_right snd]. fold (span rs). rewrite len_cons. split; [lia|]. right.
    destruct L as [->|L]; cbn; [|]; lia.
Qed.

Lemma span_prefix_lt orc bs t b : is_prim t = true -> get_byte_size t = Some b -> 0 < b ->
  forall rs off before after, reads_elements orc bs t off rs -> rs = before ++ after -> after <> [] -> span before < len rs * b.
Proof.
  intros P B BP rs off before after R -> NE.
  assert (R1 : reads_elements orc bs t off before).
  { clear NE. revert off R. induction before as [|[v n] l IH]; intros off R; [constructor|]. inversion R; subst. constructor; auto. }
  destruct (prim_span _ _ _ _ P B _ _ R1) as [-> _]. pose proof (len_app_nonempty before after NE). nia.
Qed.

Lemma element_terminator_type e el : element_terminator (element_type e el) = element_terminator el.
Proof.
  unfold element_type. destruct (e_bo e); auto; destruct (dt_byte_order el) as [[]|]; auto;
    destruct (is_composite el); auto; destruct el; reflexivity.
Qed.

Lemma len_map {A B} (f : A -> B) l : len (map f l) = len l.
Proof. unfold len. now rewrite map_length. Qed.

Lemma map_snoc {A B} (f : A -> B) l xs y : map f l = xs ++ [y] -> exists l' z, l = l' ++ [z] /\ map f l' = xs /\ f z = y.
Proof.
  intros H. assert (N : l <> []) by (intros ->; destruct xs; discriminate).
  destruct (exists_last N) as (l' & z & ->). rewrite map_app in H. cbn in H. apply app_inj_tail in H.
  destruct H as [H1 H2]. eauto.
Qed.

Lemma sequence_reads orc e el m bs off fuel vals depth v n : extensional orc ->
  agrees orc (element_type e el) -> everywhere regular (DElems KSequence e el) ->
  create orc (DElems KSequence e el) None = Ok (Some m) -> 0 <= off <= len bs ->
  maps orc fuel m bs off vals depth v n -> reads orc bs (DElems KSequence e el) off vals v n.
Proof.
  intros X A Er C Ho M. destruct (element_map _ _ _ _ Er C) as (x & Cx).
  pose proof (regular_sound _ Er) as Sd. pose proof (regular_element _ _ _ Er) as Et.
  destruct (seq_parts _ _ _ _ _ X Sd C Cx) as (K & T1 & T2 & SH).
  pose proof (contained_nonneg _ _ K) as NN.
  destruct (has_data_size e) eqn:D.
  - destruct (get_byte_size el) as [b|] eqn:B.
    + destruct SH as [(op & ->)| ->].
      * pose proof (linear_prim _ _ _ _ _ _ C eq_refl Cx) as P.
        assert (B' : get_byte_size (element_type e el) = Some b) by now rewrite element_type_size.
        pose proof (sized_sequence orc fuel e el _ x b bs off vals depth v n X Sd C Cx D B Ho M) as (s & vs & k & MS & -> & LV & E & NK).
        apply (linear_seq_layout orc fuel e el _ _ _ op x bs off vals depth C Cx Sd ltac:(lia)) in M.
        destruct M as (b' & vs' & B2 & S & L & LP & LV' & Q & _). inversion Q; subst vs'.
        assert (b' = b) by congruence. subst b'.
        assert (LI : sequence_is_linear e (element_type e el) = true) by (apply linear_created in C; tauto).
        rewrite LI in NK. destruct NK as [-> ->].
        destruct (elements_reads _ _ _ _ _ _ X Et Cx A _ _ _ Ho E) as (rs & <- & R & SP & _).
        rewrite len_map in LV, LP.
        assert (BP : 0 < b).
        { assert (0 <= b) by (eapply sound_size; [exact (proj2 Sd)|exact B]).
          destruct (Z.eq_dec b 0); [|lia]. subst b. rewrite Zdiv.Zdiv_0_r in LV. lia. }
        assert (MD : s mod b = 0).
        { destruct Er as [[_ [_ Er]] _]. destruct MS as [(_ & MS & _)|[_ (y & MS & _)]]; [eapply Er; eauto|].
          exfalso. unfold sequence_is_linear in LI. rewrite MS in LI. destruct (is_composite _); discriminate. }
        pose proof (Z.div_mod s b ltac:(lia)) as DM. rewrite MD in DM.
        assert (SPAN : span rs = s) by lia.
        enough (G : reads orc bs (DElems KSequence e el) off vals (VTuple (map fst rs)) (span rs)) by (rewrite SPAN in G; exact G).
        apply (ReadSized orc bs e el s b rs off vals D B BP MS LV R).
        intros before after Q' NE. pose proof (span_prefix_lt _ _ _ _ P B' BP _ _ _ _ R Q' NE). nia.
      * pose proof (seq_maps_deep _ _ _ _ _ _ _ _ _ _ _ _ M) as Hd.
        destruct (seq_maps_bounds _ _ _ _ _ _ _ _ _ _ _ _ M) as (r & Br). pose proof Br as Br'.
        apply (bounds_sized orc e _ vals D) in Br'. destruct Br' as (s & MS & [(b' & B' & NZ & ->)|(t & B' & _)]);
          rewrite element_type_size, B in B'; [|discriminate].
        inversion B'; subst b'.
        apply (sequence_layout orc fuel x bs depth (Some (s / b)) (Some s) None off e (element_type e el) None vals X ltac:(lia) NN ltac:(discriminate) Br Hd) in M.
        destruct M as (vs & -> & [W W'] & AC & _). cbn in AC.
        destruct (elements_reads _ _ _ _ _ _ X Et Cx A _ _ _ Ho W) as (rs & <- & R & SP & PF).
        assert (n = span rs) by lia. subst n. rewrite len_map in AC.
        assert (BP : 0 < b) by (pose proof (sound_size el (proj2 Sd) b B); lia).
        apply (ReadSized orc bs e el s b rs off vals D B BP MS AC R).
        intros before after Q NE. destruct (Z.lt_ge_cases (span before) s); auto. exfalso.
        apply (W' (map fst before) (map fst after) (span before)).
        -- rewrite Q. apply map_app.
        -- destruct after; [congruence|discriminate].
        -- eapply PF; eauto.
        -- right. left. exists s. split; auto.
    + pose proof (sized_sequence_variable orc fuel e el m x bs off vals depth v n X Sd C Cx D B Ho M) as (s & t & vs & MS & ET & -> & E & F & PR).
      destruct (elements_reads _ _ _ _ _ _ X Et Cx A _ _ _ Ho E) as (rs & <- & R & SP & PF).
      assert (n = span rs) by lia. subst n.
      destruct el; try discriminate. cbn [element_terminator] in ET. inversion ET.
      eapply (ReadSizedVariable orc bs e); eauto.
      * destruct F as [F|[F1 F2]]; [left; auto|right]. split; auto. intros ->. cbn in F1. congruence.
      * intros before after Q NE. destruct (PR (map fst before) (map fst after) (span before)) as [Q1 Q2].
        -- rewrite Q. apply map_app.
        -- destruct after; [congruence|discriminate].
        -- eapply PF; eauto.
        -- split; auto. intros NB. apply Q2. destruct before; [congruence|discriminate].
  - destruct (e_terminator e) as [t|] eqn:T.
    + destruct SH as [(op & ->)|Em].
      { apply linear_created in C. destruct C as (_ & _ & L & _). unfold sequence_is_linear in L. rewrite T in L.
        destruct (is_composite _), (e_data_size_expr e); discriminate. }
      assert (Hd : depth <= 10) by (subst m; eapply seq_maps_deep; eauto).
      apply (terminated_sequence orc fuel e el m x t bs off vals depth X Sd C Cx D T Ho Hd) in M.
      destruct M as (vs & w & -> & Q & F & E & _).
      destruct (elements_reads _ _ _ _ _ _ X Et Cx A _ _ _ Ho E) as (rs & MQ & R & SP & _).
      apply map_snoc in MQ. destruct MQ as (rs' & [w' k] & -> & <- & Z). cbn in Z. subst w'.
      rewrite span_app in SP. cbn in SP. replace n with (span rs' + k) by lia.
      eapply ReadTerminated; eauto. clear -F. induction rs'; cbn in *; constructor; inversion F; auto.
    + destruct (counted_sequence orc fuel e el m x bs off vals depth X Sd C Cx D T Ho) as [CS _].
      apply CS in M. destruct M as (k & vs & MS & -> & LV & E).
      destruct (elements_reads _ _ _ _ _ _ X Et Cx A _ _ _ Ho E) as (rs & <- & R & SP & _).
      assert (n = span rs) by lia. subst n. rewrite len_map in LV. subst k. now apply ReadCounted.
Qed.

Lemma reads_sequence orc e el m bs off vals depth v n : extensional orc ->
  agrees orc (element_type e el) -> everywhere regular (DElems KSequence e el) ->
  create orc (DElems KSequence e el) None = Ok (Some m) -> 0 <= off <= len bs ->
  reads orc bs (DElems KSequence e el) off vals v n -> depth + levels (DElems KSequence e el) <= 11 ->
  exists f0, forall fuel, (f0 <= fuel)%nat -> maps orc fuel m bs off vals depth v n.
Proof.
  intros X A Er C Ho R D. destruct (element_map _ _ _ _ Er C) as (x & Cx).
  pose proof (regular_sound _ Er) as Sd. pose proof (regular_element _ _ _ Er) as Et.
  destruct (seq_parts _ _ _ _ _ X Sd C Cx) as (K & T1 & T2 & SH).
  pose proof (contained_nonneg _ _ K) as NN.
  cbn [levels] in D. rewrite <- (levels_element e) in D. pose proof (levels_nonneg (element_type e el)) as LN.
  assert (Hd : depth <= 10) by lia.
  assert (G : forall rs, reads_elements orc bs (element_type e el) off rs ->
    exists f0, forall fuel, (f0 <= fuel)%nat -> elements orc fuel x bs depth off (map fst rs) (off + span rs) /\
      (List.length rs < fuel)%nat /\
      forall before after, rs = before ++ after -> elements orc fuel x bs depth off (map fst before) (off + span before)).
  { intros rs RE. destruct (reads_elements_maps orc _ x bs depth X Et Cx A ltac:(lia) rs off Ho RE) as (f0 & F).
    exists (Nat.max f0 (S (List.length rs))). intros fuel Hf. specialize (F fuel ltac:(lia)).
    split; [apply (F rs []); now rewrite app_nil_r|]. split; [lia|exact F]. }
  inversion R; subst.
  - destruct (G _ ltac:(eassumption)) as (f0 & F). exists f0. intros fuel Hf. destruct (F fuel Hf) as (E & L & PF).
    destruct (counted_sequence orc fuel e el m x bs off vals depth X Sd C Cx) as [_ CS]; auto.
    eapply CS; eauto; [now rewrite len_map|]. unfold len. lia.
  - destruct (G _ ltac:(eassumption)) as (f0 & F). exists f0. intros fuel Hf. destruct (F fuel Hf) as (E & L & PF).
    apply (terminated_sequence orc fuel e el m x t bs off vals depth X Sd C Cx); auto.
    exists (map fst rs), w. split; auto. split; auto. split.
    { match goal with Q : Forall _ rs |- _ => clear -Q; induction Q; cbn; constructor; auto end. }
    rewrite map_app, span_app in E. cbn [map fst span fold_right snd] in E. rewrite Z.add_0_r in E. split; auto.
    rewrite map_length. rewrite app_length in L. cbn in L. lia.
  - match goal with Q : has_data_size e = true |- _ => rename Q into HD end.
    match goal with Q : get_byte_size el = Some _ |- _ => rename Q into B end.
    match goal with Q : measure _ _ _ _ _ |- _ => rename Q into MS end.
    match goal with Q : reads_elements _ _ _ _ _ |- _ => rename Q into RE end.
    match goal with Q : len rs = _ |- _ => rename Q into LV end.
    match goal with Q : forall before after, _ -> _ -> span before < s |- _ => rename Q into PS end.
    destruct (G _ RE) as (f0 & F). exists f0. intros fuel Hf. destruct (F fuel Hf) as (E & L & PF).
    destruct SH as [(op & ->)| ->].
    + pose proof (linear_prim _ _ _ _ _ _ C eq_refl Cx) as P.
      assert (B' : get_byte_size (element_type e el) = Some b) by now rewrite element_type_size.
      assert (LI : sequence_is_linear e (element_type e el) = true) by (apply linear_created in C; tauto).
      assert (DS : e_data_size e = Some s /\ 0 < s).
      { destruct MS as [(MZ & MS & _)|[_ (y & MS & _)]].
        - split; auto. destruct Sd as [[(_ & Sd3 & _) _] _]. auto.
        - exfalso. unfold sequence_is_linear in LI. rewrite MS in LI. destruct (is_composite _); discriminate. }
      destruct DS as [DS SP].
      assert (MD : s mod b = 0) by (destruct Er as [[_ [_ Er]] _]; eauto).
      pose proof (Z.div_mod s b ltac:(lia)) as DM. rewrite MD in DM.
      destruct (prim_span _ _ _ _ P B' _ _ RE) as [SQ SL].
      apply (linear_seq_layout orc fuel e el _ _ _ op x bs off vals depth C Cx Sd ltac:(lia)).
      assert (TS : truthy_Z (e_data_size e) = Some s) by (rewrite DS; cbn; destruct (Z.eqb_spec s 0); [lia|auto]).
      exists b, (map fst rs). rewrite len_map. split; auto.
      assert (span rs = s) by nia. assert (0 < len rs) by nia.
      split; [unfold elems_byte_size; rewrite TS; congruence|].
      split; [destruct SL as [-> |SL]; [unfold len in *; cbn in *; lia|lia]|].
      split; auto. split; [unfold linear_count; rewrite TS; auto|]. split; auto. rewrite <- SQ. exact E.
    + assert (Br : fst (seq_bounds orc e (element_type e el) (Some (ctx_new vals))) = Ok (Some (s / b), Some s, None)).
      { apply bounds_sized; auto. exists s. split; auto. left. exists b. rewrite element_type_size. split; auto. split; auto. lia. }
      apply (sequence_layout orc fuel x bs depth (Some (s / b)) (Some s) None off e (element_type e el) None vals X ltac:(lia) NN ltac:(discriminate) Br Hd).
      exists (map fst rs). split; auto. split; [|split].
      * split; auto. intros vb va k Q NE EB [CQ|[(s' & CQ & CL)|(t & CQ & _)]]; [| |discriminate].
        -- inversion CQ. apply (f_equal len) in Q. rewrite len_map in Q. pose proof (len_app_nonempty vb va NE). lia.
        -- inversion CQ; subst s'. destruct (elements_at orc fuel x bs depth off rs ltac:(lia) PF vb va k Q EB) as (b1 & a1 & Q1 & _ & Q2 & ->).
           assert (a1 <> []) by (intros ->; cbn in Q2; congruence). specialize (PS _ _ Q1 H). lia.
      * cbn. rewrite len_map. auto.
      * left. rewrite map_length. exact L.
  - match goal with Q : has_data_size e = true |- _ => rename Q into HD end.
    match goal with Q : get_byte_size _ = None |- _ => rename Q into B end.
    match goal with Q : measure _ _ _ _ _ |- _ => rename Q into MS end.
    match goal with Q : reads_elements _ _ _ _ _ |- _ => rename Q into RE end.
    match goal with Q : e_terminator e' = _ |- _ => rename Q into TE end.
    match goal with Q : _ \/ (_ <> [] /\ _) |- _ => rename Q into FIN end.
    match goal with Q : forall before after, _ -> _ -> span before < s /\ _ |- _ => rename Q into PS end.
    destruct (G _ RE) as (f0 & F). exists f0. intros fuel Hf. destruct (F fuel Hf) as (E & L & PF).
    destruct SH as [(op & ->)| ->].
    { apply linear_created in C. destruct C as (_ & _ & LI & _). unfold sequence_is_linear in LI. rewrite element_type_composite in LI. discriminate. }
    assert (Br : fst (seq_bounds orc e (element_type e (DElems k e' el')) (Some (ctx_new vals))) = Ok (None, Some s, Some t)).
    { apply bounds_sized; auto. exists s. split; auto. right. exists t. rewrite element_type_size, element_terminator_type.
      cbn [element_terminator]. rewrite TE. auto. }
    assert (TN : Some t <> Some VNone).
    { intros Q. apply T2. rewrite element_terminator_type. cbn [element_terminator]. congruence. }
    apply (sequence_layout orc fuel x bs depth None (Some s) (Some t) off e (element_type e (DElems k e' el')) None vals X ltac:(lia) NN TN Br Hd).
    exists (map fst rs). split; auto. split; [|split].
    + split; auto. intros vb va j Q NE EB [CQ|[(s' & CQ & CL)|(t' & CQ & NV & LV)]]; [discriminate| |].
      * inversion CQ; subst s'. destruct (elements_at orc fuel x bs depth off rs ltac:(lia) PF vb va j Q EB) as (b1 & a1 & Q1 & _ & Q2 & ->).
        assert (N1 : a1 <> []) by (intros ->; cbn in Q2; congruence). destruct (PS _ _ Q1 N1). lia.
      * inversion CQ; subst t'. destruct (elements_at orc fuel x bs depth off rs ltac:(lia) PF vb va j Q EB) as (b1 & a1 & Q1 & -> & Q2 & _).
        assert (N1 : a1 <> []) by (intros ->; cbn in Q2; congruence). destruct (PS _ _ Q1 N1) as [_ Q3].
        rewrite Q3 in LV; [discriminate|]. intros ->. cbn in NV. congruence.
    + cbn. destruct FIN as [FIN|[N1 FIN]]; [right; left; eauto|right; right]. exists t. split; auto. split; auto.
      intros Q. apply map_eq_nil in Q. congruence.
    + left. rewrite map_length. exact L.
Qed.

(** ** Structures *)

Lemma right_head orc fuel cls vals bs depth names pre o m ms x xs r rs :
  right orc fuel cls vals bs depth names pre o (m :: ms) (x :: xs) (r :: rs) <->
  (let e := scope cls (partly cls names pre) vals in
   match r with
   | None => condition_is orc m e false
   | Some (v, n) => condition_is orc m e true /\ allowed m v /\
       exists y, x = Some y /\ maps orc fuel y bs o e (depth + 1) v n
   end) /\
  right orc fuel cls vals bs depth names (pre ++ [r]) (o + size_of r) ms xs rs.
Proof.
  split.
  - intros [RL R]. split.
    + specialize (R 0%nat m x r eq_refl eq_refl eq_refl). cbn zeta in *. cbn [firstn total fold_right] in R.
      rewrite app_nil_r, Z.add_0_r in R. exact R.
    + split; [cbn in RL; lia|]. intros i d y r' H1 H2 H3. specialize (R (S i) d y r' H1 H2 H3).
      cbn zeta in *. cbn [firstn] in R. rewrite <- app_assoc. cbn [app].
      replace (o + size_of r + total (firstn i rs)) with (o + total (r :: firstn i rs))
        by (cbn; unfold total; lia). exact R.
  - intros [H [RL R]]. split; [cbn; lia|]. intros i d y r' H1 H2 H3. destruct i as [|i]; cbn in H1, H2, H3.
    + inversion H1; inversion H2; inversion H3; subst. cbn zeta in *. cbn [firstn total fold_right].
      rewrite app_nil_r, Z.add_0_r. exact H.
    + specialize (R i d y r' H1 H2 H3). cbn zeta in *. cbn [firstn]. rewrite <- app_assoc in R. cbn [app] in R.
      replace (o + total (r :: firstn i rs)) with (o + size_of r + total (firstn i rs))
        by (cbn; unfold total; lia). exact R.
Qed.

Lemma members_reads orc fuel cls bo vals bs depth names : extensional orc ->
  forall ms xs pre o rs, 0 <= o <= len bs ->
  Forall (fun m => agrees orc (used_type cls bo m) /\ everywhere regular (used_type cls bo m)) ms ->
  Forall2 (fun m x => create orc (used_type cls bo m) None = Ok x) ms xs ->
  right orc fuel cls vals bs depth names pre o ms xs rs ->
  reads_members orc bs cls bo names vals pre ms o rs.
Proof.
  intros X. induction ms as [|m ms IH]; intros xs pre o rs Ho A C R.
  - destruct R as [L _]. destruct rs; [constructor|discriminate].
  - inversion C; subst. inversion A as [|? ? [A1 E1] A2]; subst.
    destruct rs as [|r rs]; [destruct R as [L _]; discriminate|]. apply right_head in R. destruct R as [H R].
    cbn zeta in H. destruct r as [[v n]|].
    + destruct H as (P1 & P2 & y' & -> & M).
      match goal with Q : create _ _ _ = Ok (Some y') |- _ => rename Q into Cy end.
      pose proof (created_contained _ _ _ X E1 Cy) as K. destruct (contained_inside _ _ _ _ _ _ _ _ _ K Ho M) as [N L].
      apply ReadPresent; auto.
      * eapply A1; eauto.
      * cbn [size_of] in R. eapply IH; eauto. lia.
    + apply ReadAbsent; auto. cbn [size_of] in R. rewrite Z.add_0_r in R. eapply IH; eauto.
Qed.

Lemma reads_members_maps orc cls bo vals bs depth names : extensional orc ->
  forall ms xs pre o rs, 0 <= o <= len bs ->
  Forall (fun m => agrees orc (used_type cls bo m) /\ everywhere regular (used_type cls bo m)) ms ->
  Forall2 (fun m x => create orc (used_type cls bo m) None = Ok x) ms xs ->
  Forall (fun m => depth + 1 + levels m <= 11) ms ->
  reads_members orc bs cls bo names vals pre ms o rs ->
  exists f0, forall fuel, (f0 <= fuel)%nat -> right orc fuel cls vals bs depth names pre o ms xs rs.
Proof.
  intros X. induction ms as [|m ms IH]; intros xs pre o rs Ho A C D R.
  - inversion R; subst. exists 0%nat. intros fuel _. split; auto. intros i d x r H. destruct i; discriminate.
  - inversion C as [|? x ? xs' Cx Cs]; subst. inversion A as [|? ? [A1 E1] A2]; subst. inversion D as [|? ? D1 D2]; subst.
    inversion R; subst.
    + match goal with Q : reads _ _ _ _ _ _ _ |- _ => rename Q into RD end.
      match goal with Q : reads_members _ _ _ _ _ _ _ _ _ _ |- _ => rename Q into RM end.
      assert (XS : exists y, x = Some y).
      { destruct x as [y|]; [eauto|]. exfalso. clear -RD Cx.
        set (u := used_type cls bo m) in *. clearbody u.
        destruct RD; cbn [create] in Cx; try discriminate;
        repeat match type of Cx with
        | bind _ _ = _ => let y := fresh in apply bind_ok in Cx; destruct Cx as (y & _ & Cx)
        | (match ?z with _ => _ end) = _ => destruct z; try discriminate
        end; discriminate. }
      destruct XS as (y & ->).
      destruct (proj2 (A1 E1 y Cx bs o Ho) _ (depth + 1) _ _ RD) as (f1 & F1).
      { rewrite levels_used. lia. }
      pose proof (created_contained _ _ _ X E1 Cx) as K.
      destruct (contained_inside _ _ f1 _ _ _ _ _ _ K Ho (F1 f1 (le_n _))) as [N L].
      assert (Ho2 : 0 <= o + n <= len bs) by lia. destruct (IH xs' _ _ _ Ho2 A2 Cs D2 RM) as (f2 & F2).
      exists (Nat.max f1 f2). intros fuel Hf. apply right_head. cbn zeta. split.
      * split; auto. split; auto. exists y. split; auto. apply F1. lia.
      * apply F2. lia.
    + match goal with Q : reads_members _ _ _ _ _ _ _ _ _ _ |- _ => rename Q into RM end.
      destruct (IH xs' _ _ _ Ho A2 Cs D2 RM) as (f2 & F2).
      exists f2. intros fuel Hf. apply right_head. cbn zeta. split; auto. cbn [size_of]. rewrite Z.add_0_r. apply F2. lia.
Qed.

Lemma partly_whole cls names rs : List.length rs = List.length names ->
  partly cls names rs = VStruct cls (combine names (map value_of rs)).
Proof. intros L. unfold partly. rewrite L, Nat.sub_diag. cbn. now rewrite app_nil_r. Qed.

(** The members of a structure read in one go. *)
Lemma members_sized orc bs cls bo names vals : forall ms pre o rs last acc,
  check_linear last ms = Ok true ->
  (forall m, In m ms -> is_padding (type_of m) = false) ->
  reads_members orc bs cls bo names vals pre ms o rs -> exists n, struct_size_loop ms acc = Some n.
Proof.
  induction ms as [|m ms IH]; intros pre o rs last acc L P R; [cbn; eauto|].
  cbn [check_linear] in L. destruct (is_composite m) eqn:IC; [discriminate|]. destruct (is_padding m) eqn:IP; [discriminate|].
  cbn [orb] in L. destruct (dt_byte_order m) as [b0|]; [|discriminate].
  destruct (negb (is_native last) && negb (is_native b0) && negb (bo_eqb last b0)); [discriminate|].
  assert (NC : truthy_str (member_cond m) = None).
  { destruct m; auto. cbn in *. destruct (truthy_str condition); auto. discriminate. }
  inversion R; subst.
  - match goal with Q : reads _ _ _ _ _ _ _ |- _ => rename Q into RD end.
    match goal with Q : reads_members _ _ _ _ _ _ _ _ _ _ |- _ => rename Q into RM end.
    assert (PT : is_prim (used_type cls bo m) = true).
    { specialize (P m (or_introl eq_refl)). rewrite is_prim_used.
      assert (IT : is_composite (type_of m) = false).
      { destruct m; auto. cbn in *. apply orb_false_iff in IC. tauto. }
      assert (Q : exists t, used_type cls bo m = t /\ (is_composite t = false /\ is_padding t = false /\ is_prim t = is_prim (type_of m))).
      { eexists. split; [reflexivity|]. destruct (used_cases cls bo m) as [-> | [k ->]]; auto.
        destruct (type_of m); auto. }
      destruct Q as (t & Q & I1 & I2 & I3). rewrite Q in RD. rewrite <- I3. destruct RD; try discriminate; auto. }
    assert (SZ : exists k, get_byte_size (used_type cls bo m) = Some k).
    { clear -PT RD. set (u := used_type cls bo m) in *. clearbody u.
      destruct RD; try discriminate; cbn [get_byte_size]; eexists; apply sized_byte_size; eassumption. }
    destruct SZ as (k & SZ). rewrite used_size in SZ.
    assert (SM : get_byte_size m = Some k).
    { destruct m; auto. cbn in *. now rewrite NC. }
    assert (PA : pad_align m = None) by (destruct m; auto; discriminate).
    cbn [struct_size_loop]. rewrite PA, SM. cbn [struct_size_step]. eapply IH; eauto. intros m' Hm. apply P. now right.
  - match goal with Q : condition_is _ _ _ false |- _ => unfold condition_is in Q; rewrite NC in Q; discriminate end.
Qed.

Lemma check_linear_composite : forall ms last m, In m ms -> is_composite m = true \/ is_padding m = true ->
  check_linear last ms = Ok true -> False.
Proof.
  induction ms as [|x ms IH]; intros last m I H L; [destruct I|]. cbn [check_linear] in L. destruct I as [->|I].
  - destruct H as [H | H]; rewrite H in L; [discriminate|]. rewrite orb_true_r in L. discriminate.
  - destruct (is_composite x || is_padding x); [discriminate|]. destruct (dt_byte_order x); [|discriminate].
    destruct (negb _ && negb _ && negb _); [discriminate|]. eapply IH; eauto.
Qed.

Lemma structure_agrees orc mt bo ms : extensional orc ->
  Forall (fun m => agrees orc (used_type (m_name mt) bo m)) ms -> agrees orc (DStructure mt bo ms).
Proof.
  intros X A Er m C bs off Ho. pose proof (regular_sound _ Er) as Sd.
  destruct Er as [[[_ WN] (CN & _ & NN & RG)] Em]. apply everywhere_list in Em.
  pose proof (well_named_distinct _ _ _ WN (m_name mt) bo) as DT.
  assert (A' : Forall (fun m => agrees orc (used_type (m_name mt) bo m) /\ everywhere regular (used_type (m_name mt) bo m)) ms).
  { rewrite Forall_forall in *. intros x Hx. split; auto. specialize (Em x Hx). apply everywhere_type in Em.
    unfold used_type. destruct bo; auto; destruct (dt_byte_order (type_of x)) as [[]|] eqn:B; auto;
    (apply regular_copy; [exact B| |exact Em]); intros mt1 ms1 T;
    (destruct (NN x mt1 ms1) as [(c & r & -> & Hc) N2]; [discriminate|exact Hx|exact T|]); (split; [do 2 eexists; split; [reflexivity|exact Hc]|exact N2]). }
  assert (SH : exists lin d cls ms' attrs op, m = MStructure lin d cls ms' attrs op).
  { cbn [create] in C. apply bind_ok in C. destruct C as (s & S & C). inversion C; subst s. unfold create_structure in S.
    repeat (apply bind_ok in S; destruct S as (? & _ & S)). destruct x1; [apply bind_ok in S; destruct S as (? & _ & S)|];
      inversion S; do 6 eexists; reflexivity. }
  destruct SH as (lin & d & cls & ms' & attrs & op & ->).
  pose proof (structure_own_maps _ _ _ _ _ _ _ _ _ _ C DT) as OM.
  assert (CX : Forall2 (fun m x => create orc (used_type (m_name mt) bo m) None = Ok x) ms (map snd attrs)).
  { clear -OM. induction OM as [|a b l l' [_ Q] F IH]; cbn; constructor; auto. }
  pose proof (created_shape _ _ _ _ _ _ _ _ _ _ _ C) as SH. cbn [ov_name ov_bo apply_ov] in SH.
  destruct SH as (-> & -> & -> & NE & ND & AN & LA & _ & CL & OP).
  assert (LV : forall rs fuel vals depth, laid orc fuel (m_name mt) vals bs depth ms (map snd attrs) off rs <->
     right orc fuel (m_name mt) vals bs depth (map dt_name ms) [] off ms (map snd attrs) rs) by (intros; reflexivity).
  assert (PW : forall rs, List.length rs = List.length ms -> partly (m_name mt) (map dt_name ms) rs =
     VStruct (m_name mt) (combine (map dt_name ms) (map value_of rs))).
  { intros rs L. apply partly_whole. now rewrite map_length. }
  assert (RL : forall pre o rs vals, reads_members orc bs (m_name mt) bo (map dt_name ms) vals pre ms o rs -> List.length rs = List.length ms).
  { intros pre o rs vals. generalize (map dt_name ms). intros names. clear. revert pre o rs. induction ms; intros pre o rs R; inversion R; subst; cbn; eauto. }
  assert (GEN : (forall fuel vals depth v n, depth <= 10 \/ lin = true ->
      maps orc fuel (MStructure lin (DStructure mt bo ms) (m_name mt) ms attrs op) bs off vals depth v n ->
      exists rs, laid orc fuel (m_name mt) vals bs depth ms (map snd attrs) off rs /\
        v = partly (m_name mt) (map dt_name ms) rs /\ n = total rs) /\
    (forall fuel vals depth rs, depth <= 10 -> reads_members orc bs (m_name mt) bo (map dt_name ms) vals [] ms off rs ->
      laid orc fuel (m_name mt) vals bs depth ms (map snd attrs) off rs ->
      maps orc fuel (MStructure lin (DStructure mt bo ms) (m_name mt) ms attrs op) bs off vals depth
        (partly (m_name mt) (map dt_name ms) rs) (total rs))).
  { destruct lin.
    - assert (RG' : forall m, In m ms -> is_padding (type_of m) = false /\
         forall b, dt_byte_order (type_of m) = Some b -> b = BONative \/ b = bo).
      { destruct RG as [(x & I & H)|RG]; auto. exfalso. eapply check_linear_composite; eauto. }
      assert (LM : forall n fuel vals depth, get_byte_size (DStructure mt bo ms) = Some n ->
        forall v k, maps orc fuel (MStructure true (DStructure mt bo ms) (m_name mt) ms attrs op) bs off vals depth v k <->
          exists rs, laid orc fuel (m_name mt) vals bs depth ms (map snd attrs) off rs /\
            v = partly (m_name mt) (map dt_name ms) rs /\ k = total rs).
      { intros n fuel vals depth S. eapply linear_members; eauto; [lia|].
        intros m b I B. destruct (RG' m I) as [_ Q]. destruct (Q _ B) as [-> | ->]; auto. }
      split.
      + intros fuel vals depth v n _ M. destruct (get_byte_size (DStructure mt bo ms)) as [k|] eqn:S.
        * eapply LM; eauto.
        * exfalso. destruct M as (c & Q & _). cbn [mapbs] in Q. unfold map_struct_linear in Q. rewrite S in Q. discriminate.
      + intros fuel vals depth rs _ R L.
        destruct (members_sized orc bs (m_name mt) bo (map dt_name ms) vals ms [] off rs bo 0 CL) as (n & S); auto.
        { intros x Hx. now apply RG'. }
        eapply LM; eauto. rewrite structure_size. destruct ms; [congruence|exact S].
    - split.
      + intros fuel vals depth v n [D|D] M; [|discriminate].
        destruct (structure_members orc fuel mt bo ms None _ _ _ _ _ bs off vals depth X C CN D) as (_ & _ & SM).
        now apply SM.
      + intros fuel vals depth rs D _ L.
        destruct (structure_members orc fuel mt bo ms None _ _ _ _ _ bs off vals depth X C CN D) as (_ & _ & SM).
        apply SM. eauto. }
  destruct GEN as [G1 G2]. split.
  - intros fuel vals depth v n M.
    destruct (G1 fuel vals depth v n) as (rs & L & -> & ->); auto.
    { destruct lin; auto. left. destruct (Z.lt_ge_cases 10 depth) as [D|D]; [|lia].
      apply maps_fst in M. rewrite too_deep in M by (cbn; auto). discriminate. }
    rewrite PW by (destruct L; auto). apply LV in L. apply ReadStructure.
    eapply members_reads; eauto.
  - intros vals depth v n R D. inversion R; subst.
    match goal with Q : reads_members _ _ _ _ _ _ _ _ _ _ |- _ => rename Q into RM end.
    cbn [levels] in D.
    assert (LL : 0 <= fold_right (fun m a => Z.max (levels m) a) 0 ms).
    { clear. induction ms; cbn; lia. }
    destruct (reads_members_maps orc (m_name mt) bo vals bs depth (map dt_name ms) X ms (map snd attrs) [] off rs Ho A' CX) as (f0 & F); auto.
    { rewrite Forall_forall. intros x Hx. pose proof (levels_member x ms Hx). lia. }
    exists f0. intros fuel Hf. rewrite <- PW by eauto. apply G2; auto; [lia|]. apply LV. now apply F.
Qed.

(** ** Structure groups *)

Lemma lists_unique identifier mt bo l vs vs' : NoDup (map dt_name l) ->
  lists identifier (DStructure mt bo l) vs -> lists identifier (DStructure mt bo l) vs' -> vs = vs'.
Proof.
  intros ND (mt1 & bo1 & ms1 & m1 & b1 & c1 & t1 & i1 & [Q1|Q1] & I1 & N1) (mt2 & bo2 & ms2 & m2 & b2 & c2 & t2 & i2 & [Q2|Q2] & I2 & N2);
    try discriminate. inversion Q1; subst mt1 bo1 ms1. inversion Q2; subst mt2 bo2 ms2.
  assert (E : DMember m1 b1 c1 t1 (Some vs) i1 = DMember m2 b2 c2 t2 (Some vs') i2).
  { clear Q1 Q2. induction l as [|x l IH]; [destruct I1|]. inversion ND as [|? ? NI ND']; subst.
    destruct I1 as [I1|I1], I2 as [I2|I2]; [congruence| | |auto].
    - exfalso. apply NI. apply in_map_iff. exists (DMember m2 b2 c2 t2 (Some vs') i2). split; [|exact I2]. subst x. change (m_name m2 = m_name m1). congruence.
    - exfalso. apply NI. apply in_map_iff. exists (DMember m1 b1 c1 t1 (Some vs) i1). split; [|exact I1]. subst x. change (m_name m1 = m_name m2). congruence. }
  now inversion E.
Qed.

Lemma chosen_selects orc identifier default df ms ll id : 
  Forall2 (fun x l => lists identifier x (map fst l) /\ (forall vs, lists identifier x vs -> vs = map fst l) /\
     Forall (fun e : pyval * option dmap => create orc x None = Ok (snd e)) l) ms ll ->
  match default with Some x => create orc x None = Ok df | None => df = None end ->
  (forall y, chosen df (concat ll) id (Some y) ->
     exists d, selects identifier default ms id d /\ create orc d None = Ok (Some y)) /\
  (forall d, selects identifier default ms id d -> exists r, create orc d None = Ok r /\ chosen df (concat ll) id r).
Proof.
  intros F Dd.
  set (has := fun x => exists vs w, lists identifier x vs /\ In w vs /\ py_eq id w = true).
  assert (HB : forall x l, lists identifier x (map fst l) -> (forall vs, lists identifier x vs -> vs = map fst l) ->
     (~ has x <-> Forall (fun e : pyval * option dmap => py_eq id (fst e) = false) l) /\
     (has x <-> exists e, In e l /\ py_eq id (fst e) = true)).
  { intros x l L U. assert (P : has x <-> exists e, In e l /\ py_eq id (fst e) = true).
    { split.
      - intros (vs & w & L' & I & E). apply U in L'. subst vs. apply in_map_iff in I. destruct I as (e & <- & I). eauto.
      - intros (e & I & E). exists (map fst l), (fst e). split; auto. split; auto. now apply in_map. }
    split; auto. rewrite P, Forall_forall. split.
    - intros N e I. destruct (py_eq id (fst e)) eqn:Q; auto. exfalso. eauto.
    - intros N (e & I & E). rewrite N in E; auto. discriminate. }
  assert (NONE : forall ms ll, Forall2 (fun x l => lists identifier x (map fst l) /\ (forall vs, lists identifier x vs -> vs = map fst l) /\
     Forall (fun e : pyval * option dmap => create orc x None = Ok (snd e)) l) ms ll ->
     (Forall (fun x => ~ has x) ms <-> Forall (fun e : pyval * option dmap => py_eq id (fst e) = false) (concat ll))).
  { clear -HB. induction 1 as [|x l ms ll (L & U & C) F IH]; cbn; [split; constructor|]. rewrite Forall_app, <- IH.
    destruct (HB x l L U) as [N _]. rewrite <- N. split; intros H; [inversion H; auto|constructor; tauto]. }
  split.
  - intros y [(before & k & after & Q & E & NB)|(N & Q)].
    + assert (G : exists b d a, ms = b ++ d :: a /\ has d /\ Forall (fun x => ~ has x) b /\ create orc d None = Ok (Some y)).
      { clear Dd. revert before Q NB. induction F as [|x l ms ll (L & U & C) F IH]; intros before Q NB; cbn in Q.
        - destruct before; discriminate.
        - destruct (HB x l L U) as [N P].
          destruct (Nat.le_gt_cases (List.length l) (List.length before)) as [LE|GT].
          + assert (BL : exists b', before = l ++ b').
            { exists (skipn (List.length l) before). rewrite <- (firstn_skipn (List.length l) before) at 1. f_equal.
              apply (f_equal (firstn (List.length l))) in Q. rewrite firstn_app, firstn_all, Nat.sub_diag, firstn_O, app_nil_r in Q.
              rewrite firstn_app in Q. replace (List.length l - List.length before)%nat with 0%nat in Q by lia.
              rewrite firstn_O, app_nil_r in Q. auto. }
            destruct BL as (b' & ->). rewrite <- app_assoc in Q. apply app_inv_head in Q.
            apply Forall_app in NB. destruct NB as [NB1 NB2].
            destruct (IH b' Q NB2) as (b & d & a & -> & H & NH & Cd). exists (x :: b), d, a. split; auto. split; auto. split; auto.
            constructor; auto. now apply N.
          + exists [], x, ms. split; auto.
            assert (I : In (k, Some y) l).
            { assert (NE : nth_error (l ++ concat ll) (List.length before) = Some (k, Some y)).
              { rewrite Q, nth_error_app2, Nat.sub_diag by lia. reflexivity. }
              rewrite nth_error_app1 in NE by lia. eapply nth_error_In; eauto. }
            split; [apply P; eauto|]. split; [constructor|]. rewrite Forall_forall in C. exact (C _ I). }
      destruct G as (b & d & a & -> & H & NH & Cd). exists d. split; auto. left. exists b, a. auto.
    + apply (NONE _ _ F) in N. subst df. destruct default as [x|]; [|discriminate Dd]. exists x. split; auto. right. auto.
  - intros d [(before & after & -> & H & NH)|(N & ->)].
    + apply Forall2_app_inv_l in F. destruct F as (l1 & l2 & F1 & F2 & ->). inversion F2 as [|? l ? l3 (L & U & C) F3]; subst.
      destruct (HB d l L U) as [_ P]. apply P in H. destruct H as (e0 & I0 & E0).
      assert (SP : exists a e b, l = a ++ e :: b /\ py_eq id (fst e) = true /\ Forall (fun e : pyval * option dmap => py_eq id (fst e) = false) a).
      { clear -I0 E0. induction l as [|x l IH]; [destruct I0|]. destruct (py_eq id (fst x)) eqn:Q.
        - exists [], x, l. auto.
        - destruct I0 as [->|I0]; [congruence|]. destruct (IH I0) as (a & e & b & -> & E & F). exists (x :: a), e, b. auto. }
      destruct SP as (a & [k z] & b & -> & E & NA). exists z. split.
      { rewrite Forall_app in C. destruct C as [_ C]. now inversion C. }
      left. exists (concat l1 ++ a), k, (b ++ concat l3).
      split.
      * rewrite concat_app. cbn. rewrite <- !app_assoc. reflexivity.
      * split; auto. apply Forall_app. split; auto. now apply (NONE _ _ F1).
    + exists df. split; auto. right. split; [now apply (NONE _ _ F)|auto].
Qed.

Lemma group_parts orc mt bo base identifier default ms m :
  (forall x, In x ms -> exists mt bo l, x = DStructure mt bo l /\ NoDup (map dt_name l)) ->
  create orc (DGroup mt bo base identifier default ms) None = Ok (Some m) ->
  exists d b df ll, m = MGroup d identifier b df (concat ll) /\ create orc base None = Ok b /\
    match default with Some x => create orc x None = Ok df | None => df = None end /\
    Forall2 (fun x l => lists identifier x (map fst l) /\ (forall vs, lists identifier x vs -> vs = map fst l) /\
       Forall (fun e : pyval * option dmap => create orc x None = Ok (snd e)) l) ms ll.
Proof.
  intros ST C. cbn [create] in C. apply bind_ok in C. destruct C as (df & D & C).
  apply bind_ok in C. destruct C as (b & B & C).
  destruct ms as [|m0 ms0] eqn:Ems; [discriminate|]. rewrite <- Ems in *. clear m0 ms0 Ems.
  apply bind_ok in C. destruct C as (entries & G & C). inversion C; subst m. clear C.
  apply group_maps_spec in G; [|constructor]. destruct G as (vss & ll & F1 & -> & F2 & F3 & _). cbn [app] in *.
  do 3 eexists. exists ll. split; [reflexivity|]. split; [exact B|]. split; [destruct default; [exact D|congruence]|].
  clear -F1 F2 F3 ST. revert vss ll F1 F2 F3. induction ms as [|x ms IH]; intros vss ll F1 F2 F3; cbn in *.
  - inversion F1; subst. inversion F2; subst. constructor.
  - inversion F1 as [|? vs ? vss' V F1']; subst. inversion F2 as [|? l ? ll' L F2']; subst. inversion F3 as [|? ? ? ? C F3']; subst.
    cbn in V. apply member_values_lists in V. constructor.
    + split; auto. split; auto. intros vs' L'. destruct (ST x (or_introl eq_refl)) as (mt & bo & ms' & -> & ND).
      eapply lists_unique; eauto.
    + apply (IH ltac:(intros y Hy; apply ST; auto) vss'); auto.
Qed.

Lemma reads_mapped orc d bs off vals v n : reads orc bs d off vals v n ->
  match d with DUnion _ _ _ | DFamily _ _ _ | DMember _ _ _ _ _ _ => False | _ => True end.
Proof. destruct 1; exact I. Qed.

Lemma mapped_some orc d r : match d with DUnion _ _ _ | DFamily _ _ _ | DMember _ _ _ _ _ _ => False | _ => True end ->
  create orc d None = Ok r -> exists y, r = Some y.
Proof.
  intros K C. destruct d; try contradiction; cbn [create] in C;
    repeat match type of C with
    | bind _ _ = _ => let y := fresh in apply bind_ok in C; destruct C as (y & _ & C)
    | (match ?z with _ => _ end) = _ => destruct z; try discriminate
    end; try discriminate; inversion C; eauto.
Qed.

Lemma group_agrees orc mt bo base identifier default ms : extensional orc ->
  agrees orc base -> on_def (agrees orc) default -> Forall (agrees orc) ms ->
  agrees orc (DGroup mt bo base identifier default ms).
Proof.
  intros X Ab Ad Am Er m C bs off Ho. destruct Er as [[_ ST] (Eb & Ed & Em)]. apply everywhere_list in Em.
  destruct (group_parts _ _ _ _ _ _ _ _ ST C) as (d & b & df & ll & -> & Cb & Cd & F).
  destruct (chosen_selects orc identifier default df ms ll) with (id := VNone) as [_ _]; auto.
  assert (SEL : forall id x, selects identifier default ms id x -> agrees orc x /\ everywhere regular x /\
     levels x <= levels (DGroup mt bo base identifier default ms)).
  { intros id x [(before & after & -> & _ & _)|(_ & ->)].
    - rewrite Forall_forall in Am, Em. assert (I : In x (before ++ x :: after)) by (apply in_or_app; right; now left).
      split; auto. split; auto. cbn [levels]. pose proof (levels_member _ _ I). lia.
    - cbn in Ad. split; auto. split; auto. cbn [levels]. lia. }
  split.
  - intros fuel vals depth v n M. apply (group_layout orc fuel) in M; auto.
    destruct M as (id & y & (x & w & k & -> & Mb & <-) & NN & CH & My).
    destruct (chosen_selects orc identifier default df ms ll (py_getattr w identifier) F Cd) as [S _].
    destruct (S _ CH) as (d' & SL & Cy). destruct (SEL _ _ SL) as (A' & E' & _).
    eapply ReadGroup; eauto.
    + eapply Ab; eauto.
    + eapply A'; eauto.
  - intros vals depth v n R D. inversion R; subst.
    match goal with Q : reads _ _ base _ _ _ _ |- _ => rename Q into Rb end.
    match goal with Q : reads _ _ _ _ _ v n |- _ => rename Q into Rd end.
    match goal with Q : selects _ _ _ _ _ |- _ => rename Q into SL end.
    destruct (mapped_some orc base b (reads_mapped _ _ _ _ _ _ _ Rb) Cb) as (x & ->).
    destruct (SEL _ _ SL) as (A' & E' & LV).
    destruct (chosen_selects orc identifier default df ms ll (py_getattr b0 identifier) F Cd) as [_ S].
    destruct (S _ SL) as (r & Cr & CH). destruct (mapped_some _ _ _ (reads_mapped _ _ _ _ _ _ _ Rd) Cr) as (y & ->).
    destruct (proj2 (Ab Eb x Cb bs off Ho) [] depth _ _ Rb) as (f1 & F1); [cbn [levels] in D; lia|].
    destruct (proj2 (A' E' y Cr bs off Ho) [] depth _ _ Rd) as (f2 & F2); [lia|].
    exists (Nat.max f1 f2). intros fuel Hf. apply (group_layout orc fuel); auto.
    exists (py_getattr b0 identifier), y. split; [|split; [auto|split; [auto|apply F2; lia]]].
    exists x, b0, k. split; auto. split; auto. apply F1. lia.
Qed.

(** ** All definitions *)

Lemma all_agree orc : extensional orc -> forall d, agrees orc d.
Proof.
  intros X.
  assert (STEP : forall d,
    match d with
    | DElems _ _ el => agrees orc el /\ (dt_byte_order el = Some BONative -> forall n b, agrees orc (set_name_bo n b el))
    | DStructure _ _ ms => Forall (fun m => agrees orc (type_of m) /\
        (dt_byte_order (type_of m) = Some BONative -> forall n b, agrees orc (set_name_bo n b (type_of m)))) ms
    | DGroup _ _ b _ df ms => agrees orc b /\ on_def (agrees orc) df /\ Forall (agrees orc) ms
    | _ => True
    end -> agrees orc d).
  { intros d H. destruct d; try (intros Er m' C bs off Ho; cbn [create] in C; discriminate).
    1-4: intros Er m' C bs off Ho; split;
      [intros fuel vals depth v n M; now refine (proj1 (prim_reads orc fuel _ _ bs off vals depth v n _ C (proj1 Ho)) _)
      |intros vals depth v n R D; exists 0%nat; intros fuel _;
       now refine (proj2 (prim_reads orc fuel _ _ bs off vals depth v n _ C (proj1 Ho)) _)].
    - intros [[[So _] _] _] m C bs off Ho. cbn [create apply_ov] in C. inversion C; subst m. split.
      + intros. eapply uuid_reads; eauto. lia.
      + intros vals depth v n R D. exists 0%nat. intros fuel _. apply uuid_reads; auto. lia.
    - intros [[[So _] _] _] m' C bs off Ho. cbn [create apply_ov] in C. inversion C; subst m'. split.
      + intros. eapply padding_reads; eauto. lia.
      + intros vals depth v n R D. exists 0%nat. intros fuel _. apply padding_reads; auto. lia.
    - destruct H as [H1 H2].
      assert (A : agrees orc (element_type e d)).
      { unfold element_type. destruct (e_bo e); auto; destruct (dt_byte_order d) as [[]|] eqn:B; auto; destruct (is_composite d); auto. }
      intros Er m C bs off Ho. destruct k.
      + split.
        * intros. eapply sequence_reads; eauto.
        * intros. eapply reads_sequence; eauto.
      + pose proof (regular_sound _ Er) as [Sd Se]. apply created_elems in C. destruct C as (em & _ & ->). split.
        * intros. eapply stream_reads; eauto. lia.
        * intros vals depth v n R D. exists 0%nat. intros fuel _. apply stream_reads; auto. lia.
      + pose proof (regular_sound _ Er) as [Sd Se]. apply created_elems in C. destruct C as (em & _ & ->). split.
        * intros. eapply string_reads; eauto. lia.
        * intros vals depth v n R D. exists 0%nat. intros fuel _. apply string_reads; auto. lia.
    - apply structure_agrees; auto. eapply Forall_impl; [|exact H]. cbn. intros a [A1 A2].
      unfold used_type. destruct bo; auto; destruct (dt_byte_order (type_of a)) as [[]|] eqn:B; auto.
    - intros Er m' C bs off Ho. cbn [create] in C. inversion C; subst m'. split.
      + intros fuel vals depth v n (c & Q & _). cbn [mapbs] in Q. discriminate.
      + intros vals depth v n R. inversion R.
    - intros Er m' C bs off Ho. cbn [create] in C. inversion C; subst m'. split.
      + intros fuel vals depth v n (c & Q & _). cbn [mapbs] in Q. discriminate.
      + intros vals depth v n R. inversion R.
    - intros Er m' C bs off Ho. cbn [create] in C. inversion C; subst m'. split.
      + intros fuel vals depth v n (c & Q & _). cbn [mapbs] in Q. discriminate.
      + intros vals depth v n R. inversion R.
    - destruct H as (H1 & H2 & H3). now apply group_agrees. }
  intros d.
  assert (G : agrees orc d /\ forall n b, agrees orc (set_name_bo n b d)); [|tauto].
  induction d using dtype_ind_type. split.
  - apply STEP. destruct d; auto.
    + tauto.
    + eapply Forall_impl; [|exact H]. cbn. tauto.
    + destruct H as (H1 & H2 & H3). split; [tauto|]. split.
      * destruct default; cbn in *; tauto.
      * eapply Forall_impl; [|exact H3]. cbn. tauto.
  - intros n b. apply STEP. destruct d; cbn [set_name_bo]; auto.
    + tauto.
    + eapply Forall_impl; [|exact H]. cbn. tauto.
    + destruct H as (H1 & H2 & H3). split; [tauto|]. split.
      * destruct default; cbn in *; tauto.
      * eapply Forall_impl; [|exact H3]. cbn. tauto.
Qed.

Lemma everywhere_and (P Q : dtype -> Prop) d : everywhere P d -> everywhere Q d -> everywhere (fun x => P x /\ Q x) d.
Proof.
  assert (L : forall l, Forall (fun d => everywhere P d -> everywhere Q d -> everywhere (fun x => P x /\ Q x) d) l ->
    Forall (everywhere P) l -> Forall (everywhere Q) l -> Forall (everywhere (fun x => P x /\ Q x)) l).
  { induction 1; intros F G; inversion F; inversion G; subst; constructor; auto. }
  induction d using dtype_rect'; cbn [everywhere]; rewrite ?everywhere_list; intros [A A'] [B B']; (split; [split; assumption|]); auto.
  - destruct A', B'; split; auto.
  - destruct A' as (? & ? & ?), B' as (? & ? & ?). repeat split; auto. destruct df; auto.
Qed.

(** C48 *)
Lemma mapping_reads orc fuel d m bs off vals depth v n :
  extensional orc -> everywhere regular d -> create orc d None = Ok (Some m) -> 0 <= off <= len bs ->
  maps orc fuel m bs off vals depth v n -> reads orc bs d off vals v n.
Proof. intros X E C Ho M. eapply (all_agree orc X d); eauto. Qed.

Lemma reading_maps orc d m bs off vals depth v n :
  extensional orc -> everywhere regular d -> create orc d None = Ok (Some m) -> 0 <= off <= len bs ->
  depth + levels d <= 11 ->
  (reads orc bs d off vals v n <-> exists fuel, maps orc fuel m bs off vals depth v n).
Proof.
  intros X E C Ho D. destruct (all_agree orc X d E m C bs off Ho) as [A B]. split.
  - intros R. destruct (B vals depth v n R D) as (f0 & F). exists f0. apply F. lia.
  - intros (fuel & M). eapply A; eauto.
Qed.

Lemma reading_enough_fuel orc d m bs off vals depth v n :
  extensional orc -> everywhere regular d -> create orc d None = Ok (Some m) -> 0 <= off <= len bs ->
  depth + levels d <= 11 -> reads orc bs d off vals v n ->
  exists fuel0, forall fuel, (fuel0 <= fuel)%nat -> maps orc fuel m bs off vals depth v n.
Proof. intros X E C Ho D R. destruct (all_agree orc X d E m C bs off Ho) as [_ B]. eapply B; eauto. Qed.

Lemma reading_unique orc d m bs off vals v n v' n' :
  extensional orc -> everywhere regular d -> create orc d None = Ok (Some m) -> 0 <= off <= len bs ->
  levels d <= 11 -> reads orc bs d off vals v n -> reads orc bs d off vals v' n' -> v = v' /\ n = n'.
Proof.
  intros X E C Ho D R1 R2. destruct (all_agree orc X d E m C bs off Ho) as [_ B].
  destruct (B vals 0 v n R1 D) as (f1 & F1). destruct (B vals 0 v' n' R2 D) as (f2 & F2).
  specialize (F1 (Nat.max f1 f2) ltac:(lia)). specialize (F2 (Nat.max f1 f2) ltac:(lia)).
  destruct F1 as (c & Q & N). destruct F2 as (c' & Q' & N'). split; congruence.
Qed.

(** The definition alone says whether and how the bytes are read: the failures of
    mapping are the streams without a reading. *)
Lemma no_reading orc fuel d m bs off vals depth :
  extensional orc -> everywhere regular d -> create orc d None = Ok (Some m) -> 0 <= off <= len bs ->
  (forall v n, ~ reads orc bs d off vals v n) ->
  forall v n, ~ maps orc fuel m bs off vals depth v n.
Proof. intros X E C Ho N v n M. eapply N. eapply mapping_reads; eauto. Qed.
