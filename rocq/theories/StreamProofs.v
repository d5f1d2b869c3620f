(** Streams and strings. *)
From Coq Require Import String List ZArith Bool Lia.
From Verif Require Import Base PyVal PyStruct DataTypes ClassFactory DataMaps.
From Verif Require Import BytesProofs ContainerProofs SpecPrim PrimProofs SpecMap SpecCreate MapProofs ContextProofs
  StructProofs.
Import ListNotations.
Open Scope Z_scope.
Arguments Z.pow : simpl never.
Arguments Z.mul : simpl never.

Lemma truthy_Z_some o n : truthy_Z o = Some n <-> o = Some n /\ n <> 0.
Proof.
  destruct o as [z|]; cbn; [|split; [discriminate|now intros []]].
  destruct (Z.eqb_spec z 0); split; try discriminate; intros H.
  - destruct H as [H ?]. injection H as ->. congruence.
  - injection H as ->. auto.
  - destruct H as [H ?]. congruence.
Qed.

Lemma truthy_Z_none o : truthy_Z o = None <-> o = None \/ o = Some 0.
Proof.
  destruct o as [z|]; cbn; [|tauto].
  destruct (Z.eqb_spec z 0); subst; split; auto; try discriminate.
  intros [H|H]; [discriminate|]. congruence.
Qed.

Lemma truthy_str_some o x : truthy_str o = Some x <-> o = Some x /\ x <> EmptyString.
Proof.
  destruct o as [s|]; cbn; [|split; [discriminate|now intros []]].
  destruct s; split; intros H; try discriminate.
  - destruct H as [H ?]. congruence.
  - injection H as <-. split; [auto|discriminate].
  - destruct H. congruence.
Qed.

Lemma check_size_ok r n : check_size r = Ok n <->
  (r = EvInt n /\ 0 <= n) \/ (exists b, r = EvBool b /\ n = Z.b2z b).
Proof.
  destruct r; cbn; split; intros H; try discriminate;
    repeat match goal with
    | H : _ \/ _ |- _ => destruct H
    | H : _ /\ _ |- _ => destruct H
    | H : exists _, _ |- _ => destruct H
    end; try discriminate.
  - destruct (Z.ltb_spec z 0); [discriminate|]. injection H as <-. left. auto.
  - injection H as ->. destruct (Z.ltb_spec n 0); [lia|auto].
  - injection H as <-. right. eauto.
  - injection H as ->. subst. auto.
Qed.

Lemma check_size_err r e : check_size r = Raise e -> e = MappingError.
Proof. destruct r; cbn; try congruence. destruct (_ <? _); congruence. Qed.

Lemma measure_ok orc fixed expr vals r :
  r = match truthy_Z fixed with
      | Some n => check_size (EvInt n)
      | None => match truthy_str expr with
                | Some x => check_size (o_eval orc x (ns vals))
                | None => Raise MappingError
                end
      end ->
  (forall n, r = Ok n <-> measure orc fixed expr vals n) /\
  (forall e, r = Raise e -> e = MappingError) /\ r <> OutOfFuel.
Proof.
  intros ->. unfold measure. split; [|split].
  - intros n. destruct (truthy_Z fixed) as [k|] eqn:F.
    + apply truthy_Z_some in F. destruct F as [-> F]. rewrite check_size_ok. split.
      * intros [[H ?]|(b & H & _)]; [|discriminate]. injection H as ->. left. auto.
      * intros [(_ & H & ?)|[[H|H] _]]; try congruence. injection H as ->. left. auto.
    + apply truthy_Z_none in F. destruct (truthy_str expr) as [x|] eqn:X.
      * apply truthy_str_some in X. destruct X as [-> X]. rewrite check_size_ok. split.
        -- intros H. right. split; auto. eauto.
        -- intros [(H & E & _)|(_ & y & E & _ & H)].
           ++ exfalso. destruct F as [->| ->]; auto.
           ++ injection E as <-. exact H.
      * split; [discriminate|].
        intros [(H & E & _)|(_ & y & E & N & H)].
        -- exfalso. destruct F as [->| ->]; auto.
        -- subst expr. cbn in X. destruct y; [congruence|discriminate].
  - intros e. destruct (truthy_Z fixed); [apply check_size_err|].
    destruct (truthy_str expr); [apply check_size_err|]. congruence.
  - destruct (truthy_Z fixed); [cbn; destruct (_ <? _); discriminate|].
    destruct (truthy_str expr); [|discriminate]. destruct (o_eval _ _ _); cbn; try discriminate.
    destruct (_ <? _); discriminate.
Qed.

Lemma eval_data_size_spec orc e vals :
  (forall n, eval_data_size orc e vals = Ok n <-> measure orc (e_data_size e) (e_data_size_expr e) vals n) /\
  (forall x, eval_data_size orc e vals = Raise x -> x = MappingError) /\
  eval_data_size orc e vals <> OutOfFuel.
Proof. apply measure_ok. reflexivity. Qed.

Lemma eval_number_spec orc e c :
  (forall n, fst (eval_number orc e c) = Ok n <-> measure orc (e_number e) (e_number_expr e) (ctx_values c) n) /\
  (forall x, fst (eval_number orc e c) = Raise x -> x = MappingError) /\
  fst (eval_number orc e c) <> OutOfFuel.
Proof.
  apply measure_ok. unfold eval_number. destruct (truthy_Z (e_number e)); [reflexivity|].
  destruct (truthy_str (e_number_expr e)); reflexivity.
Qed.

Lemma measure_nonneg orc f x vals n : measure orc f x vals n -> 0 <= n.
Proof.
  intros [(_ & _ & H)|(_ & y & _ & _ & [[_ H]|(b & _ & ->)])]; auto. destruct b; cbn; lia.
Qed.

Lemma measure_det orc f x vals n k : measure orc f x vals n -> measure orc f x vals k -> n = k.
Proof.
  intros H1 H2. destruct (measure_ok orc f x vals _ eq_refl) as (E & _ & _).
  apply E in H1. apply E in H2. congruence.
Qed.

(** The size with a context without pending state. *)
Lemma calc_spec orc e ed vals :
  let r := fst (calc_data_size orc e ed (Some (ctx_new vals))) in
  (forall n, r = Ok (Some n) <-> stream_size orc e ed vals n) /\
  (r = Ok None <-> unsized_stream e ed) /\
  (forall x, r = Raise x -> x = MappingError) /\ r <> OutOfFuel.
Proof.
  unfold calc_data_size, stream_size, unsized_stream. cbn [ctx_state ctx_new c_state st_empty s_elements_data_size truthy_Z s_number_of_elements].
  destruct (has_data_size e).
  - cbn [fst]. destruct (eval_data_size_spec orc e vals) as (A & B & C).
    cbn [ctx_values c_values ctx_new]. destruct (eval_data_size orc e vals) as [k|x|]; cbn.
    + split; [|split; [|split]]; try discriminate.
      * intros n. split.
        -- intros H. injection H as ->. left. split; auto. apply A. reflexivity.
        -- intros [[_ H]|[H _]]; [|discriminate]. apply A in H. now inversion H.
      * split; [discriminate|]. intros [H _]. discriminate.
    + split; [|split; [|split]]; try discriminate.
      * intros n. split; [discriminate|]. intros [[_ H]|[H _]]; [|discriminate]. apply A in H. discriminate.
      * split; [discriminate|]. intros [H _]. discriminate.
      * intros y H. apply B. congruence.
    + congruence.
  - destruct (has_number e) eqn:HN.
    + destruct (get_byte_size ed) as [b|] eqn:G.
      * destruct (eval_number_spec orc e (Some (ctx_new vals))) as (A & B & C).
        destruct (eval_number orc e (Some (ctx_new vals))) as [[k|x|] c1]; cbn [fst] in *; cbn [res_map bind];
          cbn [ctx_values c_values ctx_new] in A.
        -- split; [|split; [|split]]; try discriminate.
           ++ intros n. split.
              ** intros H. injection H as <-. right. split; auto. exists k, b. split; auto. split; auto. apply A. reflexivity.
              ** intros [[H _]|(_ & k' & b' & Hb & Hk & ->)]; [discriminate|]. injection Hb as <-. apply A in Hk. now inversion Hk.
           ++ split; [discriminate|]. intros [_ [H|H]]; discriminate.
        -- split; [|split; [|split]]; try discriminate.
           ++ intros n. split; [discriminate|].
              intros [[H _]|(_ & k' & b' & Hb & Hk & ->)]; [discriminate|]. apply A in Hk. discriminate.
           ++ split; [discriminate|]. intros [_ [H|H]]; discriminate.
           ++ intros y H. apply B. congruence.
        -- congruence.
      * cbn. split; [|split; [|split]]; try discriminate.
        -- intros n. split; [discriminate|]. intros [[H _]|(_ & k' & b' & Hb & _)]; discriminate.
        -- tauto.
    + cbn. split; [|split; [|split]]; try discriminate.
      * intros n. split; [discriminate|]. intros [[H _]|(_ & k' & b' & Hb & Hk & _)]; [discriminate|].
        exfalso. unfold has_number in HN. apply orb_false_iff in HN. destruct HN as [N1 N2].
        destruct (e_number e); [discriminate|]. destruct (e_number_expr e); [discriminate|].
        destruct Hk as [([] & _)|(_ & y & Q & _)]. discriminate.
      * tauto.
Qed.

(** ** Windows *)

Lemma window_len {A} (l : list A) off n : 0 <= off -> 0 <= n ->
  len (window l off n) = Z.max 0 (Z.min n (len l - off)).
Proof. intros. unfold window. rewrite len_firstn, len_skipn. pose proof (len_nonneg l). lia. Qed.

Lemma window_inside {A} (t l : list A) off : 0 <= off -> 0 < len t ->
  window l off (len t) = t -> off + len t <= len l.
Proof.
  intros Ho Ht H. apply (f_equal (@len A)) in H. rewrite window_len in H by lia. lia.
Qed.

Lemma first_at_inside t l off k : 0 <= off -> 0 < len t -> first_at t l off k ->
  off + (k + 1) * len t <= len l.
Proof.
  intros Ho Ht (K & W & _). apply window_inside in W; nia.
Qed.

Lemma first_at_unique t l off j k : first_at t l off j -> first_at t l off k -> j = k.
Proof.
  intros (J & W & L) (K & W' & L'). destruct (Z.lt_trichotomy j k) as [H|[H|H]]; auto.
  - exfalso. apply (L' j); auto.
  - exfalso. apply (L k); auto.
Qed.

(** ** The search for the terminator *)

Lemma scan_spec t bs off : 0 < len t -> forall fuel doff,
  0 <= doff -> (1 <= fuel)%nat -> len bs - doff < Z.of_nat fuel ->
  (exists k, first_at t bs doff k /\
     stream_scan fuel bs (len t) (VBytes t) off doff (doff + len t) (slice bs doff (doff + len t)) =
     Ok (Some (doff + (k + 1) * len t - off), t, doff + (k + 1) * len t)) \/
  ((forall k, ~ first_at t bs doff k) /\ exists v d,
     stream_scan fuel bs (len t) (VBytes t) off doff (doff + len t) (slice bs doff (doff + len t)) =
     Ok (None, v, d) /\ v <> t).
Proof.
  intros Ht. induction fuel as [|fuel IH]; intros doff Hd F1 F2; [lia|]. cbn [stream_scan].
  rewrite is_empty_slice_from by lia. rewrite slice_window by lia.
  destruct (Z.leb_spec (len bs) doff) as [E|E].
  - right. split.
    + intros k K. apply first_at_inside in K as K2; try lia. destruct K. nia.
    + eexists _, _. split; [reflexivity|]. intros W. apply window_inside in W; lia.
  - unfold bytes_is. cbn [py_eq]. destruct (bytes_eqb (window bs doff (len t)) t) eqn:B.
    + apply bytes_eqb_eq in B. left. exists 0. split.
      * split; [lia|]. split; [|intros; lia]. now rewrite Z.mul_0_l, Z.add_0_r.
      * replace ((0 + 1) * len t) with (len t) by lia. now rewrite B.
    + assert (NB : window bs doff (len t) <> t).
      { intros W. apply bytes_eqb_eq in W. congruence. }
      destruct (IH (doff + len t) ltac:(lia) ltac:(lia) ltac:(lia)) as [(k & K & S)|(N & v & d & S & V)].
      * left. exists (k + 1). split.
        -- destruct K as (K1 & K2 & K3). split; [lia|]. split.
           ++ replace (doff + (k + 1) * len t) with (doff + len t + k * len t) by lia. exact K2.
           ++ intros j Hj. destruct (Z.eq_dec j 0) as [->|].
              ** now rewrite Z.mul_0_l, Z.add_0_r.
              ** replace (doff + j * len t) with (doff + len t + (j - 1) * len t) by lia. apply K3. lia.
        -- rewrite S. replace (doff + (k + 1 + 1) * len t) with (doff + len t + (k + 1) * len t) by lia. reflexivity.
      * right. split; [|exists v, d; split; auto].
        intros k (K1 & K2 & K3). destruct (Z.eq_dec k 0) as [->|].
        -- rewrite Z.mul_0_l, Z.add_0_r in K2. congruence.
        -- apply (N (k - 1)). split; [lia|]. split.
           ++ replace (doff + len t + (k - 1) * len t) with (doff + k * len t) by lia. exact K2.
           ++ intros j Hj. replace (doff + len t + j * len t) with (doff + (j + 1) * len t) by lia.
              apply K3. lia.
Qed.

(** ** Streams *)

Lemma stream_sized orc fuel e ed em bs off vals depth :
  0 <= off -> (forall b, get_byte_size ed = Some b -> 0 <= b) ->
  ~ unsized_stream e ed ->
  let m := MStream e ed em in
  (forall v n, maps orc fuel m bs off vals depth v n <->
     stream_size orc e ed vals n /\ off + n <= len bs /\ v = VBytes (window bs off n)) /\
  (fails orc fuel m bs off vals depth ByteStreamTooSmallError <->
     exists n, stream_size orc e ed vals n /\ len bs < off + n) /\
  (fails orc fuel m bs off vals depth MappingError <-> forall n, ~ stream_size orc e ed vals n) /\
  (forall x, fails orc fuel m bs off vals depth x -> x = ByteStreamTooSmallError \/ x = MappingError).
Proof.
  intros Ho Hb U m. unfold maps, fails, m. cbn [mapbs]. unfold map_stream.
  destruct (calc_spec orc e ed vals) as (A & B & C & D).
  pose proof (calc_agrees orc) as _.
  destruct (calc_data_size orc e ed (Some (ctx_new vals))) as [r c1] eqn:E. cbn [fst] in *.
  pose proof (keeps_calc orc e ed (Some (ctx_new vals))) as K. rewrite E in K. cbn [snd] in K.
  destruct c1 as [c1|]; [|cbn in K; tauto].
  destruct r as [[n0|]|x|].
  - assert (S : stream_size orc e ed vals n0) by (apply A; auto).
    assert (N0 : 0 <= n0).
    { destruct S as [[_ S]|(_ & k & b & Gb & S & ->)]; apply measure_nonneg in S; auto. specialize (Hb b Gb). nia. }
    assert (U0 : forall n, stream_size orc e ed vals n -> n = n0) by (intros n Hn; apply A in Hn; congruence).
    destruct (Z.ltb_spec (len bs - off) n0).
    + split; [|split; [|split]]; cbn [fst].
      * intros v n. split; [intros (c & Q & _); discriminate|]. intros (Hn & L & _). apply U0 in Hn. lia.
      * split; auto. intros _. exists n0. split; auto. lia.
      * split; [discriminate|]. intros Hn. exfalso. eapply Hn; eauto.
      * intros x Q. left. congruence.
    + split; [|split; [|split]]; cbn [fst].
      * intros v n. split.
        -- intros (c & Q & R). cbn in Q. inversion Q; subst. cbn in R. injection R as <-.
           split; auto. split; [lia|]. now rewrite slice_window by lia.
        -- intros (Hn & L & ->). apply U0 in Hn. subst. rewrite slice_window by lia. cbn. eexists. split; reflexivity.
      * split; [discriminate|]. intros (n & Hn & L). apply U0 in Hn. lia.
      * split; [discriminate|]. intros Hn. exfalso. eapply Hn; eauto.
      * discriminate.
  - exfalso. apply U, B. reflexivity.
  - rewrite (C x eq_refl) in *. split; [|split; [|split]]; cbn [fst].
    + intros v n. split; [intros (c & Q & _); discriminate|]. intros (Hn & L & _). apply A in Hn. discriminate.
    + split; [discriminate|]. intros (n & Hn & L). apply A in Hn. discriminate.
    + split; auto. intros _ n Hn. apply A in Hn. discriminate.
    + intros y Q. right. congruence.
  - congruence.
Qed.

Lemma stream_terminated orc fuel e ed em t bs off vals depth :
  0 <= off -> unsized_stream e ed -> e_terminator e = Some (VBytes t) ->
  get_byte_size ed = Some (len t) -> 0 < len t ->
  let m := MStream e ed em in
  (forall v n, maps orc fuel m bs off vals depth v n <->
     exists k, first_at t bs off k /\ n = (k + 1) * len t /\ v = VBytes (window bs off n)) /\
  (fails orc fuel m bs off vals depth ByteStreamTooSmallError <-> forall k, ~ first_at t bs off k) /\
  (forall x, fails orc fuel m bs off vals depth x -> x = ByteStreamTooSmallError).
Proof.
  intros Ho U T G Ht m. unfold maps, fails, m. cbn [mapbs]. unfold map_stream.
  destruct (calc_spec orc e ed vals) as (_ & B & _ & _). apply B in U. clear B.
  pose proof (keeps_calc orc e ed (Some (ctx_new vals))) as K.
  destruct (calc_data_size orc e ed (Some (ctx_new vals))) as [r c1] eqn:E. cbn [fst snd] in *.
  destruct c1 as [c1|]; [|cbn in K; tauto]. subst r. rewrite T, G.
  destruct (scan_spec t bs off Ht (scan_fuel bs off) off Ho) as [(k & K1 & S)|(N & v & d & S & V)].
  - unfold scan_fuel. lia.
  - unfold scan_fuel. lia.
  - rewrite S. pose proof K1 as (K2 & _ & _).
    replace (bytes_is t (VBytes t)) with true by (unfold bytes_is; cbn; symmetry; now apply bytes_eqb_eq).
    cbn [negb]. replace (off + (k + 1) * len t - off) with ((k + 1) * len t) by lia.
    rewrite slice_window by nia. split; [|split]; cbn [fst].
    + intros v n. split.
      * intros (c & Q & R). cbn in Q. inversion Q; subst. cbn in R. injection R as <-. exists k. auto.
      * intros (j & J & -> & ->). rewrite (first_at_unique _ _ _ _ _ J K1). cbn. eexists. split; reflexivity.
    + split; [discriminate|]. intros Q. exfalso. eapply Q; eauto.
    + discriminate.
  - rewrite S.
    replace (bytes_is v (VBytes t)) with false.
    + cbn [negb]. split; [|split]; cbn [fst].
      * intros w n. split; [intros (c & Q & _); discriminate|]. intros (k & K1 & _). exfalso. eapply N; eauto.
      * split; auto.
      * congruence.
    + unfold bytes_is. cbn. symmetry. apply not_true_iff_false. rewrite bytes_eqb_eq. exact V.
Qed.

(** ** Strings *)

Lemma cut_spec t l : 0 < len t -> forall fuel i,
  0 <= i -> (1 <= fuel)%nat -> len l - i * len t < Z.of_nat fuel ->
  (forall j, 0 <= j < i -> window l (j * len t) (len t) <> t) ->
  exists o, string_cut fuel l (VBytes t) (len t) (i * len t) = Ok o /\ 0 <= o /\
    cut_at t l (slice l 0 o).
Proof.
  intros Ht. induction fuel as [|fuel IH]; intros i Hi F0 F H; [lia|].
  cbn [string_cut]. destruct (Z.ltb_spec (i * len t) (len l)) as [L|L].
    + rewrite slice_window by nia. unfold bytes_is. cbn [py_eq].
      destruct (bytes_eqb (window l (i * len t) (len t)) t) eqn:B.
      * apply bytes_eqb_eq in B. exists (i * len t). split; auto. split; [nia|].
        left. exists i. split; [|apply slice_prefix; nia]. split; [auto|]. split; auto.
      * replace (i * len t + len t) with ((i + 1) * len t) by lia. apply IH; [lia|lia|lia|].
        intros j Hj. destruct (Z.eq_dec j i) as [->|]; [|apply H; lia].
        intros W. apply bytes_eqb_eq in W. congruence.
    + exists (i * len t). split; auto. split; [nia|]. right. split.
      * intros k K. pose proof K as (K1 & K2 & _). apply first_at_inside in K; [|lia|lia].
        apply (H k); auto. nia.
      * rewrite slice_prefix by nia. apply firstn_all2. unfold len in *. lia.
Qed.

Lemma cut_at_unique t l r1 r2 : cut_at t l r1 -> cut_at t l r2 -> r1 = r2.
Proof.
  intros [(k & K & ->)|[N ->]] [(j & J & ->)|[N' ->]]; auto.
  - now rewrite (first_at_unique _ _ _ _ _ K J).
  - exfalso. eapply N'; eauto.
  - exfalso. eapply N; eauto.
Qed.

Lemma map_stream_value orc e ed bs off c depth v c' :
  map_stream orc e ed bs off c depth = (Ok v, c') -> exists b, v = VBytes b.
Proof.
  unfold map_stream. destruct (calc_data_size orc e ed c) as [[[n|]|x|] c1]; try discriminate.
  - destruct (_ <? _); [discriminate|]. intros H. inversion H. eauto.
  - destruct (e_terminator e); [|discriminate]. destruct (get_byte_size ed); [|discriminate].
    destruct (stream_scan _ _ _ _ _ _ _ _) as [[[found value] doff]| |]; try discriminate.
    destruct (negb _); [discriminate|]. destruct found; [|discriminate]. intros H. inversion H. eauto.
Qed.

Lemma string_layout orc fuel e ed em bs off vals depth :
  byte_terminator (e_terminator e) ->
  let m := MString e ed em in
  let st := MStream e ed em in
  (forall v n, maps orc fuel m bs off vals depth v n <->
     exists l r s, maps orc fuel st bs off vals depth (VBytes l) n /\
       text_part (e_terminator e) l r /\
       o_decode orc (e_encoding e) r = Some s /\ v = VStr s) /\
  (forall x, fails orc fuel m bs off vals depth x <->
     fails orc fuel st bs off vals depth x \/
     (x = MappingError /\ exists l r n, maps orc fuel st bs off vals depth (VBytes l) n /\
        text_part (e_terminator e) l r /\
        o_decode orc (e_encoding e) r = None)).
Proof.
  intros HT m st. unfold maps, fails, m, st. cbn [mapbs]. unfold map_string.
  destruct (map_stream orc e ed bs off (Some (ctx_new vals)) depth) as [[v0|x0|] c0] eqn:E.
  - destruct (map_stream_value _ _ _ _ _ _ _ _ _ E) as (b & ->).
    assert (R : exists r0, match e_terminator e with
        | None => Ok b
        | Some t => let* n := py_len t in let* k := string_cut (S (List.length b)) b t n 0 in Ok (slice b 0 k)
        end = Ok r0 /\
        text_part (e_terminator e) b r0 /\
        forall r, text_part (e_terminator e) b r -> r = r0).
    { unfold text_part. destruct (e_terminator e) as [t|].
      - destruct HT as (tb & -> & Htb). cbn [py_len bind].
        destruct (cut_spec tb b Htb (S (List.length b)) 0) as (o & S & O & C); [lia|lia|unfold len; lia|intros; lia|].
        rewrite Z.mul_0_l in S. rewrite S. cbn [bind]. eexists. split; [reflexivity|]. split; auto.
        intros r Hr. eapply cut_at_unique; eauto.
      - eexists. split; [reflexivity|]. split; auto. }
    destruct R as (r0 & R1 & R2 & R3). rewrite R1.
    destruct (o_decode orc (e_encoding e) r0) as [s|] eqn:Dc.
    + split.
      * intros v n. split.
        -- intros (c & Q & B). inversion Q; subst. exists b, r0, s. split; [exists c; auto|auto].
        -- intros (l & r & s' & (c & Q & B) & Hr & D' & ->). inversion Q; subst l c0.
           apply R3 in Hr. subst r. rewrite Dc in D'. inversion D'; subst. exists c. auto.
      * intros x. cbn [fst]. split; [discriminate|].
        intros [H|(-> & l & r & n & (c & Q & B) & Hr & D')]; [discriminate|].
        inversion Q; subst l. apply R3 in Hr. subst r. congruence.
    + split.
      * intros v n. split; [intros (c & Q & B); discriminate|].
        intros (l & r & s' & (c & Q & B) & Hr & D' & ->). inversion Q; subst l c0.
        apply R3 in Hr. subst r. congruence.
      * intros x. cbn [fst]. split.
        -- intros H. right. split; [congruence|].
           assert (CC : exists c n, c0 = Some c /\ c_byte_size c = Some n).
           { clear -E. unfold map_stream in E.
             pose proof (keeps_calc orc e ed (Some (ctx_new vals))) as K.
             destruct (calc_data_size orc e ed (Some (ctx_new vals))) as [[[n|]|x|] c1]; cbn [snd] in K; try discriminate;
               destruct c1 as [c1|]; try (cbn in K; tauto).
             - destruct (_ <? _); [discriminate|]. inversion E. do 2 eexists. split; reflexivity.
             - destruct (e_terminator e); [|discriminate]. destruct (get_byte_size ed); [|discriminate].
               destruct (stream_scan _ _ _ _ _ _ _ _) as [[[found value] doff]| |]; try discriminate.
               destruct (negb _); [discriminate|]. destruct found; [|discriminate]. inversion E. do 2 eexists. split; reflexivity. }
           destruct CC as (c & n & -> & Hn). exists b, r0, n. split; [exists c; auto|]. auto.
        -- intros [H|(-> & _)]; [discriminate|auto].
  - split.
    + intros v n. split; [intros (c & Q & B); discriminate|].
      intros (l & r & s' & (c & Q & B) & _). discriminate.
    + intros x. cbn [fst]. split; [auto|]. intros [H|(-> & l & r & n & (c & Q & _) & _)]; [auto|discriminate].
  - split.
    + intros v n. split; [intros (c & Q & B); discriminate|].
      intros (l & r & s' & (c & Q & B) & _). discriminate.
    + intros x. cbn [fst]. split; [discriminate|]. intros [H|(-> & l & r & n & (c & Q & _) & _)]; discriminate.
Qed.

(** ** Folding streams *)

Lemma py_len_bytes b : py_len (VBytes b) = Ok (len b).
Proof. reflexivity. Qed.

Lemma stream_fold_sized orc e ed em vals b :
  ~ unsized_stream e ed ->
  let m := MStream e ed em in
  (forall r, folds orc m (VBytes b) vals r <-> stream_size orc e ed vals (len b) /\ r = b) /\
  (fold_fails orc m (VBytes b) vals FoldingError <-> exists n, stream_size orc e ed vals n /\ n <> len b).
Proof.
  intros U m. unfold folds, fold_fails, m. cbn [foldbs]. unfold fold_stream.
  destruct (calc_spec orc e ed vals) as (A & B & C & D).
  destruct (calc_data_size orc e ed (Some (ctx_new vals))) as [r c1] eqn:E. cbn [fst] in *.
  destruct r as [[n0|]|x|].
  - cbn [fst]. rewrite py_len_bytes. cbn [bind]. destruct (Z.eqb_spec n0 (len b)) as [->|N].
    + split.
      * intros r. split.
        -- intros H. inversion H. subst. split; [now apply A|reflexivity].
        -- now intros [_ ->].
      * split; [discriminate|]. intros (n & Hn & N). apply A in Hn. congruence.
    + split.
      * intros r. split; [discriminate|]. intros [H _]. apply A in H. congruence.
      * split; auto. intros _. exists n0. split; auto. now apply A.
  - exfalso. apply U, B. reflexivity.
  - rewrite (C x eq_refl). split.
    + intros r. split; [discriminate|]. intros [H _]. apply A in H. congruence.
    + split; [discriminate|]. intros (n & Hn & N). apply A in Hn. congruence.
  - congruence.
Qed.

Lemma window_inner {A} (pre l post : list A) a n : 0 <= a -> 0 <= n -> a + n <= len l ->
  window (pre ++ l ++ post) (len pre + a) n = window l a n.
Proof.
  intros Ha Hn H. unfold window.
  replace (Z.to_nat (len pre + a)) with (List.length pre + Z.to_nat a)%nat by (unfold len; lia).
  rewrite skipn_app, skipn_all2 by lia. cbn.
  replace (List.length pre + Z.to_nat a - List.length pre)%nat with (Z.to_nat a) by lia.
  rewrite skipn_app, firstn_app.
  replace (Z.to_nat n - List.length (skipn (Z.to_nat a) l))%nat with 0%nat.
  - cbn. now rewrite app_nil_r.
  - rewrite skipn_length. unfold len in H. lia.
Qed.

Lemma window_whole {A} (l : list A) : window l 0 (len l) = l.
Proof. unfold window. cbn. apply firstn_all2. unfold len. lia. Qed.

Lemma first_at_shift t pre l post k : 0 < len t -> first_at t l 0 k ->
  first_at t (pre ++ l ++ post) (len pre) k.
Proof.
  intros Ht K. pose proof (first_at_inside t l 0 k ltac:(lia) Ht K) as I. destruct K as (K1 & K2 & K3).
  split; auto. split.
  - rewrite window_inner by nia. exact K2.
  - intros j Hj. rewrite window_inner by nia. now apply K3.
Qed.

Lemma slice_from_last {A} (l : list A) n : 0 < n <= len l -> slice_from l (- n) = window l (len l - n) n.
Proof.
  intros H. unfold slice_from, window, norm_index.
  destruct (Z.ltb_spec (- n) 0); [|lia].
  replace (Z.max 0 (len l + - n)) with (len l - n) by lia.
  symmetry. apply firstn_all2. rewrite skipn_length. unfold len in *. lia.
Qed.

(** What folding adds to a terminated value. *)
Lemma stream_fold_terminated orc e ed em t vals b :
  unsized_stream e ed -> e_terminator e = Some (VBytes t) -> 0 < len t ->
  forall r, folds orc (MStream e ed em) (VBytes b) vals r <->
    ((exists p, b = p ++ t) /\ r = b) \/ ((forall p, b <> p ++ t) /\ r = b ++ t).
Proof.
  intros U T Ht r. unfold folds. cbn [foldbs]. unfold fold_stream.
  destruct (calc_spec orc e ed vals) as (_ & B & _ & _). apply B in U. clear B.
  destruct (calc_data_size orc e ed (Some (ctx_new vals))) as [r0 c1]. cbn [fst] in *. subst r0.
  rewrite T. cbn [fst]. rewrite py_len_bytes. cbn [bind].
  assert (Q : bytes_is (slice_from b (- len t)) (VBytes t) = true <-> exists p, b = p ++ t).
  { unfold bytes_is. cbn [py_eq]. rewrite bytes_eqb_eq. split.
    - intros H. exists (firstn (Z.to_nat (len b - len t)) b).
      destruct (Z.le_gt_cases (len t) (len b)).
      + rewrite slice_from_last in H by lia. unfold window in H.
        rewrite firstn_all2 in H by (rewrite skipn_length; unfold len in *; lia).
        rewrite <- H at 2. symmetry. apply firstn_skipn.
      + exfalso. apply (f_equal (@len Byte.byte)) in H. unfold slice_from in H. rewrite len_skipn in H. lia.
    - intros (p & ->). pose proof (len_nonneg p). rewrite slice_from_last by (rewrite len_app; lia). rewrite len_app.
      replace (len p + len t - len t) with (len p + 0) by lia.
      rewrite <- (app_nil_r t) at 1. rewrite window_inner by lia. apply window_whole. }
  destruct (bytes_is _ _).
  - assert (P : exists p, b = p ++ t) by now apply Q. split.
    + intros H. inversion H. subst. auto.
    + intros [[_ ->]|[N _]]; auto. destruct P as [p P]. exfalso. eapply N; eauto.
  - split.
    + intros H. inversion H. subst. right. split; auto. intros p Hp.
      assert (false = true) by (apply Q; eauto). discriminate.
    + intros [[P _]|[_ ->]]; auto. apply Q in P. discriminate.
Qed.

(** No piece of [b], cut in pieces of the length of [t], is [t]. *)
Lemma first_at_append t b k : 0 < len t -> len b = k * len t -> (forall j, ~ first_at t b 0 j) ->
  first_at t (b ++ t) 0 k.
Proof.
  intros Ht L N. pose proof (len_nonneg b) as Hb. assert (0 <= k) by nia.
  assert (NW : forall j, 0 <= j < k -> window b (j * len t) (len t) <> t).
  { intros j Hj. destruct Hj as [Hj1 Hj2]. revert Hj2. pattern j. apply Zlt_lower_bound_ind with (z := 0); auto.
    intros i IH Hi Hik W. apply (N i). split; auto. split; [exact W|]. intros x Hx. cbn. apply IH; lia. }
  split; auto. split.
  - cbn. replace (k * len t) with (len b + 0) by lia. rewrite <- (app_nil_r t) at 1.
    rewrite window_inner by lia. apply window_whole.
  - intros j Hj. cbn. replace (j * len t) with (len (@nil Byte.byte) + j * len t) by (cbn; lia).
    change (b ++ t) with ([] ++ b ++ t). rewrite window_inner by nia. now apply NW.
Qed.

Lemma no_end t b k : 0 < len t -> len b = k * len t -> (forall j, ~ first_at t b 0 j) -> forall p, b <> p ++ t.
Proof.
  intros Ht L N p ->. pose proof (len_nonneg p) as Hp. rewrite len_app in L.
  assert (K : 0 <= k - 1) by nia.
  assert (exists j, 0 <= j /\ window (p ++ t) (j * len t) (len t) = t) as (j & Hj & W).
  { exists (k - 1). split; auto. replace ((k - 1) * len t) with (len p + 0) by lia.
    rewrite <- (app_nil_r t) at 1. rewrite window_inner by lia. apply window_whole. }
  revert W. pattern j. apply Zlt_lower_bound_ind with (z := 0); auto.
  intros i IH Hi W. apply (N i). split; [exact Hi|]. split; [exact W|]. intros x Hx. cbn. exact (IH x Hx).
Qed.

(** Mapping the fold of a stream value. *)
Lemma stream_fold_map orc fuel e ed em vals b r pre post depth :
  (forall n, get_byte_size ed = Some n -> 0 < n) ->
  (unsized_stream e ed -> exists t k, e_terminator e = Some (VBytes t) /\
     get_byte_size ed = Some (len t) /\ len b = k * len t /\ forall j, j < k - 1 -> ~ first_at t b 0 j) ->
  let m := MStream e ed em in
  folds orc m (VBytes b) vals r ->
  maps orc fuel m (pre ++ r ++ post) (len pre) vals depth (VBytes r) (len r) /\
  (r = b \/ exists t, unsized_stream e ed /\ e_terminator e = Some (VBytes t) /\ r = b ++ t).
Proof.
  intros Hb HU m F. pose proof (len_nonneg pre) as Hp.
  assert (Dec : unsized_stream e ed \/ ~ unsized_stream e ed).
  { unfold unsized_stream. destruct (has_data_size e), (has_number e), (get_byte_size ed); intuition congruence. }
  destruct Dec as [U|U].
  - destruct (HU U) as (t & k & T & G & L & N). specialize (Hb _ G).
    apply (stream_fold_terminated _ _ _ _ t) in F; auto.
    pose proof (stream_terminated orc fuel e ed em t (pre ++ r ++ post) (len pre) vals depth Hp U T G Hb) as (M & _).
    destruct F as [[(p & E) ->]|[NE ->]].
    + split; auto. apply M. pose proof (len_nonneg p). subst b. rewrite len_app in *. exists (k - 1).
      assert (K : first_at t (p ++ t) 0 (k - 1)).
      { split; [nia|]. split.
        - cbn. replace ((k - 1) * len t) with (len p + 0) by lia.
          rewrite <- (app_nil_r t) at 1. rewrite window_inner by lia. apply window_whole.
        - intros j [Hj1 Hj2]. revert Hj2. pattern j. apply Zlt_lower_bound_ind with (z := 0); auto.
          intros i IH Hi Hik W. apply (N i); [lia|]. split; auto. split; [exact W|]. intros x Hx. apply IH; lia. }
      split; [now apply first_at_shift|]. split; [lia|].
      replace (len pre) with (len pre + 0) by lia. rewrite <- len_app. rewrite window_inner; try rewrite len_app; try lia.
      rewrite <- len_app. now rewrite window_whole.
    + assert (NF : forall j, ~ first_at t b 0 j).
      { intros j K. destruct (Z.lt_ge_cases j (k - 1)) as [H|H]; [eapply N; eauto|].
        pose proof (first_at_inside t b 0 j ltac:(lia) Hb K) as I. assert (j = k - 1) by nia. subst j.
        destruct K as (K1 & K2 & _). apply (NE (firstn (Z.to_nat ((k - 1) * len t)) b)).
        unfold window in K2. cbn in K2. rewrite firstn_all2 in K2.
        - rewrite <- K2 at 2. symmetry. apply firstn_skipn.
        - rewrite skipn_length. unfold len in *. nia. }
      split; [|right; eauto]. apply M. exists k. pose proof (len_nonneg b).
      split; [apply first_at_shift; auto; now apply first_at_append|]. rewrite len_app. split; [nia|].
      rewrite <- len_app. replace (len pre) with (len pre + 0) by lia.
      rewrite window_inner; try (rewrite len_app; lia); try lia. now rewrite window_whole.
  - apply stream_fold_sized in F; auto. destruct F as [S ->]. split; auto.
    destruct (stream_sized orc fuel e ed em (pre ++ b ++ post) (len pre) vals depth Hp) as (M & _); auto.
    { intros x Hx. apply Hb in Hx. lia. }
    apply M. split; auto. pose proof (len_nonneg b). pose proof (len_nonneg post). rewrite !len_app. split; [lia|].
    replace (len pre) with (len pre + 0) by lia. rewrite window_inner by lia. now rewrite window_whole.
Qed.

(** A stream that can be sized, or that ends in a terminator of one element. *)
Lemma sized_or_not e ed : unsized_stream e ed \/ ~ unsized_stream e ed.
Proof.
  unfold unsized_stream. destruct (has_data_size e), (has_number e), (get_byte_size ed); intuition congruence.
Qed.

Lemma stream_map_fold orc fuel e ed em bs off vals depth b n :
  0 <= off ->
  (forall k, get_byte_size ed = Some k -> 0 < k) ->
  (unsized_stream e ed -> exists t, e_terminator e = Some (VBytes t) /\ get_byte_size ed = Some (len t)) ->
  let m := MStream e ed em in
  maps orc fuel m bs off vals depth (VBytes b) n ->
  b = window bs off n /\ len b = n /\ folds orc m (VBytes b) vals b.
Proof.
  intros Ho Hb HU m M. destruct (sized_or_not e ed) as [U|U].
  - destruct (HU U) as (t & T & G). specialize (Hb _ G).
    apply (stream_terminated orc fuel e ed em t) in M; auto. destruct M as (k & K & -> & E). inversion E. subst b.
    pose proof (first_at_inside _ _ _ _ Ho Hb K) as I. destruct K as (K1 & K2 & K3).
    split; auto. split; [rewrite window_len; nia|].
    apply (stream_fold_terminated _ _ _ _ t); auto. left. split; auto.
    exists (window bs off (k * len t)). unfold window in *.
    replace (Z.to_nat ((k + 1) * len t)) with (Z.to_nat (k * len t) + Z.to_nat (len t))%nat by nia.
    rewrite <- K2 at 4. rewrite Z2Nat.inj_add by nia.
    generalize (Z.to_nat (k * len t)) (Z.to_nat (len t)) (Z.to_nat off). clear. intros a c o.
    rewrite (Nat.add_comm o a). revert bs. induction o as [|o IH]; intros bs.
    + rewrite Nat.add_0_r. cbn [skipn]. revert bs. induction a as [|a IHa]; intros bs; [reflexivity|].
      destruct bs; cbn; [now rewrite firstn_nil|]. f_equal. apply IHa.
    + rewrite Nat.add_succ_r. destruct bs; cbn; [now rewrite !firstn_nil|]. apply IH.
  - apply stream_sized in M; auto; [|intros x Hx; apply Hb in Hx; lia]. destruct M as (S & L & E). inversion E. subst b.
    assert (0 <= n).
    { destruct S as [[_ S]|(_ & k & c & G & S & ->)]; apply measure_nonneg in S; auto. apply Hb in G. nia. }
    split; auto. assert (LW : len (window bs off n) = n) by (rewrite window_len; lia). split; auto.
    apply stream_fold_sized; auto. rewrite LW. auto.
Qed.

Lemma string_fold orc e ed em vals :
  let m := MString e ed em in
  (forall s r, folds orc m (VStr s) vals r <->
     exists b, o_encode orc (e_encoding e) s = Some b /\ folds orc (MStream e ed em) (VBytes b) vals r) /\
  (forall s, o_encode orc (e_encoding e) s = None -> fold_fails orc m (VStr s) vals FoldingError) /\
  (forall s b x, o_encode orc (e_encoding e) s = Some b ->
     (fold_fails orc m (VStr s) vals x <-> fold_fails orc (MStream e ed em) (VBytes b) vals x)) /\
  (forall v, (forall s, v <> VStr s) -> fold_fails orc m v vals FoldingError).
Proof.
  intros m. unfold folds, fold_fails, m. cbn [foldbs]. unfold fold_string. split; [|split; [|split]].
  - intros s r. destruct (o_encode orc (e_encoding e) s) as [b|].
    + split; [eauto|]. intros (b' & H & F). congruence.
    + split; [discriminate|]. intros (b' & H & F). congruence.
  - intros s ->. reflexivity.
  - intros s b x ->. tauto.
  - intros v N. destruct v; try reflexivity. exfalso. eapply N; eauto.
Qed.

Lemma cut_at_none t b : (forall j, ~ first_at t b 0 j) -> cut_at t b b.
Proof. intros H. right. auto. Qed.

Lemma cut_at_append t b k : 0 < len t -> len b = k * len t -> (forall j, ~ first_at t b 0 j) -> cut_at t (b ++ t) b.
Proof.
  intros Ht L N. left. exists k. split; [now apply first_at_append|]. rewrite <- L.
  rewrite firstn_app. replace (Z.to_nat (len b) - List.length b)%nat with 0%nat by (unfold len; lia).
  cbn. rewrite app_nil_r. symmetry. apply firstn_all2. unfold len. lia.
Qed.

Lemma string_fold_map orc fuel e ed em vals s b r pre post depth :
  (forall n, get_byte_size ed = Some n -> 0 < n) ->
  byte_terminator (e_terminator e) ->
  o_encode orc (e_encoding e) s = Some b -> o_decode orc (e_encoding e) b = Some s ->
  (forall t, e_terminator e = Some (VBytes t) -> forall j, ~ first_at t b 0 j) ->
  (unsized_stream e ed -> exists t k, e_terminator e = Some (VBytes t) /\
     get_byte_size ed = Some (len t) /\ len b = k * len t) ->
  let m := MString e ed em in
  folds orc m (VStr s) vals r ->
  maps orc fuel m (pre ++ r ++ post) (len pre) vals depth (VStr s) (len r).
Proof.
  intros Hb HT En De NT HU m F. apply string_fold in F. destruct F as (b' & E & F).
  rewrite En in E. inversion E. subst b'. clear E.
  apply string_layout; auto.
  destruct (stream_fold_map orc fuel e ed em vals b r pre post depth Hb) as [M R]; auto.
  { intros U. destruct (HU U) as (t & k & T & G & L). exists t, k. repeat split; auto. }
  exists r, b, s. split; auto. split; [|auto]. destruct R as [->|(t & U & T & ->)].
  - destruct (e_terminator e) as [t|]; [|reflexivity]. destruct HT as (tb & -> & _). cbn.
    apply cut_at_none. now apply NT.
  - destruct (HU U) as (t' & k & T' & G & L). rewrite T in T'. inversion T'. subst t'. rewrite T. cbn.
    apply cut_at_append with (k := k); auto.
Qed.
