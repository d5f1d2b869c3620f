(** Values that fit their definition are written so that they read back. *)
From Coq Require Import String List ZArith Bool Lia.
From Verif Require Import Base Ieee PyVal PyStruct DataTypes ClassFactory DataMaps.
From Verif Require Import BytesProofs SpecPrim PrimProofs IeeeProofs SpecMap SpecCreate SpecReads SpecFold SpecFits
  CreateProofs StreamProofs SteadyProofs FoldProofs ReadsProofs.
Import ListNotations.
Open Scope Z_scope.
Arguments Z.pow : simpl never.
Arguments Z.mul : simpl never.
Arguments Z.div : simpl never.
Arguments Z.modulo : simpl never.

Scheme fits_ind' := Minimality for fits Sort Prop
  with fits_elements_ind' := Minimality for fits_elements Sort Prop
  with fits_members_ind' := Minimality for fits_members Sort Prop.

Lemma window_mid (pre b post : bytes) : window (pre ++ b ++ post) (len pre) (len b) = b.
Proof.
  rewrite <- (Z.add_0_r (len pre)). pose proof (len_nonneg b). rewrite window_inner by lia. apply window_whole.
Qed.

Lemma mid_inside (pre b post : bytes) : len pre + len b <= len (pre ++ b ++ post).
Proof. rewrite !len_app. pose proof (len_nonneg post). lia. Qed.

(** Every integer in range is stored in some bytes. *)
Lemma store_integer s en n z : In n [1; 2; 4; 8] -> in_range s n z ->
  exists b, len b = n /\ stored_integer s en b = z.
Proof.
  intros N R.
  assert (C : exists c, code_signed c = s /\ Z.of_nat (code_size c) = n).
  { destruct N as [<-|[<-|[<-|[<-|[]]]]]; destruct s.
    - now exists Cb.
    - now exists CB.
    - now exists Ch.
    - now exists CH.
    - now exists Ci.
    - now exists CI.
    - now exists Cq.
    - now exists CQ. }
  destruct C as (c & <- & <-). eexists. split; [|apply (stored_enc en c z R)].
  unfold len. now rewrite enc_n_length.
Qed.

Lemma store_number en n z : 0 <= z < 2 ^ (8 * Z.of_nat n) ->
  exists b, len b = Z.of_nat n /\ stored_number en b = z.
Proof.
  intros R. exists (enc_n en n z). split; [unfold len; now rewrite enc_n_length|]. now apply stored_number_enc.
Qed.

Lemma first_at_mid t pre b post k : first_at t b 0 k -> len b = (k + 1) * len t ->
  first_at t (pre ++ b ++ post) (len pre) k.
Proof.
  intros F L. destruct (Z.eq_dec (len t) 0) as [Z0|NZ].
  - destruct t; [|cbn in Z0; unfold len in Z0; cbn in Z0; lia]. destruct F as (K & _ & F).
    assert (k = 0).
    { destruct (Z.eq_dec k 0); auto. exfalso. apply (F 0); [lia|]. apply firstn_O. }
    subst k. split; [lia|]. split; [apply firstn_O|]. intros j J. lia.
  - apply first_at_shift; auto. pose proof (len_nonneg t). lia.
Qed.

Lemma element_number e el : number_type (element_type e el) <-> number_type el.
Proof.
  unfold element_type. destruct (e_bo e); try tauto; destruct (dt_byte_order el) as [[]|]; try tauto;
    destruct (is_composite el); try tauto; destruct el; cbn; tauto.
Qed.

Lemma element_size e el : get_byte_size (element_type e el) = get_byte_size el.
Proof.
  unfold element_type. destruct (e_bo e); try reflexivity; destruct (dt_byte_order el) as [[]|]; try reflexivity;
    destruct (is_composite el); try reflexivity; apply (apply_ov_size (Some (_, _))).
Qed.

Lemma sized_size f n : sized f n -> fixed_byte_size f = Some n.
Proof. intros [A B]. unfold fixed_byte_size. now rewrite A, B. Qed.

Lemma fits_number_size orc d off vals v n : number_type d -> fits orc d off vals v n ->
  get_byte_size d = Some n /\ 0 < n.
Proof.
  intros N F. inversion F; subst; try contradiction; cbn [get_byte_size].
  - split; [now apply sized_size|]. cbn in H. lia.
  - split; [now apply sized_size|lia].
  - split; [now apply sized_size|lia].
Qed.

Lemma fits_elements_sizes orc d off rs : number_type d -> fits_elements orc d off rs ->
  Forall (fun r => get_byte_size d = Some (snd r) /\ 0 < snd r) rs.
Proof.
  intros N F. revert N. induction F using fits_elements_ind' with
    (P := fun _ _ _ _ _ => True) (P1 := fun _ _ _ _ _ _ _ _ => True); auto.
  intros N. constructor; auto. cbn. eapply fits_number_size; eauto.
Qed.

Lemma span_sizes b rs : Forall (fun r : pyval * Z => Some b = Some (snd r) /\ 0 < snd r) rs ->
  span rs = len rs * b.
Proof.
  induction 1 as [|r rs [H _] _ IH]; [reflexivity|]. inversion H; subst. cbn [span fold_right]. fold (span rs).
  rewrite IH, len_cons. lia.
Qed.

(** Whatever fits is stored in some bytes. *)
Definition stored (orc : oracle) (d : dtype) (off : Z) (vals : env) (v : pyval) (n : Z) : Prop :=
  exists b, len b = n /\ forall pre post, len pre = off -> reads orc (pre ++ b ++ post) d off vals v n.

Lemma fits_stored orc d off vals v n : fits orc d off vals v n -> stored orc d off vals v n.
Proof.
  intros F. induction F using fits_ind' with
    (P0 := fun d off rs => Forall (fun r : pyval * Z => 0 < snd r) rs ->
       exists b, len b = span rs /\ forall pre post, len pre = off -> reads_elements orc (pre ++ b ++ post) d off rs)
    (P1 := fun cls bo names vals done ms off rs =>
       exists b, len b = total rs /\ forall pre post, len pre = off ->
         reads_members orc (pre ++ b ++ post) cls bo names vals done ms off rs).
  - destruct (store_integer (negb u) (order_on (o_host orc) (f_bo f)) n z) as (b & L & S); auto.
    exists b. split; auto. intros pre post <-. pose proof (window_mid pre b post) as W. pose proof (mid_inside pre b post) as I.
    rewrite L in W, I. pose proof (ReadInteger orc (pre ++ b ++ post) f u n (len pre) vals H H0 I) as R.
    now rewrite W, S in R.
  - destruct (store_number (order_on (o_host orc) (f_bo f)) 8 w) as (b & L & S); auto. change (Z.of_nat 8) with 8 in L.
    exists b. split; auto. intros pre post <-. pose proof (window_mid pre b post) as W. pose proof (mid_inside pre b post) as I.
    rewrite L in W, I. pose proof (ReadDouble orc (pre ++ b ++ post) f (len pre) vals H I) as R.
    now rewrite W, S in R.
  - destruct (store_number (order_on (o_host orc) (f_bo f)) 4 s) as (b & L & S); auto. change (Z.of_nat 4) with 4 in L.
    exists b. split; auto. intros pre post <-. pose proof (window_mid pre b post) as W. pose proof (mid_inside pre b post) as I.
    rewrite L in W, I. apply ReadSingle; auto. now rewrite W, S.
  - assert (L16 : List.length u = 16%nat) by (unfold len in *; lia).
    destruct (f_bo f) eqn:B; [congruence| |].
    + exists u. split; auto. intros pre post <-. pose proof (window_mid pre u post) as W. pose proof (mid_inside pre u post) as I.
      rewrite H1 in W, I. apply ReadUUID; auto. now rewrite B, W.
    + pose proof (uuid_swap_spec u L16) as S.
      assert (L : len (uuid_swap u) = 16).
      { clear -L16. do 16 (destruct u as [|? u]; [discriminate|]). destruct u; [|discriminate]. reflexivity. }
      exists (uuid_swap u). split; auto. intros pre post <-.
      pose proof (window_mid pre (uuid_swap u) post) as W. pose proof (mid_inside pre (uuid_swap u) post) as I.
      rewrite L in W, I. apply ReadUUID; auto. rewrite B, W.
      exists u. split; auto. rewrite (uuid_swap_spec (uuid_swap u)) by (unfold len in L; lia). now rewrite uuid_swap_involutive.
  - exists b. split; auto. intros pre post <-. pose proof (ReadPadding orc (pre ++ b ++ post) mt bo a (len b) (len pre) vals H H0 (mid_inside pre b post)) as R.
    now rewrite window_mid in R.
  - assert (SZ := fits_elements_sizes _ _ _ _ (proj2 (element_number e el) H) H3).
    destruct IHF as (b & L & R).
    { eapply Forall_impl; [|exact SZ]. cbn. tauto. }
    exists b. split; auto. intros pre post P. apply ReadCounted; auto.
  - assert (SZ := fits_elements_sizes _ _ _ _ (proj2 (element_number e el) H) H5).
    rewrite element_size, H1 in SZ.
    destruct IHF as (b' & L & R).
    { eapply Forall_impl; [|exact SZ]. cbn. tauto. }
    exists b'. split; auto. intros pre post P. apply (ReadSized _ _ e el s b); auto.
    intros bf af E NE. subst rs. apply Forall_app in SZ. destruct SZ as [S1 S2]. rewrite (span_sizes b) by auto.
    rewrite len_app in H4. assert (0 < len af).
    { destruct af; [congruence|]. rewrite len_cons. pose proof (len_nonneg af). lia. }
    pose proof (Z.mul_div_le s b H2). nia.
  - exists b. split; auto. intros pre post <-. pose proof (ReadStream orc (pre ++ b ++ post) e el (len b) (len pre) vals H H0 (mid_inside pre b post)) as R.
    now rewrite window_mid in R.
  - exists b. split; auto. intros pre post <-.
    pose proof (ReadStreamTerminated orc (pre ++ b ++ post) e el t k (len pre) vals H H0 (first_at_mid _ _ _ _ _ H1 H2)) as R.
    rewrite <- H2 in R. now rewrite window_mid in R.
  - destruct IHF as (b & L & R). exists b. split; auto. intros pre post P. eapply ReadString; eauto.
  - destruct IHF as (b & L & R). exists b. split; auto. intros pre post P. apply ReadStructure; auto.
  - intros _. exists []. split; auto. intros. constructor.
  - intros P. inversion P; subst. cbn [snd] in *. destruct IHF as (b1 & L1 & R1). destruct IHF0 as (b2 & L2 & R2); auto.
    exists (b1 ++ b2). cbn [span fold_right snd]. fold (span rs). rewrite len_app. split; [lia|].
    intros pre post <-. rewrite <- app_assoc. constructor.
    + rewrite !len_app. pose proof (len_nonneg b2). pose proof (len_nonneg post). lia.
    + now apply R1.
    + rewrite app_assoc. apply R2. rewrite len_app. lia.
  - exists []. split; auto. intros. constructor.
  - destruct IHF as (b1 & L1 & R1). destruct IHF0 as (b2 & L2 & R2).
    exists (b1 ++ b2). cbn [total fold_right size_of]. fold (total rs). rewrite len_app. split; [lia|].
    intros pre post <-. rewrite <- app_assoc. constructor; auto.
    rewrite app_assoc. apply R2. rewrite len_app. lia.
  - destruct IHF as (b & L & R). exists b. cbn [total fold_right size_of]. fold (total rs). split; [lia|].
    intros pre post P. constructor; auto.
Qed.

(** *** Whatever is read fits *)

Scheme reads_ind' := Minimality for reads Sort Prop
  with reads_elements_ind' := Minimality for reads_elements Sort Prop
  with reads_members_ind' := Minimality for reads_members Sort Prop.

Definition known (d : dtype) : Prop :=
  match d with
  | DElems _ _ el => forall b, get_byte_size el = Some b -> 0 <= b
  | _ => True
  end.

Lemma sound_known d : everywhere sound d -> everywhere known d.
Proof.
  assert (L : forall l, Forall (fun d => everywhere sound d -> everywhere known d) l ->
    Forall (everywhere sound) l -> Forall (everywhere known) l).
  { induction 1; intros F; inversion F; subst; constructor; auto. }
  induction d using dtype_rect'; cbn [everywhere]; rewrite ?everywhere_list; intros [A B]; split; auto; try exact I.
  - intros b. now apply sound_size.
  - destruct B; split; auto.
  - destruct B as (? & ? & ?). repeat split; auto. destruct df; auto.
Qed.

Lemma used_plain orc cls bo m : folds_back orc m -> everywhere known m ->
  folds_back orc (used_type cls bo m) /\ everywhere known (used_type cls bo m).
Proof.
  intros F K. apply folds_back_type in F. apply everywhere_type in K.
  destruct (used_as_explicit cls bo m) as (ov & EX & U). destruct (U orc) as [_ ->].
  destruct ov as [[n b]|]; auto. destruct (type_of m); cbn in F, K |- *; auto.
  - split; [destruct b; try discriminate; destruct EX|auto].
Qed.

Lemma reads_fit orc bs d off vals v n : reads orc bs d off vals v n ->
  0 <= off -> folds_back orc d -> everywhere known d -> fits orc d off vals v n /\ 0 <= n.
Proof.
  intros R. induction R using reads_ind' with
    (P0 := fun d off rs => 0 <= off -> number_type d -> True -> fits_elements orc d off rs /\ 0 <= span rs)
    (P1 := fun cls bo names vals done ms off rs => 0 <= off -> Forall (folds_back orc) ms -> Forall (everywhere known) ms ->
       fits_members orc cls bo names vals done ms off rs /\ 0 <= total rs);
    intros Ho FB K; try contradiction.
  - split; [|cbn in H; lia]. constructor; auto. apply stored_integer_range; [cbn in H; lia|].
    rewrite len_window; cbn in H; lia.
  - split; [|lia]. constructor; auto. apply (stored_number_range _ _ 8). rewrite len_window; lia.
  - split; [|lia]. eapply FitSingle; eauto. apply (stored_number_range _ _ 4). rewrite len_window; lia.
  - cbn in FB. assert (LW : List.length (window bs off 16) = 16%nat) by (rewrite length_window by lia; reflexivity).
    split; [|lia]. destruct (f_bo f) eqn:B; [congruence| |].
    + subst v. constructor; auto; [congruence|]. rewrite len_window; lia.
    + destruct H1 as (u & S & ->). rewrite uuid_swap_spec in S by auto. inversion S; subst u.
      constructor; auto; [congruence|]. clear -LW. set (w := window bs off 16) in *. clearbody w.
      do 16 (destruct w as [|? w]; [discriminate|]). destruct w; [|discriminate]. reflexivity.
  - pose proof H0 as (N & _). assert (L : len (window bs off n) = n) by (rewrite window_len; lia).
    split; auto. rewrite <- L at 2. constructor; auto. now rewrite L.
  - destruct FB as (NT & _). destruct IHR as [F N]; auto; [now apply element_number|].
    split; auto. now apply FitCounted.
  - destruct FB as (_ & _ & T & _). congruence.
  - destruct FB as (NT & _). destruct IHR as [F N]; auto; [now apply element_number|].
    split; auto. now apply (FitSized orc e el s b).
  - destruct FB as (NT & _). destruct NT.
  - destruct K as [K _]. cbn in K.
    assert (N : 0 <= n).
    { destruct H0 as [[_ S]|(_ & k & c & G & S & ->)]; apply measure_nonneg in S; auto. apply K in G. nia. }
    assert (L : len (window bs off n) = n) by (rewrite window_len; lia).
    split; auto. rewrite <- L at 2. constructor; auto. now rewrite L.
  - pose proof (len_nonneg t) as LT. pose proof H1 as (K0 & _).
    assert (N : 0 <= (k + 1) * len t) by nia. split; auto.
    assert (first_at t (window bs off ((k + 1) * len t)) 0 k /\ len (window bs off ((k + 1) * len t)) = (k + 1) * len t) as [F L].
    { destruct (Z.eq_dec (len t) 0) as [Z0|NZ].
      - destruct t; [|unfold len in Z0; cbn in Z0; lia]. destruct H1 as (_ & _ & F).
        assert (k = 0).
        { destruct (Z.eq_dec k 0); auto. exfalso. apply (F 0); [lia|]. apply firstn_O. }
        subst k. split; [|reflexivity]. split; [lia|]. split; [apply firstn_O|]. intros j J. lia.
      - split; [apply first_at_in; auto; lia|]. assert (LT' : 0 < len t) by lia. pose proof (first_at_inside t bs off k Ho LT' H1) as I. rewrite window_len by lia. lia. }
    rewrite <- L at 2. now apply (FitStreamTerminated orc e el t k).
  - destruct FB as [_ _]. destruct K as [K K']. destruct IHR as [F N]; [auto|exact I|split; auto|].
    split; auto. eapply FitString; eauto.
  - cbn [folds_back] in FB. apply folds_back_list in FB. destruct K as [_ K]. apply go_forall in K.
    destruct IHR as [F N]; auto. split; auto. now constructor.
  - split; [constructor|cbn; lia].
  - destruct IHR as [F N]; auto; [now destruct d| |].
    { destruct d; try contradiction; cbn; auto. }
    destruct IHR0 as [F' N']; auto; [lia|]. cbn [span fold_right snd]. fold (span rs). split; [|lia].
    constructor; auto.
  - split; [constructor|cbn; lia].
  - inversion FB; subst. inversion K; subst. destruct (used_plain orc cls bo m) as [U1 U2]; auto.
    destruct IHR as [F N]; auto. destruct IHR0 as [F' N']; auto; [lia|].
    cbn [total fold_right size_of]. fold (total rs). split; [|lia]. now constructor.
  - inversion FB; subst. inversion K; subst. destruct IHR as [F N]; auto.
    cbn [total fold_right size_of]. fold (total rs). split; [|lia]. now constructor.
Qed.

(** C54 *)
Lemma fits_folds orc d m off vals v n :
  extensional orc -> everywhere regular d -> folds_back orc d -> create orc d None = Ok (Some m) ->
  levels d <= 11 -> 0 <= off -> fits orc d off vals v n ->
  (everywhere no_single d \/ no_nan v) ->
  forall c, clean c -> sizes_agree orc d vals (ctx_values c) v ->
  exists b, fst (foldbs orc m v c) = Ok (VBytes b) /\ len b = n /\
    forall pre post, len pre = off -> exists fuel, maps orc fuel m (pre ++ b ++ post) off vals 0 v n.
Proof.
  intros X E FB C LV Ho F Q c Cl AG. destruct (fits_stored _ _ _ _ _ _ F) as (b & L & R).
  assert (M : forall pre post, len pre = off -> exists fuel, maps orc fuel m (pre ++ b ++ post) off vals 0 v n).
  { intros pre post P. apply (reading_maps orc d); auto.
    rewrite len_app. pose proof (len_nonneg (b ++ post)). lia. }
  exists b. split; auto.
  destruct (M (repeat Byte.x00 (Z.to_nat off)) []) as (fuel & MM).
  { unfold len. rewrite repeat_length. lia. }
  rewrite (map_then_fold orc fuel d m _ off vals 0 v n X (regular_sound _ E) FB C Ho MM Q c Cl AG).
  do 2 f_equal. subst n.
  assert (LP : len (repeat Byte.x00 (Z.to_nat off)) = off) by (unfold len; rewrite repeat_length; lia).
  rewrite <- LP at 2. apply window_mid.
Qed.

Lemma fits_iff orc d m off vals v n :
  extensional orc -> everywhere regular d -> folds_back orc d -> create orc d None = Ok (Some m) ->
  levels d <= 11 -> 0 <= off ->
  (fits orc d off vals v n <->
   exists fuel bs, off <= len bs /\ maps orc fuel m bs off vals 0 v n).
Proof.
  intros X E FB C LV Ho. split.
  - intros F. destruct (fits_stored _ _ _ _ _ _ F) as (b & L & R).
    set (pre := repeat Byte.x00 (Z.to_nat off)).
    assert (LP : len pre = off) by (unfold len, pre; rewrite repeat_length; lia).
    specialize (R pre [] LP). apply (reading_maps orc d m _ off vals 0) in R; auto.
    + destruct R as (fuel & M). exists fuel, (pre ++ b ++ []). split; auto.
      rewrite len_app. pose proof (len_nonneg (b ++ [])). lia.
    + rewrite len_app. pose proof (len_nonneg (b ++ [])). lia.
  - intros (fuel & bs & L & M). apply (mapping_reads orc fuel d) in M; auto.
    apply (reads_fit orc bs); auto. apply sound_known, regular_sound, E.
Qed.
