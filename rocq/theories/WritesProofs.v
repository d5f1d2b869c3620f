(** Folding is the reference writing. *)
From Coq Require Import String Ascii List ZArith Bool Lia.
From Verif Require Import Base Ieee PyVal PyStruct DataTypes ClassFactory DataMaps.
From Verif Require Import BytesProofs SpecPrim PrimProofs IeeeProofs SpecMap SpecCreate SpecReads SpecRound RoundProofs SpecFold SpecShort
  SpecWrites MapProofs ContextProofs StructProofs LayoutProofs CreateProofs LinearProofs StreamProofs SteadyProofs WindowProofs
  ReadsProofs FoldProofs.
From Verif Require ShortProofs SpecMake SeqKindProofs SeqKindProofs.
Import ListNotations.
Open Scope Z_scope.
#[local] Arguments Z.pow : simpl never.
#[local] Arguments Z.mul : simpl never.
#[local] Arguments Z.div : simpl never.
#[local] Arguments Z.add : simpl never.

Lemma proper_getattr v n : proper v -> proper (py_getattr v n).
Proof.
  destruct v; cbn [py_getattr]; try (intros; exact I). intros P.
  destruct (dict_get n attrs) as [x|] eqn:G; [|exact I]. revert P G. cbn [proper].
  induction attrs as [|[k y] l IH]; cbn; [discriminate|]. intros [P1 P2]. destruct (String.eqb _ _).
  - intros Q. inversion Q; now subst.
  - apply IH. exact P2.
Qed.

Lemma proper_numbers v l : numbers_of v l -> proper v -> Forall proper l.
Proof.
  destruct 1; cbn [proper].
  - induction l as [|x l IH]; intros P; constructor; [tauto|]. apply IH. tauto.
  - intros _. rewrite Forall_forall. intros x I0. apply in_map_iff in I0. destruct I0 as (y & <- & _). exact I.
Qed.

(** ** Numbers *)

Lemma as_double_spec v w : proper v ->
  as_double v w <->
  match v with
  | VFloat b => w = b
  | VInt z => Z_to_f64 z = Some w
  | VBool b => Z_to_f64 (Z.b2z b) = Some w
  | _ => False
  end.
Proof.
  assert (A : forall z, (exists z', Some z = Some z' /\ ~ too_large_for_double z' /\
           nearest_double (integer_number z') w /\ w / 2 ^ 63 = (if z' <? 0 then 1 else 0)) <-> Z_to_f64 z = Some w).
  { intros z. split.
    - intros (z' & Q & L & N & S). inversion Q; subst z'. rewrite <- int_overflow in L.
      destruct (Z_to_f64 z) as [w'|] eqn:E; [|congruence]. apply int_nearest in E. destruct E as [N' S'].
      f_equal. apply (nearest_double_unique (integer_number z)); auto. congruence.
    - intros E. exists z. split; auto. split; [rewrite <- int_overflow; congruence|]. now apply int_nearest. }
  intros P. destruct v; cbn [as_double as_integer]; try tauto;
    try (split; [intros (z & Q & _); discriminate|tauto]); try apply A.
Qed.

Lemma double_range v w : proper v -> as_double v w -> 0 <= w < 2 ^ 64.
Proof.
  intros P D. apply as_double_spec in D; auto. destruct v; try contradiction.
  - destruct (int_nearest _ _ D) as [[[R _] _] _]. exact R.
  - destruct (int_nearest _ _ D) as [[[R _] _] _]. exact R.
  - subst. exact P.
Qed.

Lemma pack_integer en c v b : is_int_code c = true ->
  pack1 en c v = Ok b <->
  len b = Z.of_nat (code_size c) /\ as_integer v = Some (stored_integer (code_signed c) en b).
Proof.
  intros I.
  assert (A : forall z, pack_int en c z = Ok b <-> len b = Z.of_nat (code_size c) /\ Some z = Some (stored_integer (code_signed c) en b)).
  { intros z. destruct (int_range_dec c z) as [R|R].
    - rewrite pack_int_range by exact R. split.
      + intros Q. inversion Q; subst b. rewrite stored_enc by exact R. split; auto. unfold len. now rewrite enc_n_length.
      + intros [L Q]. inversion Q; subst z. rewrite enc_stored; auto. unfold len in L. lia.
    - rewrite pack_int_out by exact R. split; [discriminate|]. intros [L Q]. inversion Q; subst z. exfalso. apply R.
      apply stored_integer_in_range. unfold len in L. lia. }
  assert (B : pack1 en c v = match as_integer v with Some z => pack_int en c z | None => Raise IOError end).
  { destruct c; try discriminate; destruct v; reflexivity. }
  rewrite B. destruct (as_integer v) as [z|]; [apply A|]. split; [discriminate|]. intros [_ Q]. discriminate.
Qed.

Lemma pack_double en v b : proper v ->
  pack1 en Cd v = Ok b <-> len b = 8 /\ as_double v (stored_number en b).
Proof.
  intros P. rewrite as_double_spec by exact P.
  assert (A : forall w, 0 <= w < 2 ^ 64 -> Ok (enc_n en 8 w) = Ok b <-> len b = 8 /\ stored_number en b = w).
  { intros w R. split.
    - intros Q. inversion Q. rewrite stored_number_enc by (cbn; lia). split; auto. unfold len. now rewrite enc_n_length.
    - intros [L <-]. rewrite enc_stored_number; auto. unfold len in L. lia. }
  destruct v; cbn [pack1 pack_float]; try (split; [discriminate|tauto]).
  - destruct (Z_to_f64 (Z.b2z b0)) as [w|] eqn:E; [|split; [discriminate|intros [_ Q]; discriminate]].
    rewrite A; [split; [intros [L ->]; auto|intros [L Q]; split; congruence]|].
    destruct (int_nearest _ _ E) as [[[R _] _] _]. exact R.
  - destruct (Z_to_f64 z) as [w|] eqn:E; [|split; [discriminate|intros [_ Q]; discriminate]].
    rewrite A; [split; [intros [L ->]; auto|intros [L Q]; split; congruence]|].
    destruct (int_nearest _ _ E) as [[[R _] _] _]. exact R.
  - rewrite A by exact P. tauto.
Qed.

Lemma pack_single en v b : proper v ->
  pack1 en Cf v = Ok b <->
  len b = 4 /\ exists w, as_double v w /\ ~ too_large_for_single w /\ narrowed w (stored_number en b).
Proof.
  intros P.
  assert (A : forall w, 0 <= w < 2 ^ 64 ->
    (match f64_to_f32 w with Some x => Ok (enc_n en 4 x) | None => Raise OverflowError end = Ok b <->
     len b = 4 /\ ~ too_large_for_single w /\ narrowed w (stored_number en b))).
  { intros w R. pose proof (narrow_overflow w R) as O. destruct (f64_to_f32 w) as [s|] eqn:F.
    - pose proof (narrowed_f64 _ _ R F) as N. split.
      + intros Q. inversion Q. rewrite stored_number_enc by (destruct N as [N _]; cbn; lia).
        split; [unfold len; now rewrite enc_n_length|]. split; auto. intros T. apply O in T. discriminate.
      + intros (L & _ & N'). rewrite (narrowed_unique _ _ _ N N'), enc_stored_number; auto. unfold len in L. lia.
    - split; [discriminate|]. intros (_ & T & _). exfalso. apply T. now apply O. }
  assert (B : (exists w, as_double v w) \/ (forall w, ~ as_double v w)).
  { destruct v; try (right; intros w D; apply as_double_spec in D; auto; fail).
    - destruct (Z_to_f64 (Z.b2z b0)) as [w|] eqn:E; [left; exists w|right; intros w D]; [apply as_double_spec; auto|].
      apply as_double_spec in D; auto. congruence.
    - destruct (Z_to_f64 z) as [w|] eqn:E; [left; exists w|right; intros w D]; [apply as_double_spec; auto|].
      apply as_double_spec in D; auto. congruence.
    - left. exists bits. reflexivity. }
  assert (G : forall w, as_double v w -> pack1 en Cf v = match f64_to_f32 w with Some x => Ok (enc_n en 4 x) | None => Raise OverflowError end).
  { intros w D. apply as_double_spec in D; auto. destruct v; try contradiction; cbn [pack1]; rewrite ?D; subst; reflexivity. }
  destruct B as [(w & D)|N].
  - rewrite (G w D), A by (eapply double_range; eauto). split.
    + intros (L & T & N). eauto.
    + intros (L & w' & D' & T & N). assert (w' = w); [|subst; auto].
      apply as_double_spec in D, D'; auto. destruct v; try contradiction; congruence.
  - split.
    + intros Q. exfalso. destruct v; try discriminate; cbn [pack1] in Q.
      * destruct (Z_to_f64 (Z.b2z b0)) as [w|] eqn:E; [|discriminate]. apply (N w). apply as_double_spec; auto.
      * destruct (Z_to_f64 z) as [w|] eqn:E; [|discriminate]. apply (N w). apply as_double_spec; auto.
      * apply (N bits). reflexivity.
    + intros (_ & w & D & _). exfalso. eapply N; eauto.
Qed.

Lemma stores_code en d v b : stores en d v b -> exists c, prim_code d = Some c.
Proof.
  destruct 1 as [f u n v b I S L A|f fv tv n v b I S L A|f n v b I S L A|f v b S L A|f v w b S L A T N]; cbn [prim_code]; rewrite S;
    try (cbn in I; repeat (destruct I as [<-|I]; [try destruct u; eexists; reflexivity|]); contradiction); eexists; reflexivity.
Qed.

Lemma pack_stores en d c v b : prim_code d = Some c -> proper v -> (pack1 en c v = Ok b <-> stores en d v b).
Proof.
  intros C P. destruct d; try discriminate; cbn [prim_code] in C.
  - assert (K : exists n, In n [1; 2; 4] /\ f_size f = Some n /\ n = Z.of_nat (code_size c) /\ is_int_code c = true /\ code_signed c = false).
    { destruct (f_size f) as [n|]; [|discriminate]. exists n.
      repeat match type of C with context [match ?x with _ => _ end] => destruct x; try discriminate end; inversion C; subst; cbn; tauto. }
    destruct K as (n & I & S & E & IC & SG). rewrite pack_integer, SG, <- E by exact IC. split.
    + intros [L A]. eapply StoreBoolean; eauto.
    + intros H. inversion H; subst. split; auto. congruence.
  - assert (K : exists n, In n [1; 2; 4] /\ f_size f = Some n /\ n = Z.of_nat (code_size c) /\ is_int_code c = true /\ code_signed c = true).
    { destruct (f_size f) as [n|]; [|discriminate]. exists n.
      repeat match type of C with context [match ?x with _ => _ end] => destruct x; try discriminate end; inversion C; subst; cbn; tauto. }
    destruct K as (n & I & S & E & IC & SG). rewrite pack_integer, SG, <- E by exact IC. split.
    + intros [L A]. eapply StoreCharacter; eauto.
    + intros H. inversion H; subst. split; auto. congruence.
  - assert (K : (f_size f = Some 4 /\ c = Cf) \/ (f_size f = Some 8 /\ c = Cd)).
    { destruct (f_size f) as [n|]; [|discriminate].
      repeat match type of C with context [match ?x with _ => _ end] => destruct x; try discriminate end; inversion C; subst; cbn; tauto. }
    destruct K as [[S ->]|[S ->]].
    + rewrite pack_single by exact P. split.
      * intros (L & w & D & T & N). eapply StoreSingle; eauto.
      * intros H. inversion H; subst; [congruence|]. eauto.
    + rewrite pack_double by exact P. split.
      * intros (L & D). eapply StoreDouble; eauto.
      * intros H. inversion H; subst; [auto|congruence].
  - assert (K : exists n, In n [1; 2; 4; 8] /\ f_size f = Some n /\ n = Z.of_nat (code_size c) /\ is_int_code c = true /\ code_signed c = negb unsigned).
    { destruct unsigned; destruct (f_size f) as [n|]; try discriminate; exists n;
      repeat match type of C with context [match ?x with _ => _ end] => destruct x; try discriminate end; inversion C; subst; cbn; tauto. }
    destruct K as (n & I & S & E & IC & SG). rewrite pack_integer, SG, <- E by exact IC. split.
    + intros [L A]. eapply StoreInteger; eauto.
    + intros H. inversion H; subst. split; auto. congruence.
Qed.

Lemma pack_stores_all en ds cs : Forall2 (fun d c => prim_code d = Some c) ds cs -> forall vs b, Forall proper vs ->
  (pack_codes en cs vs = Ok b <-> stores_all en ds vs b).
Proof.
  induction 1 as [|d c ds cs C F IH]; intros vs b P; destruct vs as [|v vs]; cbn [pack_codes].
  - split; [intros Q; inversion Q; constructor|]. intros H. inversion H. reflexivity.
  - split; [discriminate|]. intros H. inversion H.
  - split; [discriminate|]. intros H. inversion H.
  - inversion P; subst. split.
    + intros Q. apply bind_ok in Q. destruct Q as (x & Q1 & Q). apply bind_ok in Q. destruct Q as (y & Q2 & Q). inversion Q; subst.
      constructor; [eapply pack_stores; eauto|now apply IH].
    + intros H. remember (d :: ds) as ds1. remember (v :: vs) as vs1. destruct H as [|d' ds' v' vs' b' bs' S1 S2]; [discriminate|].
      inversion Heqds1; inversion Heqvs1; subst. rewrite (proj2 (pack_stores en d c v b' C H1) S1). cbn [bind].
      rewrite (proj2 (IH vs bs' H2) S2). reflexivity.
Qed.

Lemma stores_all_codes en ds vs b : stores_all en ds vs b -> Forall (fun d => exists c, prim_code d = Some c) ds.
Proof. induction 1; constructor; auto. eapply stores_code; eauto. Qed.

Lemma stores_none en d b : ~ stores en d VNone b.
Proof.
  intros H. inversion H; subst; try discriminate.
  - destruct H2 as (z & Q & _). discriminate.
  - destruct H2 as (z & Q & _). discriminate.
Qed.

Lemma stores_all_some en ds vs b : stores_all en ds vs b -> Forall (fun v => v <> VNone) vs.
Proof. induction 1; constructor; auto. intros ->. eapply stores_none; eauto. Qed.

Lemma folding_ok {A} (r : res A) x : folding r = Ok x <-> r = Ok x.
Proof. destruct r; cbn; split; congruence. Qed.

(** ** Definitions that are single values *)

(** Folding with a clean context, and what it leaves of the context. *)
Definition writes_like (orc : oracle) (d : dtype) : Prop :=
  everywhere sound d -> forall m, create orc d None = Ok (Some m) ->
  forall v c vals, proper v -> clean c -> same_values (ctx_values c) vals ->
  (forall b, fst (foldbs orc m v c) = Ok (VBytes b) <-> writes orc d vals v b) /\
  (forall x, fst (foldbs orc m v c) = Ok x -> x <> VNone ->
     clean (snd (foldbs orc m v c)) /\ same_values (ctx_values (snd (foldbs orc m v c))) vals).

Lemma sound_copy n b d : everywhere sound d -> everywhere sound (set_name_bo n b d).
Proof.
  destruct d; cbn [set_name_bo everywhere]; auto; intros [S E]; split; auto.
Qed.

Lemma sound_used sn bo m : everywhere sound m -> everywhere sound (used_type sn bo m).
Proof.
  intros E. apply everywhere_type in E. unfold used_type. destruct bo; auto; destruct (dt_byte_order _) as [[]|]; auto; now apply sound_copy.
Qed.

Lemma write_one en c v b : write_to (op1 en c) [v] = Ok b <-> pack1 en c v = Ok b.
Proof.
  change (write_to (op1 en c) [v]) with (pack_codes en [c] [v]). cbn [pack_codes].
  destruct (pack1 en c v) as [x| |]; cbn [bind]; [rewrite app_nil_r; tauto|split; discriminate..].
Qed.

Lemma prim_writes orc d (bo : byte_order) op v c b : prim_op orc d bo = Ok op -> proper v ->
  (fst (fold_prim d op v c) = Ok (VBytes b) <->
   exists x, fold_value d v = Ok x /\ stores (order_on (o_host orc) bo) d x b).
Proof.
  intros O P. unfold fold_prim. cbn [fst]. rewrite folding_ok. unfold prim_op in O.
  destruct (prim_code d) as [k|] eqn:PC.
  - rewrite make_op1 in O. cbn [bind] in O. inversion O; subst op.
    destruct (fold_value d v) as [x|e|] eqn:F; cbn [bind]; [|split; [discriminate|intros (x & Q & _); discriminate]..].
    assert (PX : proper x).
    { destruct d; cbn in F; try (inversion F; subst; exact P);
        repeat match type of F with context [match ?y with _ => _ end] => destruct y; try discriminate end; inversion F; exact I. }
    change (order_on (o_host orc) bo) with (resolve orc bo).
    split.
    + intros Q. apply bind_ok in Q. destruct Q as (y & Q & R). inversion R; subst y. exists x. split; auto.
      apply (pack_stores _ d k); auto. now apply write_one.
    + intros (y & Q & S). inversion Q; subst y. apply (pack_stores _ d k) in S; auto. apply write_one in S. rewrite S. reflexivity.
  - inversion O; subst op. split.
    + intros Q. apply bind_ok in Q. destruct Q as (y & _ & Q). discriminate.
    + intros (y & _ & S). apply stores_code in S. destruct S as (k & S). congruence.
Qed.

Lemma prim_all orc d : is_prim d = true -> writes_like orc d.
Proof.
  intros IP _ m C v c vals P Cl SV.
  assert (K : exists bo op, dt_byte_order d = Some bo /\ prim_op orc d bo = Ok op /\ m = MPrim d op).
  { destruct d; try discriminate; cbn [create] in C.
    - destruct false_value, true_value; try discriminate; (apply bind_ok in C; destruct C as (o & O & C); inversion C; do 2 eexists; cbn; eauto).
    - apply bind_ok in C; destruct C as (o & O & C); inversion C; do 2 eexists; cbn; eauto.
    - apply bind_ok in C; destruct C as (o & O & C); inversion C; do 2 eexists; cbn; eauto.
    - apply bind_ok in C; destruct C as (o & O & C); inversion C; do 2 eexists; cbn; eauto. }
  destruct K as (bo & op & B & O & ->). cbn [foldbs]. split; [|intros; cbn [fold_prim snd]; auto].
  intros b. rewrite (prim_writes orc d bo op v c b O P). split.
  - intros (x & F & S). destruct d; try discriminate; cbn [fold_value dt_byte_order] in *; inversion B; subst bo.
    + destruct v as [|[]| | | | | | | |]; try discriminate;
        destruct false_value, true_value; try discriminate; inversion F; subst x; (eapply WriteBoolean; [reflexivity|exact S]).
    + destruct v as [| | | |[|z []]|[|z []]| | | |]; try discriminate; inversion F; subst x; [apply WriteCharacter|apply WriteCharacterByte]; exact S.
    + inversion F; subst x. eapply WriteNumber; [exact I|reflexivity|exact S].
    + inversion F; subst x. eapply WriteNumber; [exact I|reflexivity|exact S].
  - intros W. destruct W; try discriminate.
    + exists v. assert (bo = bo0) by congruence. subst bo0. split; auto. destruct d; try contradiction; reflexivity.
    + exists (VInt z). cbn [dt_byte_order] in B. inversion B; subst bo. split; auto. cbn. destruct x; [destruct fv|]; rewrite H; reflexivity.
    + exists (VInt z). cbn [dt_byte_order] in B. inversion B; subst bo. split; auto.
    + exists (VInt (byteZ x)). cbn [dt_byte_order] in B. inversion B; subst bo. split; auto.
Qed.

Lemma uuid_all orc f : writes_like orc (DUUID f).
Proof.
  intros _ m C v c vals P Cl SV. cbn [create] in C. inversion C; subst m. cbn [foldbs apply_ov]. split; [|intros; cbn [fold_uuid snd]; auto].
  intros b. unfold fold_uuid. cbn [dt_byte_order fst]. split.
  - intros Q. destruct (f_bo f) eqn:B; [discriminate| |]; destruct v; try discriminate; inversion Q; subst; constructor; rewrite B.
    + reflexivity.
    + apply uuid_swap_spec. cbn in P. unfold len in P. lia.
  - intros W. remember (DUUID f) as d. destruct W; inversion Heqd; subst; [contradiction|]. cbn in P. destruct (f_bo f); [contradiction|subst; reflexivity|].
    rewrite uuid_swap_spec in H by (unfold len in P; lia). congruence.
Qed.

Lemma padding_all orc mt bo a : writes_like orc (DPadding mt bo a).
Proof.
  intros _ m C v c vals P Cl SV. cbn [create] in C. inversion C; subst m. cbn [foldbs apply_ov fst snd]. split; [|auto].
  intros b. split.
  - intros Q. inversion Q; subst. constructor.
  - intros W. inversion W; subst; [contradiction|reflexivity].
Qed.

(** ** Streams and strings *)

Lemma stream_writes orc e el (em : option dmap) vals v b : sound (DElems KStream e el) ->
  (fst (fold_stream orc e (element_type e el) v (Some (ctx_new vals))) = Ok (VBytes b) <-> writes orc (DElems KStream e el) vals v b).
Proof.
  intros [(_ & _ & _ & T) _]. split.
  - intros F.
    assert (V : exists l, v = VBytes l).
    { unfold fold_stream in F. destruct (calc_data_size _ _ _ _) as [[[n|]|x|] c1]; cbn [fst] in F; try discriminate.
      - destruct v; cbn in F; try discriminate; eauto; destruct (_ =? _); try discriminate.
      - destruct (e_terminator e) as [t|]; [|discriminate]. apply bind_ok in F. destruct F as (n & _ & F).
        destruct v; try discriminate; eauto; destruct (py_eq _ _); discriminate. }
    destruct V as (l & ->). destruct (sized_or_not e (element_type e el)) as [U|U].
    + destruct (e_terminator e) as [t|] eqn:Et.
      * destruct (T t eq_refl) as (tb & -> & _ & Lt).
        apply (stream_fold_terminated orc e (element_type e el) em tb vals l U Et Lt b) in F. rewrite unsized_element in U.
        destruct F as [[(p & ->) ->]|[N ->]]; [apply WriteStreamTerminated; assumption|apply WriteStreamAdded; assumption].
      * exfalso. unfold fold_stream in F. destruct (calc_spec orc e (element_type e el) vals) as (_ & B & _ & _). apply B in U.
        destruct (calc_data_size _ _ _ _) as [r c1]. cbn [fst] in U. subst r. rewrite Et in F. discriminate.
    + destruct (stream_fold_sized orc e (element_type e el) em vals l U) as [S _]. apply S in F. destruct F as [F ->].
      apply WriteStream; [rewrite unsized_element in U; assumption|rewrite stream_size_element in F; assumption].
  - intros W. inversion W; subst; [contradiction|..].
    + destruct (stream_fold_sized orc e (element_type e el) em vals b) as [S _]; [intros Q; rewrite unsized_element in Q; contradiction|].
      apply S. split; auto. now rewrite stream_size_element.
    + match goal with Q : e_terminator e = Some _ |- _ => destruct (T _ Q) as (tb & Q' & _ & Lt) end. rename Q' into Q. inversion Q; subst tb.
      apply (stream_fold_terminated orc e (element_type e el) em t vals); auto; [now rewrite unsized_element|]. left. eauto.
    + match goal with Q : e_terminator e = Some _ |- _ => destruct (T _ Q) as (tb & Q' & _ & Lt) end. rename Q' into Q. inversion Q; subst tb.
      apply (stream_fold_terminated orc e (element_type e el) em t vals); auto. now rewrite unsized_element.
Qed.

Lemma stream_all orc e el : extensional orc -> writes_like orc (DElems KStream e el).
Proof.
  intros X E m C v c vals P Cl SV. apply SeqKindProofs.created_elems in C. destruct C as (em & _ & ->). cbn [foldbs].
  destruct (fold_values orc e (element_type e el) v c vals X Cl SV) as (A & B & D). cbn zeta in *. rewrite A. split; auto.
  intros b. apply (stream_writes orc e el em). now apply everywhere_here in E.
Qed.

Lemma string_all orc e el : extensional orc -> writes_like orc (DElems KString e el).
Proof.
  intros X E m C v c vals P Cl SV. apply SeqKindProofs.created_elems in C. destruct C as (em & _ & ->). cbn [foldbs]. unfold fold_string.
  assert (S : sound (DElems KStream e el)) by (apply everywhere_here in E; exact E).
  assert (N : forall w, (forall s, w <> VStr s) -> forall b, ~ writes orc (DElems KString e el) vals w b).
  { intros w H b W. inversion W; subst; [contradiction|]. eapply H; eauto. }
  destruct v as [| | | |s| | | | |]; try (cbn [fst snd]; split; [intros b0; split; [discriminate|intros W; exfalso; eapply N; [|exact W]; discriminate]|intros x Q; discriminate]).
  destruct (o_encode orc (e_encoding e) s) as [l|] eqn:En.
  - destruct (fold_values orc e (element_type e el) (VBytes l) c vals X Cl SV) as (A & B & D). cbn zeta in *. rewrite A. split; auto.
    intros b. rewrite (stream_writes orc e el em) by exact S. split.
    + intros W. eapply WriteString; eauto.
    + intros W. inversion W; subst; [contradiction|]. congruence.
  - split; [|discriminate]. intros b. split; [discriminate|]. intros W. inversion W; subst; [contradiction|]. congruence.
Qed.

(** ** Sequences *)

Lemma pack_length en cs : forall vs b, pack_codes en cs vs = Ok b -> List.length vs = List.length cs.
Proof.
  induction cs as [|c cs IH]; intros [|v vs] b; cbn [pack_codes]; try discriminate; auto. intros Q.
  apply bind_ok in Q. destruct Q as (x & _ & Q). apply bind_ok in Q. destruct Q as (y & Q & _). cbn. f_equal. eauto.
Qed.

Lemma same_types {A} (l : list A) (d : dtype) : map (fun _ => d) l = repeat d (List.length l).
Proof. induction l; cbn; congruence. Qed.

Lemma repeat_codes d c n : prim_code d = Some c -> Forall2 (fun d c => prim_code d = Some c) (repeat d n) (repeat c n).
Proof. intros H. induction n; cbn; constructor; auto. Qed.

Lemma element_code e el : prim_code (element_type e el) = prim_code el.
Proof.
  unfold element_type. destruct (e_bo e); auto; destruct (dt_byte_order el) as [[]|]; auto; destruct (is_composite el); auto; apply prim_code_ov.
Qed.

Lemma one_op en k c o : make_op en [(k, c)] = Ok o -> op_endian o = en /\ op_codes o = repeat c (Z.to_nat k).
Proof.
  unfold make_op. destruct (_ && _); [|discriminate]. intros Q. inversion Q; subst. split; auto. unfold op_codes. cbn [op_tokens flat_map].
  now rewrite app_nil_r.
Qed.

Lemma tokens_code orc d x t : create orc d None = Ok (Some x) -> map_tokens x = Ok (Some t) ->
  exists c, t = [(1, c)] /\ prim_code d = Some c.
Proof.
  intros C T. destruct x; try discriminate. cbn in T. apply created_prim in C. destruct C as [-> _].
  destruct (prim_code d) as [c|]; [|discriminate]. inversion T. eauto.
Qed.

Lemma code_tokens orc d x c : create orc d None = Ok x -> prim_code d = Some c ->
  exists bo op, dt_byte_order d = Some bo /\ x = Some (MPrim d op).
Proof.
  intros C P. destruct d; try discriminate; cbn [create] in C.
  - destruct false_value, true_value; try discriminate; (apply bind_ok in C; destruct C as (o & O & C); inversion C; do 2 eexists; cbn; eauto).
  - apply bind_ok in C; destruct C as (o & O & C); inversion C; do 2 eexists; cbn; eauto.
  - apply bind_ok in C; destruct C as (o & O & C); inversion C; do 2 eexists; cbn; eauto.
  - apply bind_ok in C; destruct C as (o & O & C); inversion C; do 2 eexists; cbn; eauto.
Qed.

(** The operation of a sequence that is written at once. *)
Lemma sequence_op_spec orc e el em op : sound (DElems KSequence e el) -> everywhere sound el ->
  create orc (element_type e el) None = Ok em -> sequence_op orc e (element_type e el) em = Ok op ->
  match op with
  | Some o => exists k c bo, holds_elements e el k /\ prim_code el = Some c /\ dt_byte_order (element_type e el) = Some bo /\
                op_endian o = order_on (o_host orc) bo /\ op_codes o = repeat c (Z.to_nat k)
  | None => forall k, holds_elements e el k -> prim_code el = None
  end.
Proof.
  intros [(_ & S1 & S2 & _) _] Ee Ce Op. unfold sequence_op in Op. destruct em as [x|].
  2:{ inversion Op; subst op. intros k _. destruct (prim_code el) as [c|] eqn:PC; auto. rewrite <- element_code with (e := e) in PC.
      destruct (code_tokens _ _ _ _ Ce PC) as (? & ? & _ & Q). discriminate. }
  apply bind_ok in Op. destruct Op as (en & En & Op). apply bind_ok in Op. destruct Op as (t & Tk & Op).
  assert (G : forall k,
     (let* f := map_tokens x in match truthy_Z (Some k), f with Some n, Some [(_, c)] => Ok (Some [(n, c)]) | _, _ => Ok None end) = Ok t ->
     match t with
     | Some t => k <> 0 /\ exists c bo, t = [(k, c)] /\ prim_code el = Some c /\ dt_byte_order (element_type e el) = Some bo /\ en = order_on (o_host orc) bo
     | None => k = 0 \/ prim_code el = None
     end).
  { intros k Q. apply bind_ok in Q. destruct Q as (f & MT & Q). destruct (truthy_Z (Some k)) as [n|] eqn:Tn.
    2:{ inversion Q; subst t. apply truthy_Z_none in Tn. destruct Tn as [Tn|Tn]; [discriminate|]. left. congruence. }
    apply truthy_Z_some in Tn. destruct Tn as [Tn K0]. inversion Tn; subst n. destruct f as [f|].
    - destruct (tokens_code _ _ _ _ Ce MT) as (c & -> & PC). inversion Q; subst t. rewrite element_code in PC.
      rewrite <- element_code with (e := e) in PC. destruct (code_tokens _ _ _ _ Ce PC) as (bo & o & B & Qx). rewrite element_code in PC.
      split; auto. exists c, bo. repeat split; auto. inversion Qx; subst x. cbn [map_endian] in En. rewrite B in En. inversion En. reflexivity.
    - inversion Q; subst t. right. destruct (prim_code el) as [c|] eqn:PC; auto. rewrite <- element_code with (e := e) in PC.
      destruct (code_tokens _ _ _ _ Ce PC) as (bo & o & B & Qx). inversion Qx; subst x. cbn [map_tokens] in MT. rewrite PC in MT. discriminate. }
  assert (BS : get_byte_size (element_type e el) = get_byte_size el) by apply SeqKindProofs.element_type_size.
  unfold sequence_tokens in Tk. destruct (e_data_size e) as [s|] eqn:DS.
  - assert (s <> 0) by (specialize (S1 s eq_refl); lia). assert (TS : truthy_Z (Some s) = Some s) by (now apply truthy_Z_some). rewrite TS in Tk.
    rewrite BS in Tk. destruct (get_byte_size el) as [b|] eqn:B.
    2:{ inversion Tk; subst t. inversion Op; subst op. intros k [_ [(s' & b & _ & Q & _)|[Q _]]]; congruence. }
    destruct (Z.eqb_spec b 0); [discriminate|]. apply G in Tk. destruct t as [t|].
    + destruct Tk as (K0 & c & bo & -> & PC & Bo & En'). apply bind_ok in Op. destruct Op as (o & Mo & Op). inversion Op; subst op.
      destruct (one_op _ _ _ _ Mo) as [O1 O2]. exists (s / b), c, bo. rewrite O1, O2. split; [|repeat split; auto].
      assert (0 < s) by (now apply S1). assert (0 < b).
      { apply (prim_size el c b PC) in B. subst b. apply csize_pos. }
      pose proof (Z.div_pos s b). split; [lia|]. left. exists s, b. auto.
    + inversion Op; subst op. intros k [K [(s' & b' & Q1 & Q2 & _ & Q3)|[Q _]]]; [|congruence].
      assert (k = s / b) by congruence. destruct Tk; auto. lia.
  - cbn [truthy_Z] in Tk. destruct (e_number e) as [n|] eqn:N.
    + apply G in Tk. destruct t as [t|].
      * destruct Tk as (K0 & c & bo & -> & PC & Bo & En'). apply bind_ok in Op. destruct Op as (o & Mo & Op). inversion Op; subst op.
        destruct (one_op _ _ _ _ Mo) as [O1 O2]. exists n, c, bo. rewrite O1, O2. split; [|repeat split; auto].
        split; [now apply S2|]. right. auto.
      * inversion Op; subst op. intros k [K [(s' & b' & Q1 & _)|[_ Q]]]; [congruence|]. assert (k = n) by congruence. destruct Tk; auto. lia.
    + apply bind_ok in Tk. destruct Tk as (f & _ & Tk). cbn in Tk. inversion Tk; subst t. inversion Op; subst op.
      intros k [_ [(s' & b' & Q1 & _)|[_ Q]]]; congruence.
Qed.

Lemma iter_numbers v l : numbers_of v l -> py_iter v = Ok l.
Proof. destruct 1; reflexivity. Qed.

Lemma pack_text en c v : pack1 en c (VStr v) = Raise IOError \/ exists e, pack1 en c (VStr v) = Raise e.
Proof. destruct c; cbn; eauto. Qed.

Lemma writes_sequence orc e el vals v b : writes orc (DElems KSequence e el) vals v b ->
  at_once (DElems KSequence e el) /\ exists l bo, numbers_of v l /\ holds_elements e el (len l) /\
    dt_byte_order (element_type e el) = Some bo /\ stores_all (order_on (o_host orc) bo) (map (fun _ => el) l) l b.
Proof.
  intros W. remember (DElems KSequence e el) as d. destruct W; inversion Heqd; subst; [contradiction|]. split; auto. exists l, bo. auto.
Qed.

Lemma sequence_all orc e el : writes_like orc (DElems KSequence e el).
Proof.
  intros E m C v c vals P Cl SV. pose proof (everywhere_here _ _ E) as So. pose proof (proj2 E) as Ee.
  apply SeqKindProofs.created_elems in C. destruct C as (em & Ce & C). destruct (sequence_is_linear e (element_type e el)) eqn:LI.
  - assert (AO : at_once (DElems KSequence e el)) by now apply ShortProofs.at_once_linear.
    destruct C as (op & Op & ->). cbn [foldbs]. split; [|intros; cbn [fold_seq_linear snd]; auto].
    pose proof (sequence_op_spec orc e el em op So Ee Ce Op) as SP. intros b. unfold fold_seq_linear. cbn [fst]. rewrite folding_ok.
    destruct op as [o|].
    + destruct SP as (k & x & bo & K & PC & Bo & O1 & O2). split.
      * intros Q. apply bind_ok in Q. destruct Q as (l & Il & Q). apply bind_ok in Q. destruct Q as (y & W & Q). inversion Q; subst y.
        unfold write_to in W. rewrite O1, O2 in W. pose proof (pack_length _ _ _ _ W) as L. rewrite repeat_length in L.
        assert (Kp : 0 < k) by apply K.
        assert (LK : len l = k) by (unfold len; lia).
        assert (NU : numbers_of v l).
        { destruct v; cbn in Il; try discriminate; inversion Il; subst l; try constructor.
          exfalso. destruct (Z.to_nat k) as [|n] eqn:Nk; [lia|]. destruct s as [|z s]; [discriminate|]. cbn in W.
          destruct (pack_text (order_on (o_host orc) bo) x [z]) as [R|(er & R)]; rewrite R in W; discriminate. }
        apply (WriteSequence orc e el bo l); auto; [now rewrite LK|].
        rewrite same_types. replace (List.length l) with (Z.to_nat k).
        apply (pack_stores_all _ _ (repeat x (Z.to_nat k))); auto; [now apply repeat_codes|eapply proper_numbers; eauto].
      * intros W. apply writes_sequence in W. destruct W as (_ & l & bo0 & NU & K' & Bo' & SA).
        rewrite (iter_numbers _ _ NU). cbn [bind].
        assert (KB : k = len l /\ bo0 = bo).
        { split; [|congruence]. destruct K as [_ [(s1 & b1 & Q1 & Q2 & _ & Q3)|[Q1 Q2]]], K' as [_ [(s2 & b2 & R1 & R2 & _ & R3)|[R1 R2]]]; congruence. }
        destruct KB as [-> ->]. unfold write_to. rewrite O1, O2.
        replace (Z.to_nat (len l)) with (List.length l) by (unfold len; lia).
        rewrite same_types in SA.
        apply (pack_stores_all _ _ (repeat x (List.length l))) in SA; [|now apply repeat_codes|eapply proper_numbers; eauto].
        now rewrite SA.
    + split; [discriminate|]. intros W. apply writes_sequence in W. destruct W as (_ & l & bo0 & NU & K' & Bo' & SA).
      pose proof (SP _ K') as N. apply stores_all_codes in SA. destruct l as [|a l]; [destruct K'; cbn in *; lia|].
      cbn in SA. inversion SA as [|? ? (cc & Q) _]. congruence.
  - subst m. cbn [foldbs fst snd]. split; [|intros x Q N; exfalso; apply N; congruence].
    intros b. split; [discriminate|]. intros W. apply writes_sequence in W. destruct W as [AO _]. apply ShortProofs.at_once_linear in AO. congruence.
Qed.

(** ** Structures *)

Lemma struct_codes orc sn bo ms attrs :
  Forall2 (fun m a => fst a = dt_name m /\ create orc (used_type sn bo m) None = Ok (snd a)) ms attrs ->
  forall t, struct_tokens attrs = Ok t ->
  match t with
  | Some t => exists cs, t = map (fun c => (1, c)) cs /\ Forall2 (fun d c => prim_code d = Some c) (map type_of ms) cs
  | None => ~ Forall (fun d => exists c, prim_code d = Some c) (map type_of ms)
  end.
Proof.
  induction 1 as [|m a ms attrs [_ C] F IH]; intros t T; cbn [struct_tokens] in T.
  - inversion T; subst t. exists []. split; [reflexivity|constructor].
  - destruct a as [n x]. cbn [snd] in C. cbn [map]. destruct x as [x|].
    + apply bind_ok in T. destruct T as (u & Tu & T). destruct u as [u|].
      * destruct (tokens_code _ _ _ _ C Tu) as (c & -> & PC). rewrite used_code in PC. apply bind_ok in T. destruct T as (w & Tw & T).
        specialize (IH w Tw). destruct w as [w|]; inversion T; subst t.
        -- destruct IH as (cs & -> & G). exists (c :: cs). split; [reflexivity|now constructor].
        -- intros Q. inversion Q; subst. auto.
      * inversion T; subst t. intros Q. inversion Q as [|? ? (c & PC) _]; subst. rewrite <- used_code with (sn := sn) (bo := bo) in PC.
        destruct (code_tokens _ _ _ _ C PC) as (b & o & _ & Qx). inversion Qx; subst x. cbn [map_tokens] in Tu. rewrite PC in Tu. discriminate.
    + inversion T; subst t. intros Q. inversion Q as [|? ? (c & PC) _]; subst. rewrite <- used_code with (sn := sn) (bo := bo) in PC.
      destruct (code_tokens _ _ _ _ C PC) as (b & o & _ & Qx). discriminate.
Qed.

Lemma filter_all {A} (f : A -> bool) l : Forall (fun x => f x = true) l -> filter f l = l.
Proof. induction 1; cbn; auto. rewrite H. congruence. Qed.

Lemma filter_length_eq {A} (f : A -> bool) l : List.length (filter f l) = List.length l -> filter f l = l.
Proof.
  assert (G : forall l, (List.length (filter f l) <= List.length l)%nat) by (intros k; induction k; cbn; [lia|destruct (f a); cbn; lia]).
  induction l as [|a l IH]; cbn; auto. destruct (f a); cbn; intros H; [f_equal; apply IH; lia|]. specialize (G l). lia.
Qed.

Lemma once_writes orc mt bo ms d cls ms' attrs op v c vals b :
  create orc (DStructure mt bo ms) None = Ok (Some (MStructure true d cls ms' attrs op)) ->
  Forall2 (fun m a => fst a = dt_name m /\ create orc (used_type (m_name mt) bo m) None = Ok (snd a)) ms attrs ->
  proper v ->
  (fst (fold_struct_linear (map fst attrs) op v c) = Ok (VBytes b) <-> writes orc (DStructure mt bo ms) vals v b).
Proof.
  intros C OM P. pose proof (created_shape _ _ _ _ _ _ _ _ _ _ _ C) as SH. cbn [ov_name ov_bo apply_ov] in SH.
  destruct SH as (-> & -> & -> & NE & ND & AN & LA & _ & CL & OP).
  assert (AO : at_once (DStructure mt bo ms)) by now apply (ShortProofs.check_linear_once ms bo true CL).
  unfold struct_op in OP. apply bind_ok in OP. destruct OP as (t & Tk & OP).
  pose proof (struct_codes _ _ _ _ _ OM t Tk) as SC.
  unfold fold_struct_linear. cbn [fst]. rewrite folding_ok, AN, map_map.
  assert (VP : Forall proper (map (fun x => py_getattr v (dt_name x)) ms)).
  { rewrite Forall_forall. intros x Ix. apply in_map_iff in Ix. destruct Ix as (y & <- & _). now apply proper_getattr. }
  destruct t as [t|].
  - destruct SC as (cs & -> & F). destruct cs as [|c0 cs0].
    { inversion F; destruct ms; [congruence|discriminate]. }
    cbn [map] in OP. change ((1, c0) :: map (fun c => (1, c)) cs0) with (map (fun c => (1, c)) (c0 :: cs0)) in OP.
    apply bind_ok in OP. destruct OP as (o & Mo & OP). inversion OP; subst op.
    assert (OC : op_endian o = order_on (o_host orc) bo /\ op_codes o = c0 :: cs0).
    { unfold make_op in Mo. destruct (_ && _); [|discriminate]. inversion Mo; subst o. split; [reflexivity|].
      now destruct (op_ones (resolve orc bo) (c0 :: cs0)) as [_ OC]. }
    destruct OC as [O1 O2]. unfold write_to. rewrite O1, O2. split.
    + intros Q. apply bind_ok in Q. destruct Q as (y & W & Q). inversion Q; subst y.
      pose proof (pack_length _ _ _ _ W) as L. rewrite filter_length_eq in W.
      2:{ rewrite L, map_length. apply Forall2_len in F. rewrite map_length in F. auto. }
      apply WriteStructureOnce; auto. eapply pack_stores_all; eauto.
    + intros W. inversion W; subst; [contradiction| |contradiction].
      rewrite filter_all.
      2:{ match goal with S : stores_all _ _ _ _ |- _ => apply stores_all_some in S; eapply Forall_impl; [|exact S] end.
          intros a Na. destruct a; auto; congruence. }
      match goal with S : stores_all _ _ _ _ |- _ => apply (pack_stores_all _ _ (c0 :: cs0)) in S; auto; rewrite S end. reflexivity.
  - inversion OP; subst op. split; [discriminate|]. intros W. inversion W; subst; [contradiction| |contradiction].
    match goal with S : stores_all _ _ _ _ |- _ => apply stores_all_codes in S end. contradiction.
Qed.

Lemma join_snoc acc y B : py_join (acc ++ [y]) = Ok B <-> exists B1 b, py_join acc = Ok B1 /\ y = VBytes b /\ B = B1 ++ b.
Proof.
  revert B. induction acc as [|a acc IH]; intros B; cbn [app py_join].
  - destruct y; try (split; [discriminate|intros (? & ? & _ & Q & _); discriminate]). cbn [bind]. rewrite app_nil_r. split.
    + intros Q. inversion Q; subst. exists [], B. auto.
    + intros (B1 & b' & Q1 & Q2 & ->). inversion Q1; inversion Q2; subst. reflexivity.
  - destruct a; try (split; [discriminate|intros (? & ? & Q & _); discriminate]). split.
    + intros Q. apply bind_ok in Q. destruct Q as (t & T & Q). apply IH in T. destruct T as (B1 & b' & -> & -> & ->).
      inversion Q; subst. exists (b ++ B1), b'. cbn [bind]. rewrite app_assoc. auto.
    + intros (B1 & b' & Q1 & -> & ->). apply bind_ok in Q1. destruct Q1 as (t & T & Q1). inversion Q1; subst.
      assert (J : py_join (acc ++ [VBytes b']) = Ok (t ++ b')) by (apply IH; eauto). rewrite J. cbn [bind]. now rewrite app_assoc.
Qed.

Lemma create_nothing orc d : create orc d None = Ok None <->
  match d with DUnion _ _ _ | DFamily _ _ _ | DMember _ _ _ _ _ _ => True | _ => False end.
Proof.
  split.
  - intros C. destruct d; try exact I; cbn [create] in C.
    + destruct false_value, true_value; try discriminate; (apply bind_ok in C; destruct C as (o & O & C); discriminate).
    + apply bind_ok in C; destruct C as (o & O & C); discriminate.
    + apply bind_ok in C; destruct C as (o & O & C); discriminate.
    + apply bind_ok in C; destruct C as (o & O & C); discriminate.
    + discriminate.
    + discriminate.
    + repeat (apply bind_ok in C; destruct C as (? & _ & C)). destruct k.
      * destruct (sequence_is_linear _ _); [apply bind_ok in C; destruct C as (? & _ & C)|]; discriminate.
      * destruct (is_composite _); discriminate.
      * destruct (is_composite _); discriminate.
    + apply bind_ok in C; destruct C as (o & O & C); discriminate.
    + discriminate.
    + discriminate.
    + discriminate.
    + do 2 (apply bind_ok in C; destruct C as (? & _ & C)). destruct members; [discriminate|].
      apply bind_ok in C; destruct C as (? & _ & C); discriminate.
  - destruct d; try contradiction; reflexivity.
Qed.

Lemma loop_writes orc cls bo v : proper v -> forall ms attrs,
  Forall2 (fun m a => fst a = dt_name m /\ create orc (used_type cls bo m) None = Ok (snd a)) ms attrs ->
  Forall (fun m => writes_like orc (used_type cls bo m) /\ everywhere sound (used_type cls bo m)) ms ->
  forall acc sub B, c_state sub = st_empty -> same_values (c_values sub) [(type_name v, v)] ->
  ((exists l sub', fold_loop (map (fun x => (fst x, match snd x with Some y => Some (foldbs orc y) | None => None end)) attrs) v acc sub
       = FDone l sub' /\ py_join l = Ok B) <->
   exists B1 B2, py_join acc = Ok B1 /\ B = B1 ++ B2 /\ writes_members orc cls bo v ms B2).
Proof.
  intros P ms attrs F. induction F as [|m a ms attrs [N C] F IH]; intros A acc sub B Cl SV; cbn [map fold_loop].
  - split.
    + intros (l & sub' & Q & J). inversion Q; subst. exists B, []. rewrite app_nil_r. repeat split; auto. constructor.
    + intros (B1 & B2 & J & -> & W). inversion W; subst. rewrite app_nil_r. eauto.
  - inversion A as [|? ? [A1 E1] A2]; subst. specialize (IH A2). destruct a as [n x]. cbn [fst snd] in *. subst n.
    assert (SKIP : (py_getattr v (dt_name m) = VNone \/
         match used_type cls bo m with DUnion _ _ _ | DFamily _ _ _ | DMember _ _ _ _ _ _ => True | _ => False end) ->
       ((exists l sub', fold_loop (map (fun x => (fst x, match snd x with Some y => Some (foldbs orc y) | None => None end)) attrs) v acc sub
           = FDone l sub' /\ py_join l = Ok B) <->
        exists B1 B2, py_join acc = Ok B1 /\ B = B1 ++ B2 /\ writes_members orc cls bo v (m :: ms) B2)).
    { intros K. rewrite (IH acc sub B Cl SV). split; intros (B1 & B2 & J & Q & W); exists B1, B2; repeat split; auto.
      - now apply WriteAbsent.
      - inversion W; subst; auto. exfalso. destruct K as [K|K]; [contradiction|].
        destruct (used_type cls bo m); try contradiction;
          match goal with H : writes _ _ _ _ _ |- _ => inversion H; subst; contradiction end. }
    destruct x as [x|].
    2:{ apply SKIP. right. now apply create_nothing in C. }
    assert (NN : ~ match used_type cls bo m with DUnion _ _ _ | DFamily _ _ _ | DMember _ _ _ _ _ _ => True | _ => False end).
    { intros K. apply (create_nothing orc) in K. congruence. }
    assert (KV : py_getattr v (dt_name m) = VNone \/ py_getattr v (dt_name m) <> VNone).
    { destruct (py_getattr v (dt_name m)); auto; right; discriminate. }
    destruct KV as [KV|KV]; [rewrite KV; apply SKIP; auto|].
    pose proof (proper_getattr v (dt_name m) P) as PV.
    destruct (A1 E1 x C (py_getattr v (dt_name m)) (Some sub) [(type_name v, v)] PV Cl SV) as [W1 W2].
    assert (RW : match py_getattr v (dt_name m) with
       | VNone => fold_loop (map (fun x => (fst x, match snd x with Some y => Some (foldbs orc y) | None => None end)) attrs) v acc sub
       | y => match foldbs orc x y (Some sub) with
              | (OutOfFuel, _) => FFuel
              | (Raise e, c') => FExc e (opt_default sub c')
              | (Ok VNone, c') => FNone (opt_default sub c')
              | (Ok y, c') => fold_loop (map (fun x => (fst x, match snd x with Some y => Some (foldbs orc y) | None => None end)) attrs) v (acc ++ [y]) (opt_default sub c')
              end
       end = match foldbs orc x (py_getattr v (dt_name m)) (Some sub) with
              | (OutOfFuel, _) => FFuel
              | (Raise e, c') => FExc e (opt_default sub c')
              | (Ok VNone, c') => FNone (opt_default sub c')
              | (Ok y, c') => fold_loop (map (fun x => (fst x, match snd x with Some y => Some (foldbs orc y) | None => None end)) attrs) v (acc ++ [y]) (opt_default sub c')
              end) by (destruct (py_getattr v (dt_name m)); [congruence|reflexivity..]).
    rewrite RW. clear RW. destruct (foldbs orc x (py_getattr v (dt_name m)) (Some sub)) as [r c'] eqn:R. cbn [fst snd] in *.
    assert (BAD : (forall b, r <> Ok (VBytes b)) -> forall B2, ~ writes_members orc cls bo v (m :: ms) B2).
    { intros H B2 W. inversion W; subst.
      - match goal with Q : _ \/ _ |- _ => destruct Q; contradiction end.
      - match goal with Q : writes _ _ _ _ _ |- _ => apply W1 in Q; eapply H; eauto end. }
    destruct r as [y|ex|].
    + assert (KY : y = VNone \/ y <> VNone) by (destruct y; auto; right; discriminate). destruct KY as [-> |KY].
      { split; [intros (l & s' & Q & _); discriminate|]. intros (B1 & B2 & _ & _ & W). exfalso. eapply BAD; eauto. discriminate. }
      destruct (W2 y eq_refl KY) as [Cl' SV'].
      assert (Cs : c_state (opt_default sub c') = st_empty /\ same_values (c_values (opt_default sub c')) [(type_name v, v)]).
      { destruct c'; cbn in *; auto. }
      destruct Cs as [Cs Sv].
      assert (RW : match y with
              | VNone => FNone (opt_default sub c')
              | _ => fold_loop (map (fun x => (fst x, match snd x with Some y => Some (foldbs orc y) | None => None end)) attrs) v (acc ++ [y]) (opt_default sub c')
              end = fold_loop (map (fun x => (fst x, match snd x with Some y => Some (foldbs orc y) | None => None end)) attrs) v (acc ++ [y]) (opt_default sub c'))
        by (destruct y; [congruence|reflexivity..]).
      rewrite RW. clear RW. rewrite (IH (acc ++ [y]) (opt_default sub c') B Cs Sv). split.
      * intros (B1 & B2 & J & -> & W). apply join_snoc in J. destruct J as (B0 & b & J & -> & ->). exists B0, (b ++ B2).
        rewrite app_assoc. repeat split; auto. apply WritePresent; auto. now apply W1.
      * intros (B1 & B2 & J & -> & W). inversion W; subst.
        -- match goal with Q : _ \/ _ |- _ => destruct Q; contradiction end.
        -- exists (B1 ++ b), bs. rewrite app_assoc. repeat split; auto. apply join_snoc. exists B1, b. repeat split; auto.
           match goal with Q : writes _ _ _ _ _ |- _ => apply W1 in Q; congruence end.
    + split; [intros (l & s' & Q & _); discriminate|]. intros (B1 & B2 & _ & _ & W). exfalso. eapply BAD; eauto. discriminate.
    + split; [intros (l & s' & Q & _); discriminate|]. intros (B1 & B2 & _ & _ & W). exfalso. eapply BAD; eauto. discriminate.
Qed.

Lemma structure_all orc mt bo ms :
  Forall (fun m => writes_like orc (used_type (m_name mt) bo m)) ms -> writes_like orc (DStructure mt bo ms).
Proof.
  intros A E m C v c vals P Cl SV. pose proof (everywhere_here _ _ E) as [_ WN]. pose proof (proj2 E) as Em. apply go_forall in Em.
  pose proof (well_named_distinct _ _ _ WN (m_name mt) bo) as DT.
  assert (SH : exists lin d cls ms' attrs op, m = MStructure lin d cls ms' attrs op).
  { cbn [create] in C. apply bind_ok in C. destruct C as (s & S & C). inversion C; subst s. unfold create_structure in S.
    repeat (apply bind_ok in S; destruct S as (? & _ & S)). destruct x1; [apply bind_ok in S; destruct S as (? & _ & S)|];
      inversion S; do 6 eexists; reflexivity. }
  destruct SH as (lin & d & cls & ms' & attrs & op & ->).
  pose proof (structure_own_maps _ _ _ _ _ _ _ _ _ _ C DT) as OM.
  destruct lin.
  - cbn [foldbs]. split; [|intros; cbn [fold_struct_linear snd]; auto]. intros b. eapply once_writes; eauto.
  - pose proof (created_shape _ _ _ _ _ _ _ _ _ _ _ C) as SH. cbn [ov_name ov_bo apply_ov] in SH.
    destruct SH as (-> & -> & -> & NE & ND & AN & LA & _ & CL & OP).
    assert (NA : ~ at_once (DStructure mt bo ms)).
    { intros S. apply (ShortProofs.check_linear_once ms bo false CL) in S. discriminate. }
    assert (A' : Forall (fun m => writes_like orc (used_type (m_name mt) bo m) /\ everywhere sound (used_type (m_name mt) bo m)) ms).
    { rewrite Forall_forall in *. intros x Hx. split; auto. apply sound_used. auto. }
    cbn [foldbs]. unfold fold_struct. rewrite (clean_state c Cl). cbn [s_attribute_index s_context st_empty opt_default Z.to_nat skipn].
    pose proof (fun B => loop_writes orc (m_name mt) bo v P ms attrs OM A' [] (ctx_new [(type_name v, v)]) B eq_refl (same_values_refl _)) as L.
    destruct (fold_loop _ v [] _) as [l s'|s'|ex s'|] eqn:FL; cbn [fst snd].
    + split.
      * intros b. specialize (L b). split.
        -- intros Q. apply bind_ok in Q. destruct Q as (b' & J & Q). inversion Q; subst b'.
           assert (W : exists B1 B2, py_join [] = Ok B1 /\ b = B1 ++ B2 /\ writes_members orc (m_name mt) bo v ms B2) by (apply L; eauto).
           destruct W as (B1 & B2 & J1 & -> & W). inversion J1; subst B1. now apply WriteStructure.
        -- intros W. inversion W; subst; [contradiction|contradiction|].
           assert (K : exists l0 sub', FDone l s' = FDone l0 sub' /\ py_join l0 = Ok b) by (apply L; exists [], b; auto).
           destruct K as (l0 & s0 & Q & J). inversion Q; subst. now rewrite J.
      * intros x Q _. destruct c as [c|]; cbn in *; auto.
    + split; [|intros x Q N; exfalso; apply N; congruence]. intros b. split; [discriminate|]. intros W. inversion W; subst; [contradiction|contradiction|].
      assert (K : exists l0 sub', FNone s' = FDone l0 sub' /\ py_join l0 = Ok b) by (apply L; exists [], b; auto).
      destruct K as (l0 & s0 & Q & J). discriminate.
    + split; [|intros x Q; discriminate]. intros b. split; [discriminate|]. intros W. inversion W; subst; [contradiction|contradiction|].
      assert (K : exists l0 sub', FExc ex s' = FDone l0 sub' /\ py_join l0 = Ok b) by (apply L; exists [], b; auto).
      destruct K as (l0 & s0 & Q & J). discriminate.
    + split; [|intros x Q; discriminate]. intros b. split; [discriminate|]. intros W. inversion W; subst; [contradiction|contradiction|].
      assert (K : exists l0 sub', FFuel = FDone l0 sub' /\ py_join l0 = Ok b) by (apply L; exists [], b; auto).
      destruct K as (l0 & s0 & Q & J). discriminate.
Qed.

(** ** All definitions *)

Lemma all_writes orc : extensional orc -> forall d, writes_like orc d.
Proof.
  intros X.
  assert (NW : forall d m, create orc d None = Ok (Some m) ->
    match d with DConstant _ _ | DEnumeration _ _ | DFormat _ _ _ | DGroup _ _ _ _ _ _ => True | _ => False end -> writes_like orc d).
  { intros d m C K E m' C' v c vals P Cl SV. assert (m' = m) by congruence. subst m'.
    assert (R : foldbs orc m v c = (Raise FoldingError, c)).
    { destruct d; try contradiction; cbn [create] in C.
      - inversion C; reflexivity.
      - inversion C; reflexivity.
      - inversion C; reflexivity.
      - do 2 (apply bind_ok in C; destruct C as (? & _ & C)). destruct members; [discriminate|].
        apply bind_ok in C; destruct C as (? & _ & C). inversion C; reflexivity. }
    rewrite R. cbn [fst snd]. split; [|intros x Q; discriminate]. intros b. split; [discriminate|]. intros W.
    destruct d; try contradiction; inversion W; subst; contradiction. }
  assert (STEP : forall d,
    match d with
    | DStructure _ _ ms => Forall (fun m => writes_like orc (type_of m) /\
        (dt_byte_order (type_of m) = Some BONative -> forall n b, writes_like orc (set_name_bo n b (type_of m)))) ms
    | _ => True
    end -> writes_like orc d).
  { intros d H. destruct d; try (intros E m' C; cbn [create] in C; discriminate).
    - now apply prim_all.
    - now apply prim_all.
    - now apply prim_all.
    - now apply prim_all.
    - apply uuid_all.
    - apply padding_all.
    - destruct k; [apply sequence_all|now apply stream_all|now apply string_all].
    - apply structure_all. eapply Forall_impl; [|exact H]. cbn. intros a [A1 A2].
      unfold used_type. destruct bo; auto; destruct (dt_byte_order (type_of a)) as [[]|] eqn:B; auto.
    - intros E m' C. eapply NW; eauto; exact I.
    - intros E m' C. eapply NW; eauto; exact I.
    - intros E m' C. eapply NW; eauto; exact I.
    - intros E m' C. eapply NW; eauto; exact I. }
  intros d.
  assert (G : writes_like orc d /\ forall n b, writes_like orc (set_name_bo n b d)); [|tauto].
  induction d using dtype_ind_type. split.
  - apply STEP. destruct d; auto. eapply Forall_impl; [|exact H]. cbn. tauto.
  - intros n b. apply STEP. destruct d; cbn [set_name_bo]; auto. eapply Forall_impl; [|exact H]. cbn. tauto.
Qed.

(** C67 *)
Lemma folding_writes orc d m v c b :
  extensional orc -> everywhere sound d -> create orc d None = Ok (Some m) -> proper v -> clean c ->
  (fst (foldbs orc m v c) = Ok (VBytes b) <-> writes orc d (ctx_values c) v b).
Proof.
  intros X E C P Cl. apply (all_writes orc X d E m C v c (ctx_values c) P Cl (same_values_refl _)).
Qed.

(** Nothing but these bytes. *)
Lemma writing_unique orc d m vals v b1 b2 :
  extensional orc -> everywhere sound d -> create orc d None = Ok (Some m) -> proper v ->
  writes orc d vals v b1 -> writes orc d vals v b2 -> b1 = b2.
Proof.
  intros X E C P W1 W2. apply (folding_writes orc d m v (Some (ctx_new vals))) in W1, W2; auto; try exact eq_refl. congruence.
Qed.

(** ** Errors *)

Lemma pack_fuel en cs : forall vs, pack_codes en cs vs <> OutOfFuel.
Proof.
  induction cs as [|c cs IH]; intros [|v vs]; cbn [pack_codes]; try discriminate.
  pose proof (pack1_fuel en c v). destruct (pack1 en c v); cbn; try congruence. specialize (IH vs).
  destruct (pack_codes en cs vs); cbn; congruence.
Qed.

Lemma blobs_list v ms :
  (fix go (l : list dtype) : Prop :=
     match l with
     | [] => True
     | m :: r => (py_getattr v (dt_name m) = VNone \/ blobs m (py_getattr v (dt_name m))) /\ go r
     end) ms <-> Forall (fun m => py_getattr v (dt_name m) = VNone \/ blobs m (py_getattr v (dt_name m))) ms.
Proof.
  induction ms as [|m ms IH]; split; intros H; auto.
  - constructor; [tauto|]. apply IH. tauto.
  - inversion H; subst. split; auto. now apply IH.
Qed.

Lemma blobs_used sn bo m v : blobs m v -> blobs (used_type sn bo m) v.
Proof.
  intros B. assert (B' : blobs (type_of m) v) by (destruct m; exact B).
  unfold used_type. destruct bo; auto; destruct (dt_byte_order _) as [[]|]; auto; destruct (type_of m); exact B'.
Qed.

Definition outcome (d : dtype) (r : res pyval) : Prop :=
  match r with
  | Ok x => (exists b, x = VBytes b) \/ (x = VNone /\ ~ everywhere writable d)
  | Raise e => e = FoldingError \/ (e = MappingError /\ ~ everywhere fixed_sizes d)
  | OutOfFuel => False
  end.

Definition ends_well (orc : oracle) (d : dtype) : Prop :=
  everywhere sound d -> forall m, create orc d None = Ok (Some m) ->
  forall v c, proper v -> clean c -> blobs d v -> outcome d (fst (foldbs orc m v c)).

Lemma outcome_bytes d (r : res bytes) : r <> OutOfFuel -> outcome d (folding (let* b := r in Ok (VBytes b))).
Proof. destruct r; cbn; intros; eauto. Qed.

Lemma prim_ends orc d : is_prim d = true -> ends_well orc d.
Proof.
  intros IP _ m C v c P Cl _.
  assert (K : exists op, m = MPrim d op).
  { destruct d; try discriminate; cbn [create] in C.
    - destruct false_value, true_value; try discriminate; (apply bind_ok in C; destruct C as (o & O & C); inversion C; eexists; cbn; eauto).
    - apply bind_ok in C; destruct C as (o & O & C); inversion C; eexists; cbn; eauto.
    - apply bind_ok in C; destruct C as (o & O & C); inversion C; eexists; cbn; eauto.
    - apply bind_ok in C; destruct C as (o & O & C); inversion C; eexists; cbn; eauto. }
  destruct K as (op & ->). cbn [foldbs fold_prim fst].
  assert (NF : fold_value d v <> OutOfFuel).
  { destruct d; cbn; try discriminate;
      repeat match goal with |- context [match ?y with _ => _ end] => destruct y; try discriminate end. }
  destruct (fold_value d v); cbn [bind]; [|cbn; auto|congruence]. destruct op; [|cbn; auto]. apply outcome_bytes. apply pack_fuel.
Qed.

Lemma calc_fixed orc e ed vals : literal e -> sound (DElems KStream e ed) ->
  forall x, fst (calc_data_size orc e ed (Some (ctx_new vals))) <> Raise x.
Proof.
  intros [L1 L2] [(_ & S1 & S2 & _) _] x. unfold calc_data_size.
  cbn [ctx_state ctx_new c_state st_empty s_elements_data_size truthy_Z s_number_of_elements].
  unfold has_data_size, has_number. rewrite L1, L2.
  destruct (e_data_size e) as [s|] eqn:D; cbn [orb is_some].
  - cbn [fst]. unfold eval_data_size. rewrite D. specialize (S1 s eq_refl).
    assert (T : truthy_Z (Some s) = Some s) by (apply truthy_Z_some; split; auto; lia). rewrite T. unfold check_size.
    destruct (Z.ltb_spec s 0); [lia|]. discriminate.
  - destruct (e_number e) as [n|] eqn:N; cbn [orb]; [|discriminate].
    destruct (get_byte_size ed); [|discriminate]. unfold eval_number. rewrite N. specialize (S2 n eq_refl).
    assert (T : truthy_Z (Some n) = Some n) by (apply truthy_Z_some; split; auto; lia). rewrite T. unfold check_size.
    destruct (Z.ltb_spec n 0); [lia|]. discriminate.
Qed.

Lemma stream_outcome orc e el v c k : extensional orc -> sound (DElems KStream e el) -> everywhere sound el -> clean c ->
  (exists b, v = VBytes b) -> (k = KStream \/ k = KString) ->
  outcome (DElems k e el) (fst (fold_stream orc e (element_type e el) v c)).
Proof.
  intros X So Se Cl (b & ->) Hk. pose proof So as [(_ & _ & _ & T) _].
  destruct (fold_values orc e (element_type e el) (VBytes b) c (ctx_values c) X Cl (same_values_refl _)) as (A & _). rewrite A. clear A.
  unfold fold_stream. destruct (calc_spec orc e (element_type e el) (ctx_values c)) as (_ & _ & EM & NF).
  assert (CF : literal e -> forall x, fst (calc_data_size orc e (element_type e el) (Some (ctx_new (ctx_values c)))) <> Raise x).
  { intros L. apply calc_fixed; auto. destruct So as [(S0 & S1 & S2 & S3) S4]. repeat split; auto.
    intros t Ht. rewrite SeqKindProofs.element_type_size. auto. }
  destruct (calc_data_size orc e (element_type e el) (Some (ctx_new (ctx_values c)))) as [[[n|]|x|] c1]; cbn [fst] in *.
  - rewrite py_len_bytes. cbn [bind]. destruct (n =? len b); cbn; eauto.
  - destruct (e_terminator e) as [t|] eqn:Et; [|cbn; auto]. destruct (T t eq_refl) as (tb & -> & _). rewrite py_len_bytes. cbn [bind].
    destruct (bytes_is _ _); cbn; eauto.
  - cbn. right. split; [now apply EM|]. intros [L _]. apply (CF ltac:(destruct Hk; subst k; exact L) x). reflexivity.
  - congruence.
Qed.

Lemma writable_used sn bo m : everywhere writable m -> everywhere writable (used_type sn bo m).
Proof.
  intros E. apply everywhere_type in E. unfold used_type. destruct bo; auto; destruct (dt_byte_order _) as [[]|]; auto;
    destruct (type_of m); cbn [set_name_bo everywhere] in *; auto; (split; [|tauto]); try exact (proj1 E); cbn; discriminate.
Qed.

Lemma fixed_used sn bo m : everywhere fixed_sizes m -> everywhere fixed_sizes (used_type sn bo m).
Proof.
  intros E. apply everywhere_type in E. unfold used_type. destruct bo; auto; destruct (dt_byte_order _) as [[]|]; auto;
    destruct (type_of m); cbn [set_name_bo everywhere] in *; auto.
Qed.

Lemma loop_ends orc cls bo v : proper v -> forall ms attrs,
  Forall2 (fun m a => fst a = dt_name m /\ create orc (used_type cls bo m) None = Ok (snd a)) ms attrs ->
  Forall (fun m => writes_like orc (used_type cls bo m) /\ ends_well orc (used_type cls bo m) /\ everywhere sound (used_type cls bo m)) ms ->
  Forall (fun m => py_getattr v (dt_name m) = VNone \/ blobs m (py_getattr v (dt_name m))) ms ->
  forall acc sub, c_state sub = st_empty -> same_values (c_values sub) [(type_name v, v)] -> Forall (fun y => exists b, y = VBytes b) acc ->
  match fold_loop (map (fun x => (fst x, match snd x with Some y => Some (foldbs orc y) | None => None end)) attrs) v acc sub with
  | FDone l _ => Forall (fun y => exists b, y = VBytes b) l
  | FNone _ => ~ Forall (everywhere writable) ms
  | FExc e _ => e = FoldingError \/ (e = MappingError /\ ~ Forall (everywhere fixed_sizes) ms)
  | FFuel => False
  end.
Proof.
  intros P ms attrs F. induction F as [|m a ms attrs [N C] F IH]; intros A B acc sub Cl SV AC; cbn [map fold_loop]; [exact AC|].
  inversion A as [|? ? (A1 & A2 & A3) A4]; subst. inversion B as [|? ? B1 B2]; subst. specialize (IH A4 B2).
  destruct a as [n x]. cbn [fst snd] in *. subst n.
  set (rest := map (fun x => (fst x, match snd x with Some y => Some (foldbs orc y) | None => None end)) attrs) in *.
  assert (NEXT : forall acc sub, c_state sub = st_empty -> same_values (c_values sub) [(type_name v, v)] ->
     Forall (fun y => exists b, y = VBytes b) acc ->
     match fold_loop rest v acc sub with
     | FDone l _ => Forall (fun y => exists b, y = VBytes b) l
     | FNone _ => ~ Forall (everywhere writable) (m :: ms)
     | FExc e _ => e = FoldingError \/ (e = MappingError /\ ~ Forall (everywhere fixed_sizes) (m :: ms))
     | FFuel => False
     end).
  { intros acc1 sub1 H1 H2 H3. specialize (IH acc1 sub1 H1 H2 H3). destruct (fold_loop rest v acc1 sub1); auto.
    - intros Q. inversion Q; subst. auto.
    - destruct IH as [IH|[IH1 IH2]]; auto. right. split; auto. intros Q. inversion Q; subst. auto. }
  destruct x as [x|]; [|now apply NEXT].
  assert (KV : py_getattr v (dt_name m) = VNone \/ py_getattr v (dt_name m) <> VNone).
  { destruct (py_getattr v (dt_name m)); auto; right; discriminate. }
  destruct KV as [KV|KV]; [rewrite KV; now apply NEXT|].
  pose proof (proper_getattr v (dt_name m) P) as PV. destruct B1 as [B1|B1]; [contradiction|].
  destruct (A1 A3 x C (py_getattr v (dt_name m)) (Some sub) [(type_name v, v)] PV Cl SV) as [_ W2].
  pose proof (A2 A3 x C (py_getattr v (dt_name m)) (Some sub) PV Cl (blobs_used cls bo m _ B1)) as W3.
  assert (RW : match py_getattr v (dt_name m) with
     | VNone => fold_loop rest v acc sub
     | y => match foldbs orc x y (Some sub) with
            | (OutOfFuel, _) => FFuel
            | (Raise e, c') => FExc e (opt_default sub c')
            | (Ok VNone, c') => FNone (opt_default sub c')
            | (Ok y, c') => fold_loop rest v (acc ++ [y]) (opt_default sub c')
            end
     end = match foldbs orc x (py_getattr v (dt_name m)) (Some sub) with
            | (OutOfFuel, _) => FFuel
            | (Raise e, c') => FExc e (opt_default sub c')
            | (Ok VNone, c') => FNone (opt_default sub c')
            | (Ok y, c') => fold_loop rest v (acc ++ [y]) (opt_default sub c')
            end) by (destruct (py_getattr v (dt_name m)); [congruence|reflexivity..]).
  rewrite RW. clear RW. destruct (foldbs orc x (py_getattr v (dt_name m)) (Some sub)) as [r c']. cbn [fst snd] in *.
  destruct r as [y|e|]; cbn [outcome] in W3; [| |contradiction].
  - destruct W3 as [(b & ->)|[-> NW]].
    + destruct (W2 (VBytes b) eq_refl ltac:(discriminate)) as [Cl' SV'].
      apply NEXT; [destruct c'; cbn in *; auto|destruct c'; cbn in *; auto|]. apply Forall_app. split; auto. constructor; eauto.
    + intros Q. inversion Q; subst. apply NW. now apply writable_used.
  - destruct W3 as [W3|[W3 W4]]; auto. right. split; auto. intros Q. inversion Q; subst. apply W4. now apply fixed_used.
Qed.

Lemma join_blobs l : Forall (fun y => exists b, y = VBytes b) l -> exists B, py_join l = Ok B.
Proof. induction 1 as [|y l (b & ->) F (B & IH)]; cbn; [eauto|]. rewrite IH. cbn. eauto. Qed.

Lemma structure_ends orc mt bo ms : extensional orc ->
  Forall (fun m => ends_well orc (used_type (m_name mt) bo m)) ms -> ends_well orc (DStructure mt bo ms).
Proof.
  intros X A E m C v c P Cl BL. pose proof (everywhere_here _ _ E) as [_ WN]. pose proof (proj2 E) as Em. apply go_forall in Em.
  pose proof (well_named_distinct _ _ _ WN (m_name mt) bo) as DT.
  assert (SH : exists lin d cls ms' attrs op, m = MStructure lin d cls ms' attrs op).
  { cbn [create] in C. apply bind_ok in C. destruct C as (s & S & C). inversion C; subst s. unfold create_structure in S.
    repeat (apply bind_ok in S; destruct S as (? & _ & S)). destruct x1; [apply bind_ok in S; destruct S as (? & _ & S)|];
      inversion S; do 6 eexists; reflexivity. }
  destruct SH as (lin & d & cls & ms' & attrs & op & ->).
  pose proof (structure_own_maps _ _ _ _ _ _ _ _ _ _ C DT) as OM.
  destruct lin.
  - cbn [foldbs]. unfold fold_struct_linear. cbn [fst]. destruct op; [|cbn; auto]. apply outcome_bytes. apply pack_fuel.
  - assert (A' : Forall (fun m => writes_like orc (used_type (m_name mt) bo m) /\ ends_well orc (used_type (m_name mt) bo m) /\
        everywhere sound (used_type (m_name mt) bo m)) ms).
    { rewrite Forall_forall in *. intros x Hx. split; [now apply all_writes|]. split; auto. apply sound_used. auto. }
    cbn [blobs] in BL. apply blobs_list in BL.
    cbn [foldbs]. unfold fold_struct. rewrite (clean_state c Cl). cbn [s_attribute_index s_context st_empty opt_default Z.to_nat skipn].
    pose proof (loop_ends orc (m_name mt) bo v P ms attrs OM A' BL [] (ctx_new [(type_name v, v)]) eq_refl (same_values_refl _) ltac:(constructor)) as L.
    destruct (fold_loop _ v [] _) as [l s'|s'|ex s'|]; cbn [fst snd].
    + destruct (join_blobs l L) as (B & ->). cbn. eauto.
    + cbn [outcome]. right. split; auto. intros [_ Q]. apply go_forall in Q. auto.
    + cbn [outcome]. destruct L as [L|[L1 L2]]; auto. right. split; auto. intros [_ Q]. apply go_forall in Q. auto.
    + exact L.
Qed.

Lemma all_end orc : extensional orc -> forall d, ends_well orc d.
Proof.
  intros X.
  assert (STEP : forall d,
    match d with
    | DStructure _ _ ms => Forall (fun m => ends_well orc (type_of m) /\
        (dt_byte_order (type_of m) = Some BONative -> forall n b, ends_well orc (set_name_bo n b (type_of m)))) ms
    | _ => True
    end -> ends_well orc d).
  { intros d H. destruct d; try (intros E m' C; cbn [create] in C; discriminate);
      try (intros E m' C v c P Cl B; cbn [create] in C; inversion C; subst m'; cbn; now auto).
    - now apply prim_ends.
    - now apply prim_ends.
    - now apply prim_ends.
    - now apply prim_ends.
    - intros E m' C v c P Cl B. cbn [create] in C. inversion C; subst m'. cbn [foldbs fold_uuid apply_ov fst dt_byte_order].
      destruct (f_bo f) eqn:Bo; [|destruct v; cbn; eauto..]. cbn. right. split; auto. intros [Q _]. congruence.
    - intros E m' C v c P Cl B. pose proof (everywhere_here _ _ E) as So. pose proof (proj2 E) as Se.
      apply SeqKindProofs.created_elems in C. destruct C as (em & Ce & C). destruct k.
      + destruct (sequence_is_linear e (element_type e d)) eqn:LI.
        * destruct C as (op & Op & ->). cbn [foldbs]. unfold fold_seq_linear. cbn [fst]. destruct op; [|cbn; auto].
          destruct v; cbn [py_iter bind folding]; try (left; reflexivity); apply outcome_bytes; apply pack_fuel.
        * subst m'. cbn. right. split; auto. intros [Q _]. apply ShortProofs.at_once_linear in Q. congruence.
      + subst m'. cbn [foldbs]. apply stream_outcome; auto.
      + subst m'. cbn [foldbs]. unfold fold_string. destruct v; try (left; reflexivity).
        destruct (o_encode orc (e_encoding e) s); [|left; reflexivity]. apply stream_outcome; eauto.
    - apply structure_ends; auto. eapply Forall_impl; [|exact H]. cbn. intros a [A1 A2].
      unfold used_type. destruct bo; auto; destruct (dt_byte_order (type_of a)) as [[]|] eqn:B; auto.
    - intros E m' C v c P Cl B. cbn [create] in C.
      do 2 (apply bind_ok in C; destruct C as (? & _ & C)). destruct members; [discriminate|].
      apply bind_ok in C; destruct C as (? & _ & C). inversion C; subst m'. left. reflexivity. }
  intros d.
  assert (G : ends_well orc d /\ forall n b, ends_well orc (set_name_bo n b d)); [|tauto].
  induction d using dtype_ind_type. split.
  - apply STEP. destruct d; auto. eapply Forall_impl; [|exact H]. cbn. tauto.
  - intros n b. apply STEP. destruct d; cbn [set_name_bo]; auto. eapply Forall_impl; [|exact H]. cbn. tauto.
Qed.

(** C68 *)
Lemma folding_errors orc d m v c e :
  extensional orc -> everywhere sound d -> create orc d None = Ok (Some m) -> proper v -> clean c -> blobs d v ->
  fst (foldbs orc m v c) = Raise e -> e = FoldingError \/ (e = MappingError /\ ~ everywhere fixed_sizes d).
Proof.
  intros X E C P Cl B F. pose proof (all_end orc X d E m C v c P Cl B) as O. rewrite F in O. exact O.
Qed.

Lemma folding_otherwise orc d m v c :
  extensional orc -> everywhere sound d -> create orc d None = Ok (Some m) -> proper v -> clean c -> blobs d v ->
  everywhere writable d -> everywhere fixed_sizes d ->
  (exists b, writes orc d (ctx_values c) v b /\ fst (foldbs orc m v c) = Ok (VBytes b)) \/
  ((forall b, ~ writes orc d (ctx_values c) v b) /\ fst (foldbs orc m v c) = Raise FoldingError).
Proof.
  intros X E C P Cl B W Fx. pose proof (all_end orc X d E m C v c P Cl B) as O.
  pose proof (fun b => folding_writes orc d m v c b X E C P Cl) as FW.
  destruct (fst (foldbs orc m v c)) as [x|e|]; cbn [outcome] in O.
  - destruct O as [(b & ->)|[_ N]]; [|contradiction]. left. exists b. split; auto. now apply FW.
  - destruct O as [-> |[_ N]]; [|contradiction]. right. split; auto. intros b Q. apply FW in Q. discriminate.
  - contradiction.
Qed.
