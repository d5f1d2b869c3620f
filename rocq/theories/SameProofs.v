(** The two representations of definitions. *)
From Coq Require Import String Ascii List ZArith Bool Lia.
From Verif Require Import Base PyVal PyStruct DataTypes ClassFactory DataMaps SpecPrim SpecMap SpecCreate
  Yaml Reader SpecReader SpecDescribe Fabric Codec SpecFabric BytesProofs ReaderProofs FabricProofs.
Import ListNotations.
Open Scope Z_scope.

Lemma us_cons c s : us (String c s) = Z.of_nat (nat_of_ascii c) :: us s.
Proof. unfold us. cbn [list_ascii_of_string map]. unfold nat_of_ascii. rewrite N_nat_Z. reflexivity. Qed.

Lemma ascii_text_iff v s : ascii_text v = Some s <->
  v = us s /\ Forall (fun c => (nat_of_ascii c < 128)%nat) (list_ascii_of_string s).
Proof.
  revert s. induction v as [|z v IH]; intros s; cbn [ascii_text].
  - split; [intros [= <-]; cbn; auto|]. destruct s; cbn; [auto|intros [? _]; discriminate].
  - unfold ascii_char. split.
    + intros H. destruct ((0 <=? z) && (z <? 128)) eqn:Z; [|discriminate].
      destruct (ascii_text v) as [t|] eqn:E; [|discriminate]. injection H as <-.
      destruct (proj1 (IH t) eq_refl) as [-> F]. rewrite us_cons. cbn [list_ascii_of_string].
      rewrite nat_ascii_embedding by lia. split; [f_equal; lia|]. constructor; auto. rewrite nat_ascii_embedding by lia. lia.
    + intros [E F]. destruct s as [|c s]; [discriminate|]. rewrite us_cons in E. cbn [list_ascii_of_string] in F. injection E as -> ->.
      inversion F; subst. destruct (_ && _) eqn:Z; [|lia].
      rewrite (proj2 (IH s)) by auto. rewrite Nat2Z.id, ascii_nat_embedding. reflexivity.
Qed.

Lemma t_text_iff v s : t_text v = Some s <-> text v s.
Proof.
  unfold text, Y. destruct v; cbn [t_text]; try (split; [discriminate|intros [? _]; discriminate]).
  rewrite ascii_text_iff. split; intros [E F]; split; auto; congruence.
Qed.

Lemma t_opt_text_iff v o : t_opt_text v = Some o <-> opt_text v o.
Proof.
  unfold opt_text. destruct o as [s|].
  - rewrite <- t_text_iff. unfold t_opt_text. destruct v; cbn; try (split; discriminate). 
    destruct (ascii_text s0); cbn; split; congruence.
  - unfold t_opt_text. destruct v; cbn; try (split; discriminate); [tauto|]. destruct (ascii_text s); cbn; split; congruence.
Qed.

Lemma small_byte z : 0 <= z < 256 -> byteZ (Zbyte z) = z.
Proof. intros H. rewrite byteZ_Zbyte. apply Z.mod_small. exact H. Qed.

Lemma utf8_iff c l : utf8 c l <-> exists b, utf8_enc1 c = Some b /\ map byteZ b = l.
Proof.
  assert (M : forall k, k mod 64 < 64 /\ 0 <= k mod 64) by (intros k; pose proof (Z.mod_pos_bound k 64); lia).
  split.
  - intros H. unfold utf8_enc1, is_surrogate. inversion H; subst; pose proof (M c); pose proof (M (c / 64)); pose proof (M (c / 4096)).
    + replace (c <? 0) with false by lia. replace (c <? 128) with true by lia. eexists. split; [reflexivity|].
      cbn [map]. rewrite small_byte by lia. reflexivity.
    + replace (c <? 0) with false by lia. replace (c <? 128) with false by lia. replace (c <? 2048) with true by lia.
      eexists. split; [reflexivity|]. assert (c / 64 < 32) by (apply Z.div_lt_upper_bound; lia). assert (0 <= c / 64) by (apply Z.div_pos; lia).
      cbn [map]. rewrite !small_byte by lia. reflexivity.
    + replace (c <? 0) with false by lia. replace (c <? 128) with false by lia. replace (c <? 2048) with false by lia. replace (c <? 65536) with true by lia.
      replace ((55296 <=? c) && (c <=? 57343)) with false by lia. eexists. split; [reflexivity|].
      assert (c / 4096 < 16) by (apply Z.div_lt_upper_bound; lia). assert (0 <= c / 4096) by (apply Z.div_pos; lia).
      cbn [map]. rewrite !small_byte by lia. reflexivity.
    + replace (c <? 0) with false by lia. replace (c <? 128) with false by lia. replace (c <? 2048) with false by lia. replace (c <? 65536) with false by lia.
      replace (c <? 1114112) with true by lia. eexists. split; [reflexivity|].
      assert (c / 262144 < 5) by (apply Z.div_lt_upper_bound; lia). assert (0 <= c / 262144) by (apply Z.div_pos; lia).
      cbn [map]. rewrite !small_byte by lia. reflexivity.
  - intros (b & E & <-). unfold utf8_enc1, is_surrogate in E.
    destruct (c <? 0) eqn:C0; [discriminate|]. destruct (c <? 128) eqn:C1.
    { injection E as <-. cbn [map]. rewrite small_byte by lia. constructor. lia. }
    destruct (c <? 2048) eqn:C2.
    { injection E as <-. assert (c / 64 < 32) by (apply Z.div_lt_upper_bound; lia). assert (0 <= c / 64) by (apply Z.div_pos; lia).
      pose proof (M c). cbn [map]. rewrite !small_byte by lia. constructor. lia. }
    destruct (c <? 65536) eqn:C3.
    { destruct (_ && _) eqn:S; [discriminate|]. injection E as <-. assert (c / 4096 < 16) by (apply Z.div_lt_upper_bound; lia). assert (0 <= c / 4096) by (apply Z.div_pos; lia).
      pose proof (M c). pose proof (M (c / 64)). cbn [map]. rewrite !small_byte by lia. constructor; lia. }
    destruct (c <? 1114112) eqn:C4; [|discriminate]. injection E as <-.
    assert (c / 262144 < 5) by (apply Z.div_lt_upper_bound; lia). assert (0 <= c / 262144) by (apply Z.div_pos; lia).
    pose proof (M c). pose proof (M (c / 64)). pose proof (M (c / 4096)). cbn [map]. rewrite !small_byte by lia. constructor; lia.
Qed.

Lemma utf8_text cs l : (exists bs, Forall2 utf8 cs bs /\ concat bs = l) <-> exists b, utf8_encode cs = Some b /\ map byteZ b = l.
Proof.
  revert l. induction cs as [|c cs IH]; intros l; cbn [utf8_encode].
  - split.
    + intros (bs & F & <-). inversion F; subst. exists []. split; reflexivity.
    + intros (b & [= <-] & <-). exists []. split; [constructor|reflexivity].
  - split.
    + intros (bs & F & <-). inversion F as [|? x ? r U F']; subst. apply utf8_iff in U. destruct U as (b1 & -> & <-).
      destruct (proj1 (IH (concat r))) as (b2 & -> & E); [eauto|]. exists (b1 ++ b2). split; [reflexivity|]. rewrite map_app, E. reflexivity.
    + intros (b & E & <-). destruct (utf8_enc1 c) as [b1|] eqn:E1; [|discriminate]. destruct (utf8_encode cs) as [b2|] eqn:E2; [|discriminate].
      injection E as <-. destruct (proj2 (IH (map byteZ b2))) as (bs & F & C); [eauto|]. exists (map byteZ b1 :: bs). split.
      * constructor; [|exact F]. apply utf8_iff. eauto.
      * cbn [concat]. now rewrite C, map_app.
Qed.

Lemma byteZ_map_inj a b : map byteZ a = map byteZ b -> a = b.
Proof.
  revert b. induction a as [|x a IH]; intros [|y b] E; try discriminate E; auto. injection E as E1 E2. f_equal; auto.
  rewrite <- (Zbyte_byteZ x), E1. apply Zbyte_byteZ.
Qed.

Lemma t_description_iff v o : t_description v = Some o <-> opt_unicode_text v o.
Proof.
  destruct o as [s|]; cbn [opt_unicode_text].
  - unfold unicode_text. destruct v; cbn [t_description]; try (split; [discriminate|intros (? & ? & ? & _); discriminate]). split.
    + intros H. destruct (utf8_encode s0) as [b|] eqn:E; [|discriminate]. cbn in H. injection H as <-.
      destruct (proj2 (utf8_text s0 (map byteZ b))) as (bs & F & C); [eauto|]. exists s0, bs. split; auto. split; auto.
      now rewrite list_byte_of_string_of_list_byte, C.
    + intros (cs & bs & [= <-] & F & C). destruct (proj1 (utf8_text s0 (concat bs))) as (b & E & M); [eauto|]. rewrite E. cbn.
      rewrite <- C in M. apply byteZ_map_inj in M. subst b. now rewrite string_of_list_byte_of_string.
  - destruct v; cbn [t_description]; try (split; discriminate); [tauto|]. destruct (utf8_encode s); cbn; split; discriminate.
Qed.

Lemma every_iff {A B} (f : A -> option B) (R : A -> B -> Prop) l l' : (forall a b, In a l -> (f a = Some b <-> R a b)) ->
  (every f l = Some l' <-> Forall2 R l l').
Proof.
  revert l'. induction l as [|x l IH]; intros l' H; cbn [every].
  - split; [intros [= <-]; constructor|intros F; inversion F; reflexivity].
  - split.
    + intros E. destruct (f x) eqn:F; [|discriminate]. destruct (every f l) eqn:G; [|discriminate]. injection E as <-.
      constructor; [apply H; cbn; auto|]. apply IH; auto. intros; apply H; now right.
    + intros F. inversion F as [|? y ? ys R1 R2]; subst. apply H in R1; [|now left]. rewrite R1.
      rewrite (proj2 (IH ys ltac:(intros; apply H; now right)) R2). reflexivity.
Qed.

Lemma t_texts_iff v l : t_texts v = Some l <-> texts v l.
Proof.
  unfold texts. destruct v; cbn [t_texts]; try (split; [discriminate|intros (? & ? & _); discriminate]).
  rewrite (every_iff _ text) by (intros; apply t_text_iff). split; [eauto|]. intros (vs & [= <-] & F). exact F.
Qed.

Lemma t_name_iff v s : t_name v = Some s <-> same_name v s.
Proof.
  unfold same_name. destruct v as [| | | |l| | | | | |]; cbn [t_name]; try (split; [discriminate|intros [[? _]|[[? _] _]]; discriminate]).
  - split; [intros [= <-]; auto|]. intros [[_ ->]|[[? _] _]]; [reflexivity|discriminate].
  - destruct l as [|z l].
    + split; [discriminate|]. intros [[? _]|[[E _] N]]; [discriminate|]. destruct s; [congruence|discriminate].
    + rewrite t_text_iff. split.
      * intros T. right. split; auto. destruct T as [T _]. intros ->. discriminate.
      * intros [[? _]|[? _]]; [discriminate|assumption].
Qed.

Lemma pair3 {A B C D} (a : option A) (b : option B) (c : option C) (f : A -> B -> C -> D) d :
  match a, b, c with Some x, Some y, Some z => Some (f x y z) | _, _, _ => None end = Some d <->
  exists x y z, a = Some x /\ b = Some y /\ c = Some z /\ f x y z = d.
Proof.
  destruct a, b, c; split; try discriminate; try (intros (? & ? & ? & H); destruct H as (? & ? & ? & ?); congruence).
  intros [= <-]. eauto 8.
Qed.

Lemma t_meta_iff m m' : t_meta m = Some m' <-> same_meta m m'.
Proof.
  unfold same_meta. rewrite <- t_name_iff, <- t_texts_iff, <- t_description_iff. unfold t_meta.
  destruct (t_name (rm_name m)), (t_texts (rm_aliases m)), (t_description (rm_desc m)); split; try discriminate;
    try (intros (? & ? & ?); discriminate).
  - intros [= <-]. auto.
  - intros (E1 & E2 & E3). injection E1 as ->. injection E2 as ->. injection E3 as ->. destruct m'; reflexivity.
Qed.

Lemma list_eqb_Z_true a : forall b, list_eqb Z.eqb a b = true <-> a = b.
Proof.
  induction a as [|x a IH]; intros [|y b]; cbn; try (split; congruence).
  rewrite andb_true_iff, IH, Z.eqb_eq. split; [intros [-> ->]; auto|intros [= -> ->]; auto].
Qed.

Lemma y_eqb_text v s : y_eqb v (Y s) = true <-> v = Y s.
Proof.
  unfold Y. destruct v; cbn [y_eqb]; try (split; discriminate). rewrite list_eqb_Z_true. split; congruence.
Qed.

Lemma t_order_iff v bo : t_order v = Some bo <-> same_order v bo.
Proof.
  unfold same_order, t_order.
  destruct (y_eqb v (Y "native")) eqn:E1; [apply y_eqb_text in E1; subst|].
  { split; [intros [= <-]; reflexivity|]. destruct bo; intros H; try reflexivity; discriminate. }
  destruct (y_eqb v (Y "big-endian")) eqn:E2; [apply y_eqb_text in E2; subst|].
  { split; [intros [= <-]; reflexivity|]. destruct bo; intros H; try reflexivity; discriminate. }
  destruct (y_eqb v (Y "little-endian")) eqn:E3; [apply y_eqb_text in E3; subst|].
  { split; [intros [= <-]; reflexivity|]. destruct bo; intros H; try reflexivity; discriminate. }
  split; [discriminate|]. intros H. destruct bo; apply y_eqb_text in H; congruence.
Qed.

Lemma t_size_iff v o : t_size v = Some o <-> same_size v o.
Proof.
  unfold same_size, t_size, y_native. destruct o as [n|].
  - destruct v; try (split; [destruct (y_eqb _ _); discriminate|discriminate]). split; congruence.
  - destruct v; try (split; [destruct (y_eqb _ _) eqn:E; [|discriminate]; apply y_eqb_text in E; discriminate|discriminate]); try (split; discriminate).
    rewrite <- y_eqb_text. destruct (y_eqb _ _); split; congruence.
Qed.

Lemma t_fixed_iff f f' : t_fixed f = Some f' <-> same_fixed f f'.
Proof.
  unfold same_fixed. rewrite <- t_meta_iff, <- t_order_iff, <- t_size_iff, <- t_text_iff. unfold t_fixed.
  destruct (t_meta (rf_meta f)), (t_order (rf_bo f)), (t_size (rf_size f)), (t_text (rf_units f)); split; try discriminate;
    try (intros (? & ? & ? & ?); discriminate).
  - intros [= <-]. auto.
  - intros (E1 & E2 & E3 & E4). injection E1 as ->. injection E2 as ->. injection E3 as ->. injection E4 as ->. destruct f'; reflexivity.
Qed.

Lemma t_value_iff v x : t_value v = Some x <-> same_value v x.
Proof. destruct v; cbn; split; intros H; try discriminate; try (injection H as <-; constructor); inversion H; reflexivity. Qed.

Lemma t_opt_iff {A B} (f : A -> option B) (R : A -> B -> Prop) o o' : (forall a b, o = Some a -> (f a = Some b <-> R a b)) ->
  (t_opt f o = Some o' <-> both R o o').
Proof.
  intros H. destruct o as [a|]; cbn [t_opt both].
  - destruct o' as [b|].
    + rewrite <- H by reflexivity. destruct (f a); cbn; split; congruence.
    + destruct (f a); cbn; split; try discriminate; tauto.
  - destruct o'; split; try discriminate; tauto.
Qed.

Lemma t_elems_iff e e' : t_elems e = Some e' <-> same_elems e e'.
Proof.
  unfold same_elems.
  rewrite <- t_meta_iff, <- t_order_iff, <- !(t_opt_iff t_text text) by (intros; apply t_text_iff).
  rewrite <- (t_opt_iff t_value same_value) by (intros; apply t_value_iff). rewrite <- t_text_iff. unfold t_elems.
  cbn [t_opt].
  destruct (t_meta (re_meta e)), (t_order (re_bo e)), (t_opt t_text (re_data_size_expr e)), (t_text (re_data_type e)),
    (t_opt t_value (re_terminator e)), (t_opt t_text (re_number_expr e)), (t_text (re_encoding e)); cbn [option_map]; split; try discriminate;
    try (intros (? & ? & ? & ? & ? & ? & ? & ? & ?); discriminate).
  - intros [= <-]. cbn. auto 12.
  - intros (E1 & E2 & E3 & E4 & E5 & E6 & E7 & E8 & E9). injection E1 as ->. injection E2 as ->. injection E4 as ->.
    injection E5 as E5. injection E6 as ->. injection E8 as ->. injection E9 as ->. rewrite E3, E5, E7. destruct e'; reflexivity.
Qed.

Lemma t_enum_iff vs : forall acc en, t_enum vs acc = Some en <-> exists vs', Forall2 same_enum vs vs' /\ adding acc vs' en.
Proof.
  induction vs as [|v vs IH]; intros acc en; cbn [t_enum].
  - split.
    + intros [= <-]. exists []. split; constructor.
    + intros (vs' & F & A). inversion F; subst. inversion A; subst. reflexivity.
  - split.
    + intros H. destruct (t_text (rv_name v)) as [n|] eqn:E1; [|discriminate]. destruct (t_value (rv_number v)) as [z|] eqn:E2; [|discriminate].
      destruct (t_texts (rv_aliases v)) as [a|] eqn:E3; [|discriminate]. destruct (t_description (rv_desc v)) as [d|] eqn:E4; [|discriminate].
      destruct (enum_add acc (mkEnumValue n z a d)) as [[[]| |] acc'] eqn:A; try discriminate.
      apply IH in H. destruct H as (vs' & F & G). exists (mkEnumValue n z a d :: vs'). split; [|econstructor; eauto].
      constructor; auto. split; [apply t_text_iff; auto|]. split; [apply t_value_iff; auto|].
      split; [apply t_texts_iff; auto|apply t_description_iff; auto].
    + intros (vs0 & F & A). inversion F as [|? v' ? vs' S F']; subst. inversion A as [|? ? acc' ? ? Q A']; subst.
      destruct S as (S1 & S2 & S3 & S4). apply t_text_iff in S1. apply t_value_iff in S2. apply t_texts_iff in S3. apply t_description_iff in S4.
      rewrite S1, S2, S3, S4. destruct v'; cbn in *. rewrite Q. apply IH. eauto.
Qed.

Lemma t_layout_iff x x' : t_layout x = Some x' <-> same_layout x x'.
Proof.
  unfold same_layout. rewrite <- t_text_iff. unfold t_layout. destruct x as [v w], x' as [n o]; cbn [fst snd].
  destruct (t_text v) as [m|]; [|split; [discriminate|intros [? _]; discriminate]].
  destruct w; destruct o as [z'|]; split; try discriminate; try (intros [_ ?]; discriminate).
  - intros [= <-]; auto.
  - intros [[= ->] _]; auto.
  - intros [= <- <-]; auto.
  - intros [[= ->] [= ->]]; auto.
Qed.

Theorem typed_same rd : forall d, typed rd = Some d <-> same rd d.
Proof.
  assert (R1 : forall (f : rfixed) (g : fixed -> dtype) (d : dtype),
    option_map g (t_fixed f) = Some d <-> exists f', same_fixed f f' /\ g f' = d).
  { intros f g d. split.
    - destruct (t_fixed f) eqn:E; [|discriminate]. cbn. intros [= <-]. eexists. split; [apply t_fixed_iff; eauto|reflexivity].
    - intros (f' & S & <-). apply t_fixed_iff in S. rewrite S. reflexivity. }
  assert (FA : forall ms, Forall (fun r => forall d, typed r = Some d <-> same r d) ms ->
     forall l, every typed ms = Some l <-> Forall2 same ms l).
  { intros ms F l. apply every_iff. intros a b I. rewrite Forall_forall in F. apply F; auto. }
  induction rd using rdef_rect'; intros d'; cbn [typed].
  1-3,5: rewrite R1; split; [intros (f' & S & <-); now constructor|intros S; inversion S; subst; eauto].
  - (* integer *) split.
    + intros T. opened T. injection T as <-. econstructor; [apply t_fixed_iff; eauto|apply t_text_iff; eauto|]. apply String.eqb_eq.
    + intros S. inversion S as [| | |? f' ? s u A B C| | | | | | | | | | |]; subst. apply t_fixed_iff in A. apply t_text_iff in B. rewrite A, B.
      do 2 f_equal. apply eq_true_iff_eq. rewrite C. apply String.eqb_eq.
  - split.
    + intros T. opened T. injection T as <-. constructor; [apply t_meta_iff|apply t_order_iff]; auto.
    + intros S. inversion S as [| | | | |? m' ? bo' n A B| | | | | | | | |]; subst. apply t_meta_iff in A. apply t_order_iff in B. rewrite A, B. reflexivity.
  - split.
    + intros T. opened T. injection T as <-. constructor; [apply t_elems_iff; auto|apply IHrd; auto].
    + intros S. inversion S as [| | | | | |? ? e' ? el' A B| | | | | | | |]; subst. apply t_elems_iff in A. apply IHrd in B. rewrite A, B. reflexivity.
  - specialize (FA ms H). split.
    + intros T. opened T. injection T as <-. constructor; [apply t_meta_iff|apply t_order_iff|apply FA]; auto.
    + intros S. inversion S as [| | | | | | |? m' ? bo' ? ? ms' A B C| | | | | | |]; subst. apply t_meta_iff in A. apply t_order_iff in B. apply FA in C.
      rewrite A, B, C. reflexivity.
  - specialize (FA ms H). split.
    + intros T. opened T. injection T as <-. constructor; [apply t_meta_iff|apply t_order_iff|apply FA]; auto.
    + intros S. inversion S as [| | | | | | | |? m' ? bo' ? ? ms' A B C| | | | | |]; subst. apply t_meta_iff in A. apply t_order_iff in B. apply FA in C.
      rewrite A, B, C. reflexivity.
  - assert (V : forall vs', t_opt (every t_value) vs = Some vs' <-> both (Forall2 same_value) vs vs').
    { intros vs'. apply t_opt_iff. intros a b _. apply every_iff. intros; apply t_value_iff. }
    split.
    + intros T. opened T. injection T as <-. constructor; [apply t_meta_iff|apply t_order_iff|apply t_opt_text_iff|apply t_opt_text_iff|apply V|apply IHrd]; auto.
    + intros S. inversion S as [| | | | | | | | |? m' ? bo' ? c' ? dt' ? vs' ? d0 A B C D E F| | | | |]; subst.
      apply t_meta_iff in A. apply t_order_iff in B. apply t_opt_text_iff in C, D. apply V in E. apply IHrd in F.
      rewrite A, B, C, D, E, F. reflexivity.
  - split.
    + intros T. opened T. injection T as <-. constructor; [apply t_meta_iff|apply t_value_iff]; auto.
    + intros S. inversion S as [| | | | | | | | | |? m' ? v' A B| | | |]; subst. apply t_meta_iff in A. apply t_value_iff in B. rewrite A, B. reflexivity.
  - split.
    + intros T. opened T. injection T as <-. apply t_enum_iff in E0. destruct E0 as (vs' & F & G). econstructor; eauto. apply t_meta_iff; auto.
    + intros S. inversion S as [| | | | | | | | | | |? m' ? vs' en A B C| | |]; subst. apply t_meta_iff in A.
      rewrite A, (proj2 (t_enum_iff vs _ en)) by eauto. reflexivity.
  - assert (V : forall bo', t_opt t_order bo = Some bo' <-> both same_order bo bo').
    { intros bo'. apply t_opt_iff. intros; apply t_order_iff. }
    assert (W : forall l', every t_layout l = Some l' <-> Forall2 same_layout l l').
    { intros l'. apply every_iff. intros; apply t_layout_iff. }
    split.
    + intros T. opened T. injection T as <-. constructor; [apply t_meta_iff|apply V|apply W]; auto.
    + intros S. inversion S as [| | | | | | | | | | | |? m' ? bo' ? l' ? A B C| |]; subst. apply t_meta_iff in A. apply V in B. apply W in C.
      rewrite A, B, C. reflexivity.
  - specialize (FA ms H). split.
    + intros T. opened T. injection T as <-. constructor; [apply t_meta_iff|apply IHrd|apply FA]; auto.
    + intros S. inversion S as [| | | | | | | | | | | | |? m' ? b' ? ms' A B C|]; subst. apply t_meta_iff in A. apply IHrd in B. apply FA in C.
      rewrite A, B, C. reflexivity.
  - specialize (FA ms H0).
    assert (V : forall df', (match df with None => Some None | Some x => option_map Some (typed x) end) = Some df' <->
       (df = None <-> df' = None) /\ (forall x y, df = Some x -> df' = Some y -> same x y)).
    { intros df'. destruct df as [x|], df' as [y|]; cbn in H.
      - specialize (H y). split.
        + intros T. destruct (typed x) as [z|]; [|discriminate]. injection T as ->. split; [split; discriminate|].
          intros x' y' [= <-] [= <-]. apply H. reflexivity.
        + intros [_ Q]. rewrite (proj2 H) by auto. reflexivity.
      - split; [destruct (typed x); discriminate|]. intros [Q _]. discriminate (proj2 Q eq_refl).
      - split; [discriminate|]. intros [Q _]. discriminate (proj1 Q eq_refl).
      - split; [|reflexivity]. intros _. split; [tauto|]. discriminate. }
    split.
    + intros T. destruct (t_meta m) eqn:E1; [|discriminate]. destruct (t_order bo) eqn:E2; [|discriminate]. destruct (typed rd) eqn:E3; [|discriminate].
      destruct (t_text i) eqn:E4; [|discriminate]. destruct (match df with None => _ | Some _ => _ end) eqn:E5; [|discriminate].
      destruct (every typed ms) eqn:E6; [|discriminate]. injection T as <-.
      constructor; [apply t_meta_iff|apply t_order_iff|apply IHrd|apply t_text_iff|apply V|apply V|apply FA]; auto.
    + intros S. inversion S as [| | | | | | | | | | | | | |? m' ? bo' ? b' ? i' ? df' ? ms' A B C D E0 E F]; subst.
      apply t_meta_iff in A. apply t_order_iff in B. apply IHrd in C. apply t_text_iff in D. pose proof (proj2 (V df') (conj E0 E)) as G. apply FA in F.
      rewrite A, B, C, D, G, F. reflexivity.
Qed.
