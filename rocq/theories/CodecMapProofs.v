(** Strings with the encodings of Python. *)
From Coq Require Import String List ZArith Bool Lia.
From Verif Require Import Base PyVal PyStruct DataTypes DataMaps Codec.
From Verif Require Import BytesProofs SpecPrim SpecMap SpecCodec PrimProofs MapProofs StreamProofs CodecProofs.
Import ListNotations.
Open Scope Z_scope.
#[local] Arguments Z.add : simpl never.
#[local] Arguments Z.sub : simpl never.
#[local] Arguments Z.mul : simpl never.
#[local] Arguments Z.div : simpl never.
#[local] Arguments Z.modulo : simpl never.

(** ** Which texts can be encoded *)

Lemma all_some {A} (f : Z -> option (list A)) (P : Z -> Prop) (g : list Z -> option (list A)) :
  g [] = Some [] ->
  (forall c r, g (c :: r) = match f c, g r with Some a, Some b => Some (a ++ b) | _, _ => None end) ->
  (forall c, (exists a, f c = Some a) <-> P c) ->
  forall s, (exists b, g s = Some b) <-> Forall P s.
Proof.
  intros G0 G1 F s. induction s as [|c s IH]; [split; [constructor|eauto]|]. rewrite G1. split.
  - intros (b & H). destruct (f c) eqn:E; [|discriminate]. destruct (g s); [|discriminate]. constructor.
    + apply F. eauto.
    + apply IH. eauto.
  - intros H. inversion H; subst. apply F in H2. destruct H2 as (a & ->). apply IH in H3. destruct H3 as (b & ->). eauto.
Qed.

Lemma forallb_some (p : Z -> bool) (P : Z -> Prop) {B} (x : list Z -> B) s :
  (forall c, p c = true <-> P c) -> ((exists b, (if forallb p s then Some (x s) else None) = Some b) <-> Forall P s).
Proof.
  intros H. rewrite Forall_forall. split.
  - intros (b & E). destruct (forallb p s) eqn:F; [|discriminate]. rewrite forallb_forall in F. intros c I. apply H. auto.
  - intros F. replace (forallb p s) with true; eauto. symmetry. apply forallb_forall. intros c I. apply H. auto.
Qed.

Lemma utf8_encodable s : (exists b, utf8_encode s = Some b) <-> Forall (encodable "utf8") s.
Proof.
  apply (all_some utf8_enc1); auto. intros c. unfold encodable, utf8_enc1, is_surrogate. cbn [string_dec]. split.
  - intros (a & H). destruct (c <? 0) eqn:C0; [discriminate|]. cbn.
    destruct (c <? 128) eqn:C1; [lia|]. destruct (c <? 2048) eqn:C2; [lia|]. destruct (c <? 65536) eqn:C3.
    + destruct ((55296 <=? c) && (c <=? 57343)) eqn:SU; [discriminate|]. lia.
    + destruct (c <? 1114112) eqn:C4; [lia|discriminate].
  - cbn. intros H. replace (c <? 0) with false by lia. destruct (c <? 128); eauto. destruct (c <? 2048); eauto.
    destruct (c <? 65536); eauto.
    + replace ((55296 <=? c) && (c <=? 57343)) with false by lia. eauto.
    + replace (c <? 1114112) with true by lia. eauto.
Qed.

Lemma utf16_encodable big s : (exists b, utf16_encode big s = Some b) <-> Forall (encodable "utf-16-le") s.
Proof.
  assert (U : (exists b, utf16_units s = Some b) <-> Forall (encodable "utf-16-le") s).
  { apply (all_some utf16_enc1); auto. intros c. unfold encodable, utf16_enc1, is_surrogate. cbn. split.
    - intros (a & H). destruct (c <? 0) eqn:C0; [discriminate|]. destruct (c <? 65536) eqn:C3.
      + destruct ((55296 <=? c) && (c <=? 57343)) eqn:SU; [discriminate|]. lia.
      + destruct (c <? 1114112) eqn:C4; [lia|discriminate].
    - intros H. replace (c <? 0) with false by lia. destruct (c <? 65536); eauto.
      + replace ((55296 <=? c) && (c <=? 57343)) with false by lia. eauto.
      + replace (c <? 1114112) with true by lia. eauto. }
  rewrite <- U. unfold utf16_encode. destruct (utf16_units s); cbn; split; intros (b & H); eauto; discriminate.
Qed.

Lemma utf32_encodable big s : (exists b, utf32_encode big s = Some b) <-> Forall (encodable "utf-32-le") s.
Proof.
  unfold utf32_encode. apply (forallb_some scalar _ (flat_map (quad_bytes big))).
  intros c. unfold scalar, encodable, is_surrogate. cbn. lia.
Qed.

Lemma encodes enc s : known enc -> ((exists b, encode enc s = Some b) <-> Forall (encodable enc) s).
Proof.
  intros K. cbn in K.
  destruct K as [<-|[<-|[<-|[<-|[<-|[<-|[<-|[<-|[]]]]]]]]]; unfold encode; cbn [String.eqb Ascii.eqb Bool.eqb orb].
  - unfold narrow_encode. apply (forallb_some _ _ (map Zbyte)). intros c. unfold encodable. cbn. lia.
  - unfold narrow_encode. apply (forallb_some _ _ (map Zbyte)). intros c. unfold encodable. cbn. lia.
  - apply utf8_encodable.
  - apply utf8_encodable.
  - apply utf16_encodable.
  - apply utf16_encodable.
  - apply utf32_encodable.
  - apply utf32_encodable.
Qed.

(** ** Pieces *)

Lemma byte_zero x : byteZ (Zbyte x) = 0 -> 0 <= x < 256 -> x = 0.
Proof. intros H K. rewrite byte_small in H; lia. Qed.

Lemma zbyte_zero x : Zbyte x = Zbyte 0 -> x mod 256 = 0.
Proof. intros H. apply (f_equal byteZ) in H. now rewrite !byteZ_Zbyte in H. Qed.

(** An encoded text is a list of pieces of one size, and the null piece stands for
    the null character. *)
Lemma encode_pieces enc s b : known enc -> encode enc s = Some b ->
  exists (f : Z -> bytes) u, b = flat_map f u /\
    (forall x, In x u -> len (f x) = unit_size enc) /\
    (forall x, In x u -> (f x = nulls (unit_size enc) <-> x = 0)) /\
    (In 0 u <-> In 0 s).
Proof.
  assert (N1 : forall l, narrow_encode l s = Some b -> l <= 256 -> exists (f : Z -> bytes) u, b = flat_map f u /\
    (forall x, In x u -> len (f x) = 1) /\ (forall x, In x u -> (f x = nulls 1 <-> x = 0)) /\ (In 0 u <-> In 0 s)).
  { intros l H L. unfold narrow_encode in H. destruct (forallb _ s) eqn:F; [|discriminate]. injection H as <-.
    exists (fun x => [Zbyte x]), s. rewrite forallb_forall in F. split; [|split; [|split]].
    - clear. induction s; cbn; congruence.
    - intros; reflexivity.
    - intros x I. specialize (F x I). cbn beta in F. split; [|intros ->; reflexivity].
      intros H. injection H as H. apply zbyte_zero in H. lia.
    - tauto. }
  assert (N2 : utf8_encode s = Some b -> exists (f : Z -> bytes) u, b = flat_map f u /\
    (forall x, In x u -> len (f x) = 1) /\ (forall x, In x u -> (f x = nulls 1 <-> x = 0)) /\ (In 0 u <-> In 0 s)).
  { intros H. exists (fun x => [Zbyte x]), (map byteZ b). split; [|split; [|split]].
    - clear. induction b as [|x b IH]; cbn; auto. rewrite Zbyte_byteZ. congruence.
    - intros; reflexivity.
    - intros x I. apply in_map_iff in I. destruct I as (y & <- & _). pose proof (byteZ_range y). split; [|intros ->; reflexivity].
      intros E. injection E as E. apply zbyte_zero in E. lia.
    - clear N1. revert b H. induction s as [|c s IH]; intros b H; cbn [utf8_encode] in H; [inversion H; tauto|].
      destruct (utf8_enc1 c) as [a|] eqn:A; [|discriminate]. destruct (utf8_encode s) as [r|]; [|discriminate].
      injection H as <-. rewrite map_app, in_app_iff, (IH r eq_refl). cbn [In].
      assert (Q : In 0 (map byteZ a) <-> c = 0); [|tauto].
      unfold utf8_enc1 in A. destruct (c <? 0) eqn:C0; [discriminate|].
      destruct (c <? 128) eqn:C1; [injection A as <-; cbn; rewrite byte_small by lia; lia|].
      destruct (c <? 2048) eqn:C2; [injection A as <-; cbn; rewrite !byte_small by lia; lia|].
      destruct (c <? 65536) eqn:C3.
      + destruct (is_surrogate c); [discriminate|]. injection A as <-; cbn; rewrite !byte_small by lia; lia.
      + destruct (c <? 1114112) eqn:C4; [|discriminate]. injection A as <-; cbn; rewrite !byte_small by lia; lia. }
  assert (N3 : forall big, utf16_encode big s = Some b -> exists (f : Z -> bytes) u, b = flat_map f u /\
    (forall x, In x u -> len (f x) = 2) /\ (forall x, In x u -> (f x = nulls 2 <-> x = 0)) /\ (In 0 u <-> In 0 s)).
  { intros big H. unfold utf16_encode in H. destruct (utf16_units s) as [u|] eqn:U; [|discriminate]. injection H as <-.
    exists (unit_bytes big), u. pose proof (utf16_units_range _ _ U) as R. rewrite Forall_forall in R. split; [|split; [|split]].
    - reflexivity.
    - intros x I. destruct big; reflexivity.
    - intros x I. specialize (R x I). change (nulls 2) with [Zbyte 0; Zbyte 0]. split; [|intros ->; destruct big; reflexivity].
      destruct big; cbn [unit_bytes]; intros E; injection E as E1 E2; apply zbyte_zero in E1; apply zbyte_zero in E2; lia.
    - clear N1 N2 R. revert u U. induction s as [|c s IH]; intros u H; cbn [utf16_units] in H; [inversion H; tauto|].
      destruct (utf16_enc1 c) as [a|] eqn:A; [|discriminate]. destruct (utf16_units s) as [r|]; [|discriminate].
      injection H as <-. rewrite in_app_iff, (IH r eq_refl). cbn [In].
      assert (Q : In 0 a <-> c = 0); [|tauto].
      unfold utf16_enc1 in A. destruct (c <? 0) eqn:C0; [discriminate|]. destruct (c <? 65536) eqn:C1.
      + destruct (is_surrogate c); [discriminate|]. injection A as <-. cbn. lia.
      + destruct (c <? 1114112) eqn:C2; [|discriminate]. injection A as <-. cbn. lia. }
  assert (N4 : forall big, utf32_encode big s = Some b -> exists (f : Z -> bytes) u, b = flat_map f u /\
    (forall x, In x u -> len (f x) = 4) /\ (forall x, In x u -> (f x = nulls 4 <-> x = 0)) /\ (In 0 u <-> In 0 s)).
  { intros big H. unfold utf32_encode in H. destruct (forallb scalar s) eqn:F; [|discriminate]. injection H as <-.
    apply scalar_range in F. rewrite Forall_forall in F.
    exists (quad_bytes big), s. split; [|split; [|split]].
    - reflexivity.
    - intros x I. destruct big; reflexivity.
    - intros x I. specialize (F x I). change (nulls 4) with [Zbyte 0; Zbyte 0; Zbyte 0; Zbyte 0]. split; [|intros ->; destruct big; reflexivity].
      destruct big; unfold quad_bytes; cbn [rev app]; intros E; injection E as E1 E2 E3 E4;
        apply zbyte_zero in E1; apply zbyte_zero in E2; apply zbyte_zero in E3; apply zbyte_zero in E4; lia.
    - tauto. }
  intros K H. cbn in K.
  destruct K as [<-|[<-|[<-|[<-|[<-|[<-|[<-|[<-|[]]]]]]]]]; unfold encode in H; cbn [String.eqb Ascii.eqb Bool.eqb orb] in H.
  - apply (N1 _ H). lia.
  - apply (N1 _ H). lia.
  - apply (N2 H).
  - apply (N2 H).
  - apply (N3 _ H).
  - apply (N3 _ H).
  - apply (N4 _ H).
  - apply (N4 _ H).
Qed.

Lemma unit_size_pos enc : 0 < unit_size enc.
Proof. unfold unit_size. destruct (in_dec _ _ _); [lia|]. destruct (in_dec _ _ _); lia. Qed.

Lemma nulls_len enc : len (nulls (unit_size enc)) = unit_size enc.
Proof. pose proof (unit_size_pos enc). unfold nulls, len. rewrite repeat_length. lia. Qed.

Lemma pieces_len (f : Z -> bytes) u w : (forall x, In x u -> len (f x) = w) -> len (flat_map f u) = len u * w.
Proof.
  induction u as [|x u IH]; intros H; cbn [flat_map]; [reflexivity|].
  rewrite len_app, (H x), IH by (intros; try apply H; cbn; auto). unfold len. cbn [List.length]. nia.
Qed.

Lemma pieces_window (f : Z -> bytes) u w j x : 0 <= w -> (forall x, In x u -> len (f x) = w) ->
  nth_error u j = Some x -> window (flat_map f u) (Z.of_nat j * w) w = f x.
Proof.
  intros W. revert j. induction u as [|y u IH]; intros j H E; [destruct j; discriminate|]. cbn [flat_map].
  assert (Y : len (f y) = w) by (apply H; now left). destruct j as [|j]; cbn in E.
  - injection E as ->. change (Z.of_nat 0 * w) with 0. unfold window. cbn [Z.to_nat skipn]. rewrite firstn_app.
    replace (Z.to_nat w - List.length (f x))%nat with 0%nat by (unfold len in Y; lia).
    cbn. rewrite app_nil_r. apply firstn_all2. unfold len in Y. lia.
  - rewrite <- (IH j); [|intros z Z; apply H; now right|auto]. unfold window.
    replace (Z.to_nat (Z.of_nat (S j) * w)) with (List.length (f y) + Z.to_nat (Z.of_nat j * w))%nat by (unfold len in Y; nia).
    rewrite skipn_app, skipn_all2 by lia. cbn. do 2 f_equal. lia.
Qed.

Lemma text_pieces enc s b : known enc -> encode enc s = Some b ->
  (exists k, len b = k * unit_size enc) /\
  (~ In 0 s -> forall j, ~ first_at (nulls (unit_size enc)) b 0 j) /\
  (In 0 s -> exists j, 0 <= j /\ window b (j * unit_size enc) (unit_size enc) = nulls (unit_size enc)).
Proof.
  intros K H. destruct (encode_pieces _ _ _ K H) as (f & u & -> & L & N & Z0). pose proof (unit_size_pos enc) as W.
  split; [|split].
  - exists (len u). now apply pieces_len.
  - intros Q j (J1 & J2 & _). rewrite nulls_len in J2. rewrite Z.add_0_l in J2.
    pose proof J2 as I. apply (f_equal (@len _)) in I. rewrite nulls_len, window_len in I by nia.
    rewrite (pieces_len _ _ _ L) in I. destruct (nth_error u (Z.to_nat j)) as [x|] eqn:E.
    + pose proof (pieces_window f u (unit_size enc) (Z.to_nat j) x ltac:(lia) L E) as P.
      rewrite Z2Nat.id in P by lia. rewrite P in J2. apply nth_error_In in E. apply N in J2; auto. subst. tauto.
    + apply nth_error_None in E.
      assert (len u * unit_size enc <= j * unit_size enc) by (apply Z.mul_le_mono_nonneg_r; unfold len; lia). lia.
  - intros Q. apply Z0 in Q. destruct (In_nth_error _ _ Q) as (j & J). exists (Z.of_nat j). split; [lia|].
    rewrite (pieces_window f u (unit_size enc) j 0 ltac:(lia) L J). now apply N.
Qed.

(** ** Strings *)

Lemma null_unsized e ed : null_terminated e ed -> unsized_stream e ed.
Proof.
  intros (A & B & C & D & _). unfold unsized_stream, has_data_size, has_number. rewrite A, B, C, D. auto.
Qed.

Lemma null_terminator e ed : null_terminated e ed -> byte_terminator (e_terminator e).
Proof.
  intros (_ & _ & _ & _ & T & _). rewrite T. cbn. eexists. split; [reflexivity|].
  rewrite nulls_len. apply unit_size_pos.
Qed.

Lemma no_suffix (t b : bytes) k : 0 < len t -> len b = k * len t -> (forall j, ~ first_at t b 0 j) ->
  forall p, b <> p ++ t.
Proof.
  intros Ht L N p E. assert (W : window b ((k - 1) * len t) (len t) = t).
  { rewrite E. rewrite E, len_app in L. unfold window.
    replace (Z.to_nat ((k - 1) * len t)) with (List.length p) by (unfold len in *; nia).
    rewrite skipn_app, skipn_all, Nat.sub_diag. cbn. apply firstn_all2. unfold len. lia. }
  assert (G : forall n j, j <= Z.of_nat n -> 0 <= j -> window b (j * len t) (len t) <> t).
  { intros n. induction n as [n IH] using (well_founded_induction lt_wf). intros j J J0 Q.
    apply (N j). split; [lia|]. split; [now rewrite Z.add_0_l|]. intros i I. rewrite Z.add_0_l.
    apply (IH (Z.to_nat i)); lia. }
  apply (G (Z.to_nat (k - 1)) (k - 1)); auto; try lia.
  pose proof (len_nonneg p). rewrite E, len_app in L. nia.
Qed.

(** Folding a text without null characters. *)
Lemma text_fold orc e ed em vals s : python_codecs orc -> known (e_encoding e) -> null_terminated e ed -> ~ In 0 s ->
  let m := MString e ed em in
  (forall r, folds orc m (VStr s) vals r <->
     exists b, encode (e_encoding e) s = Some b /\ r = b ++ nulls (unit_size (e_encoding e))) /\
  (~ Forall (encodable (e_encoding e)) s <-> fold_fails orc m (VStr s) vals FoldingError).
Proof.
  intros P K NT Z0 m. destruct (P _ K) as [PE _]. pose proof (null_unsized _ _ NT) as U.
  destruct (string_fold orc e ed em vals) as (A & B & C & _).
  assert (F : forall b, encode (e_encoding e) s = Some b ->
            forall r, folds orc (MStream e ed em) (VBytes b) vals r <-> r = b ++ nulls (unit_size (e_encoding e))).
  { intros b E r. destruct (text_pieces _ _ _ K E) as ((k & L) & N & _).
    pose proof (nulls_len (e_encoding e)) as NL. pose proof (unit_size_pos (e_encoding e)) as W.
    destruct NT as (_ & _ & _ & _ & T & _).
    rewrite (stream_fold_terminated orc e ed em _ vals b U T) by lia.
    assert (S : forall p, b <> p ++ nulls (unit_size (e_encoding e))).
    { apply (no_suffix _ _ k); rewrite ?NL; auto. }
    split.
    - intros [[(p & Q) _]|[_ Q]]; auto. exfalso. eapply S; eauto.
    - intros ->. right. auto. }
  split.
  - intros r. unfold m; rewrite A, PE. split.
    + intros (b & E & R). exists b. split; auto. now apply F.
    + intros (b & E & R). exists b. split; auto. now apply F.
  - rewrite <- (encodes _ _ K). destruct (encode (e_encoding e) s) as [b|] eqn:E.
    + split; [intros Q; exfalso; apply Q; eauto|].
      intros Q. exfalso. rewrite <- PE in E. apply (C s b FoldingError E) in Q. rewrite PE in E.
      pose proof (proj2 (F b eq_refl _) eq_refl) as R. unfold folds, fold_fails in *. congruence.
    + split; [intros _|intros _ (b & Q); discriminate]. apply B. now rewrite PE.
Qed.

(** What a string with a null terminator maps. *)
Lemma text_maps orc fuel e ed em bs off vals depth : python_codecs orc -> known (e_encoding e) -> null_terminated e ed ->
  0 <= off ->
  forall v n, maps orc fuel (MString e ed em) bs off vals depth v n <->
    exists s b, v = VStr s /\ ~ In 0 s /\ encode (e_encoding e) s = Some b /\
      n = len b + unit_size (e_encoding e) /\ window bs off n = b ++ nulls (unit_size (e_encoding e)).
Proof.
  intros P K NT Ho v n. destruct (P _ K) as [PE PD]. pose proof (null_unsized _ _ NT) as U.
  pose proof (null_terminator _ _ NT) as BT.
  pose proof (nulls_len (e_encoding e)) as NL. pose proof (unit_size_pos (e_encoding e)) as W.
  destruct (string_layout orc fuel e ed em bs off vals depth BT) as [A _].
  destruct NT as (_ & _ & _ & _ & T & G). rewrite <- NL in G.
  destruct (stream_terminated orc fuel e ed em _ bs off vals depth Ho U T G ltac:(lia)) as (M & _ & _).
  rewrite A, T. clear A. set (w := unit_size (e_encoding e)) in *. set (t := nulls w) in *. cbn [text_part].
  rewrite NL in M. split.
  - intros (l & r & s & Ml & C & D & ->). apply M in Ml. destruct Ml as (k & F & -> & E). injection E as ->.
    rewrite PD in D. apply (encode_decode _ _ _ K) in D.
    pose proof (first_at_inside t bs off k Ho ltac:(lia) F) as I. rewrite NL in I.
    destruct F as (K0 & F1 & F2). rewrite NL in F1, F2.
    set (l := window bs off ((k + 1) * w)) in *.
    assert (LL : len l = (k + 1) * w) by (unfold l; rewrite window_len; nia).
    assert (WL : forall j, 0 <= j <= k -> window l (j * w) w = window bs (off + j * w) w).
    { intros j J. unfold l. unfold window at 1 2 3. rewrite skipn_firstn_comm, firstn_firstn.
      replace (Nat.min (Z.to_nat w) (Z.to_nat ((k + 1) * w) - Z.to_nat (j * w))) with (Z.to_nat w) by nia.
      f_equal. replace (Z.to_nat (off + j * w)) with (Z.to_nat (j * w) + Z.to_nat off)%nat by nia.
      clear. generalize (Z.to_nat (j * w)) as x. generalize (Z.to_nat off) as y. intros y x. revert bs.
      induction y as [|y IH]; intros bs; [now rewrite Nat.add_0_r|]. rewrite Nat.add_succ_r. destruct bs; cbn; auto.
      now destruct x. }
    assert (Fl : first_at t l 0 k).
    { split; [auto|]. rewrite NL, Z.add_0_l. split; [rewrite WL; auto; lia|].
      intros j J. rewrite Z.add_0_l, WL; auto. lia. }
    destruct C as [(k' & F' & R)|[F' R]]; [|exfalso; eapply F'; eauto].
    rewrite (first_at_unique _ _ _ _ _ F' Fl), NL in R. clear F' k'.
    assert (RL : len r = k * w) by (rewrite R, len_firstn; lia).
    exists s, r. split; [auto|]. split; [|split; [auto|split; [nia|]]].
    + intros Z0. destruct (text_pieces _ _ _ K D) as (_ & _ & Q). destruct (Q Z0) as (j & J & QJ). fold w t in QJ.
      pose proof QJ as I'. rewrite <- NL in I' at 2. apply window_inside in I'; [|nia|lia]. rewrite NL, RL in I'.
      assert (j < k) by nia. destruct Fl as (_ & _ & Fl). apply (Fl j); [lia|]. rewrite NL, Z.add_0_l, <- QJ, R.
      unfold window. rewrite skipn_firstn_comm, firstn_firstn. f_equal. nia.
    + fold l. rewrite <- (firstn_skipn (Z.to_nat (k * w)) l), <- R. f_equal.
      transitivity (window l (k * w) w); [|rewrite WL; auto; lia].
      unfold window. symmetry. apply firstn_all2. rewrite skipn_length. unfold len in LL. nia.
  - intros (s & b & -> & Z0 & E & -> & Q). destruct (text_pieces _ _ _ K E) as ((k & L) & N & _).
    fold w t in L, N, Q. specialize (N Z0). exists (b ++ t), b, s.
    assert (I : off + (len b + w) <= len bs).
    { apply (f_equal (@len _)) in Q. rewrite len_app, NL in Q.
      pose proof (len_nonneg b). rewrite window_len in Q by lia. lia. }
    pose proof (len_nonneg b) as Lb.
    split; [|split; [|split; [|auto]]].
    + apply M. exists k.
      assert (Fa : first_at t (b ++ t) 0 k) by (apply first_at_append; rewrite ?NL; auto; lia).
      assert (SP : bs = firstn (Z.to_nat off) bs ++ (b ++ t) ++ skipn (Z.to_nat (off + (len b + w))) bs).
      { rewrite <- Q. rewrite <- (firstn_skipn (Z.to_nat off) bs) at 1. f_equal.
        rewrite <- (firstn_skipn (Z.to_nat (len b + w)) (skipn (Z.to_nat off) bs)) at 1. unfold window. f_equal.
        replace (Z.to_nat (off + (len b + w))) with (Z.to_nat (len b + w) + Z.to_nat off)%nat by lia.
        clear. generalize (Z.to_nat (len b + w)) as x. generalize (Z.to_nat off) as y. intros y x. revert bs.
        induction y as [|y IH]; intros bs; [now rewrite Nat.add_0_r|]. rewrite Nat.add_succ_r. destruct bs; cbn; auto.
        now destruct x. }
      split; [|split; [nia|]].
      * pose proof (first_at_shift t (firstn (Z.to_nat off) bs) (b ++ t) (skipn (Z.to_nat (off + (len b + w))) bs) k
                      ltac:(lia) Fa) as X.
        rewrite <- SP, len_firstn in X. replace (Z.min (Z.of_nat (Z.to_nat off)) (len bs)) with off in X by lia. exact X.
      * now rewrite Q.
    + apply (cut_at_append _ _ k); rewrite ?NL; auto.
    + rewrite PD. now apply (encode_decode _ _ _ K).
Qed.

(** A text without null characters that the encoding has survives. *)
Lemma text_round_trip orc fuel e ed em vals s pre post depth :
  python_codecs orc -> known (e_encoding e) -> null_terminated e ed -> ~ In 0 s ->
  Forall (encodable (e_encoding e)) s ->
  exists r, folds orc (MString e ed em) (VStr s) vals r /\
    maps orc fuel (MString e ed em) (pre ++ r ++ post) (len pre) vals depth (VStr s) (len r).
Proof.
  intros P K NT Z0 F. apply (encodes _ _ K) in F. destruct F as (b & E).
  exists (b ++ nulls (unit_size (e_encoding e))). split; [apply (text_fold orc e ed em vals s P K NT Z0); eauto|].
  apply (text_maps _ _ _ _ _ _ _ _ _ P K NT (len_nonneg pre)). exists s, b.
  split; [auto|]. split; [auto|]. split; [auto|]. rewrite len_app, nulls_len. split; [auto|].
  rewrite <- (nulls_len (e_encoding e)) at 2. rewrite <- len_app.
  replace (len pre) with (len pre + 0) by lia. rewrite window_inner; try lia; [|apply len_nonneg]. apply window_whole.
Qed.

(** Every text that is mapped folds to the bytes it was mapped from. *)
Lemma text_back orc fuel e ed em bs off vals depth : python_codecs orc -> known (e_encoding e) -> null_terminated e ed ->
  0 <= off ->
  forall v n, maps orc fuel (MString e ed em) bs off vals depth v n ->
    folds orc (MString e ed em) v vals (window bs off n).
Proof.
  intros P K NT Ho v n M. apply (text_maps _ _ _ _ _ _ _ _ _ P K NT Ho) in M.
  destruct M as (s & b & -> & Z0 & E & -> & ->). apply (text_fold orc e ed em vals s P K NT Z0). eauto.
Qed.
