(** Encodings are one to one, and null characters are the only null pieces. *)
From Coq Require Import String List ZArith Bool Lia.
From Coq Require Import Init.Byte.
From Verif Require Import Base PyVal PyStruct DataTypes DataMaps Codec.
From Verif Require Import BytesProofs SpecCodec.
Import ListNotations.
Open Scope Z_scope.

#[local] Arguments Z.add : simpl never.
#[local] Arguments Z.sub : simpl never.
#[local] Arguments Z.mul : simpl never.
#[local] Arguments Z.div : simpl never.
#[local] Arguments Z.modulo : simpl never.

Ltac Zify.zify_post_hook ::= Z.to_euclidean_division_equations.

Lemma byte_small z : 0 <= z < 256 -> byteZ (Zbyte z) = z.
Proof. intros H. rewrite byteZ_Zbyte. apply Z.mod_small. lia. Qed.

Lemma byte_back z b : z = byteZ b -> Zbyte z = b.
Proof. intros ->. apply Zbyte_byteZ. Qed.

(** ** ASCII and Latin-1 *)

Lemma narrow_there limit s b : limit <= 256 -> narrow_encode limit s = Some b -> narrow_decode limit b = Some s.
Proof.
  intros L. unfold narrow_encode, narrow_decode. destruct (forallb _ s) eqn:F; [|discriminate]. intros H. inversion H; subst.
  assert (E : map byteZ (map Zbyte s) = s).
  { clear H. rewrite forallb_forall in F. rewrite map_map. rewrite <- (map_id s) at 2. apply map_ext_in.
    intros c I. apply byte_small. specialize (F c I). lia. }
  rewrite E. replace (forallb (fun c => c <? limit) s) with true; auto.
  symmetry. apply forallb_forall. intros c I. rewrite forallb_forall in F. specialize (F c I). lia.
Qed.

Lemma narrow_back limit b s : narrow_decode limit b = Some s -> narrow_encode limit s = Some b.
Proof.
  unfold narrow_encode, narrow_decode. destruct (forallb _ (map byteZ b)) eqn:F; [|discriminate]. intros H. inversion H; subst.
  rewrite map_map. replace (map (fun x => Zbyte (byteZ x)) b) with b.
  - replace (forallb _ (map byteZ b)) with true; auto. symmetry. apply forallb_forall. intros c I.
    rewrite forallb_forall in F. specialize (F c I). apply in_map_iff in I. destruct I as (x & <- & _).
    pose proof (byteZ_range x). lia.
  - rewrite <- (map_id b) at 1. apply map_ext. intros x. symmetry. apply Zbyte_byteZ.
Qed.

(** ** UTF-8 *)

Lemma cont_byte z : 0 <= z < 64 -> cont (Zbyte (128 + z)) = Some z.
Proof.
  intros H. unfold cont. rewrite byte_small by lia.
  replace ((128 <=? 128 + z) && (128 + z <? 192)) with true by lia. f_equal. lia.
Qed.

Lemma cont_some b z : cont b = Some z -> 0 <= z < 64 /\ b = Zbyte (128 + z).
Proof.
  unfold cont. destruct (_ && _) eqn:E; [|discriminate]. intros H. inversion H; subst. split; [lia|].
  symmetry. apply byte_back. lia.
Qed.

Lemma utf8_one c a r : utf8_enc1 c = Some a -> utf8_decode (a ++ r) = option_map (cons c) (utf8_decode r).
Proof.
  unfold utf8_enc1. destruct (c <? 0) eqn:C0; [discriminate|].
  destruct (c <? 128) eqn:C1.
  { intros H. inversion H; subst. cbn [app utf8_decode]. rewrite byte_small by lia. now rewrite C1. }
  destruct (c <? 2048) eqn:C2.
  { intros H. inversion H; subst. cbn [app utf8_decode]. rewrite byte_small by lia.
    replace (192 + c / 64 <? 128) with false by lia. replace (192 + c / 64 <? 192) with false by lia.
    replace (192 + c / 64 <? 224) with true by lia. rewrite cont_byte by lia.
    replace ((192 + c / 64 - 192) * 64 + c mod 64) with c by lia.
    unfold utf8_ok, is_surrogate. replace (_ && _ && _) with true by lia. reflexivity. }
  destruct (c <? 65536) eqn:C3.
  { destruct (is_surrogate c) eqn:SU; [discriminate|]. intros H. inversion H; subst. cbn [app utf8_decode]. rewrite byte_small by lia.
    replace (224 + c / 4096 <? 128) with false by lia. replace (224 + c / 4096 <? 192) with false by lia.
    replace (224 + c / 4096 <? 224) with false by lia. replace (224 + c / 4096 <? 240) with true by lia.
    rewrite !cont_byte by lia.
    replace (((224 + c / 4096 - 224) * 64 + (c / 64) mod 64) * 64 + c mod 64) with c by lia.
    unfold utf8_ok. rewrite SU. replace (_ && _ && _) with true by lia. reflexivity. }
  destruct (c <? 1114112) eqn:C4; [|discriminate].
  intros H. inversion H; subst. cbn [app utf8_decode]. rewrite byte_small by lia.
  replace (240 + c / 262144 <? 128) with false by lia. replace (240 + c / 262144 <? 192) with false by lia.
  replace (240 + c / 262144 <? 224) with false by lia. replace (240 + c / 262144 <? 240) with false by lia.
  replace (240 + c / 262144 <? 248) with true by lia.
  rewrite !cont_byte by lia.
  replace ((((240 + c / 262144 - 240) * 64 + (c / 4096) mod 64) * 64 + (c / 64) mod 64) * 64 + c mod 64) with c by lia.
  unfold utf8_ok, is_surrogate. replace (_ && _ && _) with true by lia. reflexivity.
Qed.

Lemma utf8_there s : forall b, utf8_encode s = Some b -> utf8_decode b = Some s.
Proof.
  induction s as [|c s IH]; intros b H; cbn [utf8_encode] in H; [inversion H; reflexivity|].
  destruct (utf8_enc1 c) as [a|] eqn:A; [|discriminate]. destruct (utf8_encode s) as [r|]; [|discriminate].
  inversion H; subst. rewrite (utf8_one _ _ _ A), (IH r eq_refl). reflexivity.
Qed.

Lemma utf8_back_n n : forall b s, (List.length b <= n)%nat -> utf8_decode b = Some s -> utf8_encode s = Some b.
Proof.
  induction n as [|n IH]; intros b s L H.
  { destruct b; cbn in L; [|lia]. inversion H. reflexivity. }
  destruct b as [|x b]; [inversion H; reflexivity|]. cbn [List.length] in L. cbn [utf8_decode] in H.
  pose proof (byteZ_range x) as X.
  destruct (byteZ x <? 128) eqn:C1.
  { destruct (utf8_decode b) as [r|] eqn:R; [|discriminate]. inversion H; subst. cbn [utf8_encode].
    rewrite (IH b r) by (auto; lia). unfold utf8_enc1. replace (byteZ x <? 0) with false by lia. rewrite C1.
    cbn [app]. now rewrite Zbyte_byteZ. }
  destruct (byteZ x <? 192) eqn:C2; [discriminate|].
  destruct (byteZ x <? 224) eqn:C3.
  { destruct b as [|y b]; [discriminate|]. destruct (cont y) as [p|] eqn:P; [|discriminate].
    destruct (utf8_ok 128 _) eqn:K; [|discriminate]. destruct (utf8_decode b) as [r|] eqn:R; [|discriminate]. inversion H; subst.
    cbn [List.length] in L. apply cont_some in P. destruct P as [P ->]. cbn [utf8_encode]. rewrite (IH b r) by (auto; lia).
    unfold utf8_ok, is_surrogate in K. unfold utf8_enc1.
    set (c := (byteZ x - 192) * 64 + p) in *.
    replace (c <? 0) with false by lia. replace (c <? 128) with false by lia. replace (c <? 2048) with true by lia.
    cbn [app]. f_equal. f_equal; [apply byte_back; lia|]. f_equal. f_equal. lia. }
  destruct (byteZ x <? 240) eqn:C4.
  { destruct b as [|y [|y2 b]]; try discriminate. destruct (cont y) as [p|] eqn:P; [|discriminate].
    destruct (cont y2) as [q|] eqn:Q; [|discriminate].
    destruct (utf8_ok 2048 _) eqn:K; [|discriminate]. destruct (utf8_decode b) as [r|] eqn:R; [|discriminate]. inversion H; subst.
    cbn [List.length] in L. apply cont_some in P. destruct P as [P ->]. apply cont_some in Q. destruct Q as [Q ->].
    cbn [utf8_encode]. rewrite (IH b r) by (auto; lia).
    unfold utf8_ok in K. unfold utf8_enc1.
    set (c := ((byteZ x - 224) * 64 + p) * 64 + q) in *. apply andb_true_iff in K. destruct K as [K SU]. apply negb_true_iff in SU.
    replace (c <? 0) with false by lia. replace (c <? 128) with false by lia. replace (c <? 2048) with false by lia.
    replace (c <? 65536) with true by lia. rewrite SU.
    cbn [app]. f_equal. f_equal; [apply byte_back; lia|]. f_equal; [f_equal; lia|]. f_equal. f_equal. lia. }
  destruct (byteZ x <? 248) eqn:C5; [|discriminate].
  destruct b as [|y [|y2 [|y3 b]]]; try discriminate. destruct (cont y) as [p|] eqn:P; [|discriminate].
  destruct (cont y2) as [q|] eqn:Q; [|discriminate]. destruct (cont y3) as [t|] eqn:T; [|discriminate].
  destruct (utf8_ok 65536 _) eqn:K; [|discriminate]. destruct (utf8_decode b) as [r|] eqn:R; [|discriminate]. inversion H; subst.
  cbn [List.length] in L. apply cont_some in P. destruct P as [P ->]. apply cont_some in Q. destruct Q as [Q ->].
  apply cont_some in T. destruct T as [T ->].
  cbn [utf8_encode]. rewrite (IH b r) by (auto; lia).
  unfold utf8_ok in K. unfold utf8_enc1.
  set (c := (((byteZ x - 240) * 64 + p) * 64 + q) * 64 + t) in *. apply andb_true_iff in K. destruct K as [K SU].
  replace (c <? 0) with false by lia. replace (c <? 128) with false by lia. replace (c <? 2048) with false by lia.
  replace (c <? 65536) with false by lia. replace (c <? 1114112) with true by lia.
  cbn [app]. f_equal. f_equal; [apply byte_back; lia|]. f_equal; [f_equal; lia|]. f_equal; [f_equal; lia|]. f_equal. f_equal. lia.
Qed.

Lemma utf8_back b s : utf8_decode b = Some s -> utf8_encode s = Some b.
Proof. apply (utf8_back_n (List.length b)). lia. Qed.

(** ** UTF-16 *)

Lemma utf16_units_range s : forall u, utf16_units s = Some u -> Forall (fun x => 0 <= x < 65536) u.
Proof.
  induction s as [|c s IH]; intros u H; cbn [utf16_units] in H; [inversion H; constructor|].
  destruct (utf16_enc1 c) as [a|] eqn:A; [|discriminate]. destruct (utf16_units s) as [r|]; [|discriminate].
  inversion H; subst. apply Forall_app. split; [|now apply IH].
  unfold utf16_enc1 in A. destruct (c <? 0) eqn:C0; [discriminate|]. destruct (c <? 65536) eqn:C1.
  - destruct (is_surrogate c); [discriminate|]. inversion A; subst. repeat constructor; lia.
  - destruct (c <? 1114112) eqn:C2; [|discriminate]. inversion A; subst. repeat constructor; lia.
Qed.

Lemma units_there big u : Forall (fun x => 0 <= x < 65536) u -> units_of big (flat_map (unit_bytes big) u) = Some u.
Proof.
  induction 1 as [|x u H F IH]; [reflexivity|]. cbn [flat_map]. destruct big; cbn [unit_bytes app units_of]; rewrite IH; cbn [option_map];
    f_equal; f_equal; rewrite !byteZ_Zbyte; lia.
Qed.

Lemma units_back_n big n : forall b u, (List.length b <= n)%nat -> units_of big b = Some u ->
  flat_map (unit_bytes big) u = b /\ Forall (fun x => 0 <= x < 65536) u.
Proof.
  induction n as [|n IH]; intros b u L H.
  { destruct b; cbn in L; [|lia]. inversion H. split; constructor. }
  destruct b as [|x [|y b]]; [inversion H; split; constructor|discriminate|]. cbn [List.length units_of] in *.
  destruct (units_of big b) as [v|] eqn:U; [|discriminate]. cbn in H. inversion H; subst.
  destruct (IH b v ltac:(lia) U) as [E F]. pose proof (byteZ_range x). pose proof (byteZ_range y). split.
  - cbn [flat_map]. rewrite E. destruct big; cbn [unit_bytes app].
    + f_equal; [apply byte_back; lia|]. f_equal. apply byteZ_inj. rewrite byteZ_Zbyte. lia.
    + f_equal; [apply byteZ_inj; rewrite byteZ_Zbyte; lia|]. f_equal. apply byte_back. lia.
  - constructor; auto. destruct big; lia.
Qed.

Lemma chars_there s : forall u, utf16_units s = Some u -> utf16_chars u = Some s.
Proof.
  induction s as [|c s IH]; intros u H; cbn [utf16_units] in H; [inversion H; reflexivity|].
  destruct (utf16_enc1 c) as [a|] eqn:A; [|discriminate]. destruct (utf16_units s) as [r|]; [|discriminate].
  inversion H; subst. specialize (IH r eq_refl).
  unfold utf16_enc1 in A. destruct (c <? 0) eqn:C0; [discriminate|]. destruct (c <? 65536) eqn:C1.
  - destruct (is_surrogate c) eqn:SU; [discriminate|]. inversion A; subst. cbn [app utf16_chars]. now rewrite SU, IH.
  - destruct (c <? 1114112) eqn:C2; [|discriminate]. inversion A; subst. cbn [app utf16_chars].
    unfold is_surrogate. replace ((55296 <=? 55296 + (c - 65536) / 1024) && (55296 + (c - 65536) / 1024 <=? 57343)) with true by lia.
    replace (55296 + (c - 65536) / 1024 <? 56320) with true by lia.
    replace ((56320 <=? 56320 + (c - 65536) mod 1024) && (56320 + (c - 65536) mod 1024 <=? 57343)) with true by lia.
    rewrite IH. cbn [option_map]. f_equal. f_equal. lia.
Qed.

Lemma chars_back_n n : forall u s, (List.length u <= n)%nat -> Forall (fun x => 0 <= x < 65536) u ->
  utf16_chars u = Some s -> utf16_units s = Some u.
Proof.
  induction n as [|n IH]; intros u s L F H.
  { destruct u; cbn in L; [|lia]. inversion H. reflexivity. }
  destruct u as [|c u]; [inversion H; reflexivity|]. cbn [List.length utf16_chars] in *. inversion F; subst.
  destruct (is_surrogate c) eqn:SU.
  - destruct (c <? 56320) eqn:C; [|discriminate]. destruct u as [|d u]; [discriminate|].
    destruct ((56320 <=? d) && (d <=? 57343)) eqn:D; [|discriminate].
    destruct (utf16_chars u) as [r|] eqn:R; [|discriminate]. cbn in H. inversion H; subst. cbn [List.length] in L.
    inversion H3; subst. cbn [utf16_units]. rewrite (IH u r) by (auto; lia). unfold utf16_enc1, is_surrogate in *.
    set (x := 65536 + (c - 55296) * 1024 + (d - 56320)) in *.
    replace (x <? 0) with false by lia. replace (x <? 65536) with false by lia. replace (x <? 1114112) with true by lia.
    cbn [app]. f_equal. f_equal; [lia|]. f_equal. lia.
  - destruct (utf16_chars u) as [r|] eqn:R; [|discriminate]. cbn in H. inversion H; subst.
    cbn [utf16_units]. rewrite (IH u r) by (auto; lia). unfold utf16_enc1. rewrite SU.
    replace (c <? 0) with false by lia. replace (c <? 65536) with true by lia. reflexivity.
Qed.

Lemma utf16_there big s b : utf16_encode big s = Some b -> utf16_decode big b = Some s.
Proof.
  unfold utf16_encode, utf16_decode. destruct (utf16_units s) as [u|] eqn:U; [|discriminate]. cbn. intros H. inversion H; subst.
  rewrite units_there by (eapply utf16_units_range; eauto). now apply chars_there.
Qed.

Lemma utf16_back big b s : utf16_decode big b = Some s -> utf16_encode big s = Some b.
Proof.
  unfold utf16_encode, utf16_decode. destruct (units_of big b) as [u|] eqn:U; [|discriminate]. intros H.
  destruct (units_back_n big _ _ _ (le_n _) U) as [E F].
  rewrite (chars_back_n _ _ _ (le_n _) F H). cbn. now rewrite E.
Qed.

(** ** UTF-32 *)

Lemma quads_there big u : Forall (fun x => 0 <= x < 4294967296) u -> quads_of big (flat_map (quad_bytes big) u) = Some u.
Proof.
  induction 1 as [|x u H F IH]; [reflexivity|]. cbn [flat_map]. destruct big.
  - change (quad_bytes true x) with [Zbyte (x / 16777216); Zbyte (x / 65536); Zbyte (x / 256); Zbyte x].
    cbn [app quads_of]. rewrite IH. cbn [option_map]. f_equal. f_equal. rewrite !byteZ_Zbyte. lia.
  - change (quad_bytes false x) with [Zbyte x; Zbyte (x / 256); Zbyte (x / 65536); Zbyte (x / 16777216)].
    cbn [app quads_of]. rewrite IH. cbn [option_map]. f_equal. f_equal. rewrite !byteZ_Zbyte. lia.
Qed.

Lemma quads_back_n big n : forall b u, (List.length b <= n)%nat -> quads_of big b = Some u ->
  flat_map (quad_bytes big) u = b.
Proof.
  induction n as [|n IH]; intros b u L H.
  { destruct b; cbn in L; [|lia]. inversion H. reflexivity. }
  destruct b as [|x [|y [|z [|w b]]]]; try discriminate; [inversion H; reflexivity|]. cbn [List.length quads_of] in *.
  destruct (quads_of big b) as [v|] eqn:U; [|discriminate]. cbn [option_map] in H. inversion H; subst.
  pose proof (byteZ_range x). pose proof (byteZ_range y). pose proof (byteZ_range z). pose proof (byteZ_range w).
  cbn [flat_map]. rewrite (IH b v) by (auto; lia). destruct big; unfold quad_bytes; cbn [rev app].
  - f_equal; [apply byteZ_inj; rewrite byteZ_Zbyte; lia|]. f_equal; [apply byteZ_inj; rewrite byteZ_Zbyte; lia|].
    f_equal; [apply byteZ_inj; rewrite byteZ_Zbyte; lia|]. f_equal. apply byteZ_inj; rewrite byteZ_Zbyte; lia.
  - f_equal; [apply byteZ_inj; rewrite byteZ_Zbyte; lia|]. f_equal; [apply byteZ_inj; rewrite byteZ_Zbyte; lia|].
    f_equal; [apply byteZ_inj; rewrite byteZ_Zbyte; lia|]. f_equal. apply byteZ_inj; rewrite byteZ_Zbyte; lia.
Qed.

Lemma scalar_range s : forallb scalar s = true -> Forall (fun x => 0 <= x < 4294967296) s.
Proof. intros H. apply Forall_forall. intros x I. rewrite forallb_forall in H. specialize (H x I). unfold scalar in H. lia. Qed.

Lemma utf32_there big s b : utf32_encode big s = Some b -> utf32_decode big b = Some s.
Proof.
  unfold utf32_encode, utf32_decode. destruct (forallb scalar s) eqn:F; [|discriminate]. intros H. inversion H; subst.
  rewrite quads_there by now apply scalar_range. now rewrite F.
Qed.

Lemma utf32_back big b s : utf32_decode big b = Some s -> utf32_encode big s = Some b.
Proof.
  unfold utf32_encode, utf32_decode. destruct (quads_of big b) as [u|] eqn:U; [|discriminate].
  destruct (forallb scalar u) eqn:F; [|discriminate]. intros H. inversion H; subst. rewrite F. f_equal.
  eapply quads_back_n; eauto.
Qed.

(** ** All of them *)

Lemma encode_decode enc s b : known enc -> (encode enc s = Some b <-> decode enc b = Some s).
Proof.
  intros K. cbn in K.
  destruct K as [<-|[<-|[<-|[<-|[<-|[<-|[<-|[<-|[]]]]]]]]]; unfold encode, decode; cbn [String.eqb Ascii.eqb Bool.eqb orb]; split; intros H.
  - eapply narrow_there; eauto. lia.
  - eapply narrow_back; eauto.
  - eapply narrow_there; eauto. lia.
  - eapply narrow_back; eauto.
  - now apply utf8_there.
  - now apply utf8_back.
  - now apply utf8_there.
  - now apply utf8_back.
  - now apply utf16_there.
  - now apply utf16_back.
  - now apply utf16_there.
  - now apply utf16_back.
  - now apply utf32_there.
  - now apply utf32_back.
  - now apply utf32_there.
  - now apply utf32_back.
Qed.
