(** Singles as doubles. *)
From Coq Require Import String List ZArith Bool Lia.
From Verif Require Import Base Ieee PyVal PyStruct DataTypes DataMaps.
From Verif Require Import BytesProofs SpecPrim PrimProofs IeeeProofs SpecMap SpecCreate SpecReads.
Import ListNotations.
Open Scope Z_scope.
Arguments Z.pow : simpl never.
Arguments Z.mul : simpl never.
Arguments Z.add : simpl never.
Arguments Z.sub : simpl never.
Arguments Z.div : simpl never.
Arguments Z.modulo : simpl never.

Lemma sign_fields mb eb neg E M : 0 <= mb -> 0 <= eb -> 0 <= M < 2 ^ mb -> 0 <= E < 2 ^ eb ->
  let w := with_sign mb eb neg (E * 2 ^ mb + M) in
  w / 2 ^ (mb + eb) = Z.b2z neg /\ (w / 2 ^ mb) mod 2 ^ eb = E /\ w mod 2 ^ mb = M.
Proof.
  intros Hm He HM HE w. pose proof (pow2_pos mb Hm). pose proof (pow2_pos eb He).
  assert (HP : 2 ^ (mb + eb) = 2 ^ eb * 2 ^ mb) by (rewrite Z.pow_add_r by lia; lia).
  assert (Hr : 0 <= E * 2 ^ mb + M < 2 ^ (mb + eb)) by (rewrite HP; nia).
  assert (W : w = (Z.b2z neg * 2 ^ eb + E) * 2 ^ mb + M).
  { unfold w, with_sign. rewrite HP. destruct neg; cbn [Z.b2z]; lia. }
  assert (W1 : w / 2 ^ mb = Z.b2z neg * 2 ^ eb + E /\ w mod 2 ^ mb = M) by (rewrite W; apply div_mod_fields; lia).
  destruct W1 as [W1 W2]. repeat split; auto.
  - unfold w, with_sign. destruct neg; cbn [Z.b2z].
    + symmetry. apply (Z.div_unique _ _ _ (E * 2 ^ mb + M)); lia.
    + apply Z.div_small. lia.
  - rewrite W1. destruct (div_mod_fields (Z.b2z neg) (2 ^ eb) E) as [_ ->]; auto; lia.
Qed.

Lemma lor_quiet p : 0 <= p < 2 ^ 23 -> Z.lor (p * 2 ^ 29) (2 ^ 51) = (2 ^ 22 + p mod 2 ^ 22) * 2 ^ 29.
Proof.
  intros H. change (2 ^ 51) with (2 ^ 22 * 2 ^ 29). rewrite <- !Z.shiftl_mul_pow2 by lia.
  rewrite <- Z.shiftl_lor. f_equal.
  pose proof (Z.mod_pos_bound p (2 ^ 22) ltac:(lia)).
  destruct (Z.lt_ge_cases p (2 ^ 22)) as [L|L].
  - rewrite (Z.mod_small p) by lia. rewrite Z.lor_comm. rewrite Z.add_nocarry_lxor, Z.lxor_lor; auto.
    + apply Z.bits_inj'. intros n Hn. rewrite Z.land_spec, Z.pow2_bits_eqb, Z.bits_0 by lia.
      destruct (Z.eqb_spec 22 n); auto. subst n. rewrite andb_true_l.
      destruct (Z.eq_dec p 0) as [->|]; [now rewrite ?Z.bits_0|].
      apply Z.bits_above_log2; [lia|]. apply Z.log2_lt_pow2; lia.
    + apply Z.bits_inj'. intros n Hn. rewrite Z.land_spec, Z.pow2_bits_eqb, Z.bits_0 by lia.
      destruct (Z.eqb_spec 22 n); auto. subst n. rewrite andb_true_l.
      destruct (Z.eq_dec p 0) as [->|]; [now rewrite ?Z.bits_0|].
      apply Z.bits_above_log2; [lia|]. apply Z.log2_lt_pow2; lia.
  - rewrite lor_high; [|lia|change (2 ^ (22 + 1)) with (2 ^ 23); lia].
    replace (p mod 2 ^ 22) with (p - 2 ^ 22); [lia|]. apply (Z.mod_unique _ _ 1); [lia|]. change (2 ^ 23) with (2 * 2 ^ 22) in H. lia.
Qed.

Lemma widened_f32 b : 0 <= b < 2 ^ 32 -> widened b (f32_to_f64 b).
Proof.
  intros Hb. split; [now apply f32_to_f64_range|].
  destruct (split_fields 23 8 b) as [neg Hs]; [lia|lia|exact Hb|].
  change (2 ^ 8) with 256 in Hs. unfold single_exponent, single_mantissa, single_units.
  unfold single_exponent, single_mantissa, finite_double, double_units, double_exponent, double_mantissa.
  pose proof (Z.mod_pos_bound (b / 2 ^ 23) 256 ltac:(lia)) as HE.
  pose proof (Z.mod_pos_bound b (2 ^ 23) ltac:(lia)) as HM.
  assert (SB : b / 2 ^ 31 = Z.b2z neg).
  { rewrite Hs at 1. change 31 with (23 + 8). apply sign_fields; [lia|lia|lia|]. change (2 ^ 8) with 256. lia. }
  rewrite SB.
  set (E := (b / 2 ^ 23) mod 256) in *. set (M := b mod 2 ^ 23) in *.
  rewrite Hs. clearbody E M. clear Hb SB Hs b.
  unfold f32_to_f64. rewrite decode_fields by (change (2 ^ 8) with 256; lia).
  change (2 ^ 8 - 1) with 255. change (2 - 2 ^ (8 - 1) - 23) with (-149). change (2 ^ (8 - 1)) with 128.
  assert (SF : forall E' M', 0 <= M' < 2 ^ 52 -> 0 <= E' < 2048 ->
     let w := with_sign 52 11 neg (E' * 2 ^ 52 + M') in
     w / 2 ^ 63 = Z.b2z neg /\ (w / 2 ^ 52) mod 2048 = E' /\ w mod 2 ^ 52 = M')
    by (intros E' M' H1 H2; apply (sign_fields 52 11); [lia|lia|auto|change (2 ^ 11) with 2048; auto]).
  destruct (Z.eqb_spec E 255) as [->|NE].
  - destruct (Z.eqb_spec M 0) as [->|NM].
    + replace (2047 * 2 ^ 52) with (2047 * 2 ^ 52 + 0) by lia.
      destruct (SF 2047 0 ltac:(lia) ltac:(lia)) as (-> & -> & ->). split; auto. split; [congruence|auto].
    + rewrite lor_quiet by lia. pose proof (Z.mod_pos_bound M (2 ^ 22) ltac:(lia)).
      destruct (SF 2047 ((2 ^ 22 + M mod 2 ^ 22) * 2 ^ 29)) as (-> & -> & ->);
        [change (2 ^ 52) with (2 * 2 ^ 22 * 2 ^ 29); lia|lia|].
      split; auto. split; [congruence|]. intros _. split; auto.
  - assert (FIN : forall m e, 0 <= m < 2 ^ 24 -> -149 <= e <= 104 ->
       let w := with_sign 52 11 neg (match ieee_round 52 11 m e with Some b => b | None => 0 end) in
       w / 2 ^ 63 = Z.b2z neg /\ (w / 2 ^ 52) mod 2048 <> 2047 /\
       (if (w / 2 ^ 52) mod 2048 =? 0 then w mod 2 ^ 52
        else (2 ^ 52 + w mod 2 ^ 52) * 2 ^ ((w / 2 ^ 52) mod 2048 - 1)) = m * 2 ^ (e + 149) * 2 ^ (1074 - 149)).
    { intros m e Hm He. cbv zeta. destruct (Z.eq_dec m 0) as [->|NZ].
      - destruct (SF 0 0 ltac:(lia) ltac:(lia)) as (A & B & C). cbn [ieee_round Z.eqb].
        change (0 * 2 ^ 52 + 0) with 0 in *. rewrite A, B, C. repeat split; auto. lia.
      - destruct (widen_finite m e ltac:(lia) He) as (E' & M' & -> & HM' & HE' & Hq & HE'').
        destruct (SF E' M' ltac:(lia) ltac:(lia)) as (-> & -> & ->). split; auto. split; [lia|].
        destruct (Z.eqb_spec E' 0); [lia|]. rewrite Hq, <- !Z.mul_assoc, <- !Z.pow_add_r; [f_equal; f_equal; lia|lia|lia| |lia].
        assert (Z.log2 m < 24) by (apply Z.log2_lt_pow2; lia). lia. }
    destruct (Z.eqb_spec E 0) as [->|NZ].
    + destruct (FIN M (-149) ltac:(change (2 ^ 24) with (2 * 2 ^ 23); lia) ltac:(lia)) as (A & B & C). split; auto.
      split; [|congruence]. intros _. split; auto. rewrite C. change (-149 + 149) with 0. change (2 ^ 0) with 1. lia.
    + destruct (FIN (2 ^ 23 + M) (E + 1 - 128 - 23) ltac:(change (2 ^ 24) with (2 * 2 ^ 23); lia) ltac:(lia)) as (A & B & C). split; auto.
      split; [|congruence]. intros _. split; auto. rewrite C. do 3 f_equal. lia.
Qed.

Lemma double_units_inj a b : finite_double a -> finite_double b -> double_units a = double_units b ->
  double_exponent a = double_exponent b /\ double_mantissa a = double_mantissa b.
Proof.
  unfold double_units.
  assert (R : forall x, 0 <= double_exponent x /\ 0 <= double_mantissa x < 2 ^ 52).
  { intros x. unfold double_exponent, double_mantissa. split; [apply Z.mod_pos_bound; lia|apply Z.mod_pos_bound; lia]. }
  intros _ _. destruct (R a) as [Ea Ma], (R b) as [Eb Mb].
  set (ea := double_exponent a) in *. set (eb := double_exponent b) in *.
  set (ma := double_mantissa a) in *. set (mb := double_mantissa b) in *. clearbody ea eb ma mb.
  assert (LG : forall e m, 0 < e -> 0 <= m < 2 ^ 52 ->
     2 ^ 52 * 2 ^ (e - 1) <= (2 ^ 52 + m) * 2 ^ (e - 1) < 2 ^ 52 * 2 ^ e).
  { intros e m He Hm. pose proof (pow2_pos (e - 1) ltac:(lia)).
    replace (2 ^ e) with (2 * 2 ^ (e - 1)) by (rewrite <- Z.pow_succ_r by lia; f_equal; lia). nia. }
  assert (MO : forall x y, 0 <= x < y -> 2 ^ x <= 2 ^ (y - 1)) by (intros; apply Z.pow_le_mono_r; lia).
  destruct (Z.eqb_spec ea 0), (Z.eqb_spec eb 0); intros Q.
  - subst. auto.
  - pose proof (LG eb mb ltac:(lia) Mb). pose proof (pow2_pos (eb - 1) ltac:(lia)). nia.
  - pose proof (LG ea ma ltac:(lia) Ma). pose proof (pow2_pos (ea - 1) ltac:(lia)). nia.
  - pose proof (LG ea ma ltac:(lia) Ma). pose proof (LG eb mb ltac:(lia) Mb).
    assert (ea = eb).
    { destruct (Z.lt_trichotomy ea eb) as [L|[L|L]]; auto.
      - pose proof (MO ea eb ltac:(lia)). nia.
      - pose proof (MO eb ea ltac:(lia)). nia. }
    subst eb. split; auto. pose proof (pow2_pos (ea - 1) ltac:(lia)). nia.
Qed.

Lemma widened_unique b w w' : widened b w -> widened b w' -> w = w'.
Proof.
  intros (R & S & F & I) (R' & S' & F' & I').
  assert (K : double_exponent w = double_exponent w' /\ double_mantissa w = double_mantissa w').
  { destruct (Z.eq_dec (single_exponent b) 255) as [E|E].
    - destruct (I E), (I' E). split; congruence.
    - destruct (F E), (F' E). apply double_units_inj; auto. congruence. }
  destruct K as [K1 K2]. unfold double_exponent, double_mantissa in *.
  assert (D : forall x, 0 <= x < 2 ^ 64 -> x = (x / 2 ^ 63) * 2 ^ 63 + ((x / 2 ^ 52) mod 2048) * 2 ^ 52 + x mod 2 ^ 52).
  { intros x Hx. pose proof (Z.div_mod x (2 ^ 52) ltac:(lia)). pose proof (Z.div_mod (x / 2 ^ 52) 2048 ltac:(lia)).
    rewrite Z.div_div in H0 by lia. change (2 ^ 52 * 2048) with (2 ^ 63) in H0. lia. }
  rewrite (D w R), (D w' R'). congruence.
Qed.

(** C04: the value that a single maps to. *)
Lemma single_value orc f : sized f 4 ->
  exists m, create orc (DFloat f) None = Ok (Some m) /\
    forall fuel bs off c depth, 0 <= off -> off + 4 <= len bs ->
      exists w, fst (mapbs orc fuel m bs off c depth) = Ok (VFloat w) /\
        forall w', widened (stored_number (order_on (o_host orc) (f_bo f)) (window bs off 4)) w' <-> w' = w.
Proof.
  intros S. eexists. split; [apply (create_float orc f 4); cbn; auto|].
  intros fuel bs off c depth Ho Hl. rewrite (map_float orc fuel f 4) by (cbn; auto).
  eexists. split; [reflexivity|]. change (4 =? 4) with true. cbn match.
  assert (W : widened (stored_number (order_on (o_host orc) (f_bo f)) (window bs off 4))
     (f32_to_f64 (stored_number (order_on (o_host orc) (f_bo f)) (window bs off 4)))).
  { apply widened_f32. apply (stored_number_range _ _ 4). rewrite len_window; lia. }
  intros w'. split; [intros W'; eapply widened_unique; eauto|intros ->; exact W].
Qed.
