(** Proofs about the IEEE 754 conversions. *)
From Coq Require Import String List ZArith Bool Lia.
From Verif Require Import Base Ieee PyVal PyStruct DataTypes DataMaps.
From Verif Require Import BytesProofs SpecPrim PrimProofs.
Import ListNotations.
Open Scope Z_scope.
Arguments Z.pow : simpl never.
Arguments Z.mul : simpl never.
Arguments Z.add : simpl never.
Arguments Z.sub : simpl never.

Lemma pow2_pos n : 0 <= n -> 0 < 2 ^ n.
Proof. intros; apply Z.pow_pos_nonneg; lia. Qed.

Lemma div_mod_fields a b r : 0 < b -> 0 <= r < b -> (a * b + r) / b = a /\ (a * b + r) mod b = r.
Proof.
  intros. split.
  - symmetry. apply (Z.div_unique _ _ _ r); lia.
  - symmetry. apply (Z.mod_unique _ _ a); lia.
Qed.

(** Decoding a pattern given by its fields. *)
Lemma decode_fields mb eb neg E M :
  0 <= mb -> 0 <= eb -> 0 <= M < 2 ^ mb -> 0 <= E < 2 ^ eb ->
  ieee_decode mb eb (with_sign mb eb neg (E * 2 ^ mb + M)) =
  if E =? 2 ^ eb - 1 then (if M =? 0 then FInf neg else FNan neg M)
  else if E =? 0 then FFin neg M (2 - 2 ^ (eb - 1) - mb)
  else FFin neg (2 ^ mb + M) (E + 1 - 2 ^ (eb - 1) - mb).
Proof.
  intros Hmb Heb HM HE. unfold ieee_decode.
  pose proof (pow2_pos mb Hmb). pose proof (pow2_pos eb Heb).
  assert (HP : 2 ^ (mb + eb) = 2 ^ eb * 2 ^ mb) by (rewrite Z.pow_add_r by lia; lia).
  assert (Hr : 0 <= E * 2 ^ mb + M < 2 ^ (mb + eb)) by (rewrite HP; nia).
  assert (Hm : with_sign mb eb neg (E * 2 ^ mb + M) mod 2 ^ (mb + eb) = E * 2 ^ mb + M).
  { unfold with_sign. destruct neg; [|apply Z.mod_small; lia].
    symmetry. apply (Z.mod_unique _ _ 1); lia. }
  assert (Hn : (2 ^ (mb + eb) <=? with_sign mb eb neg (E * 2 ^ mb + M)) = neg).
  { unfold with_sign. destruct neg; [apply Z.leb_le; lia|apply Z.leb_gt; lia]. }
  rewrite Hm, Hn. destruct (div_mod_fields E (2 ^ mb) M) as [-> ->]; auto.
Qed.

(** Every pattern is given by its fields. *)
Lemma split_fields mb eb b :
  0 <= mb -> 0 <= eb -> 0 <= b < 2 ^ (mb + eb + 1) ->
  exists neg, b = with_sign mb eb neg (((b / 2 ^ mb) mod 2 ^ eb) * 2 ^ mb + b mod 2 ^ mb).
Proof.
  intros Hmb Heb Hb. pose proof (pow2_pos mb Hmb). pose proof (pow2_pos eb Heb).
  assert (HP : 2 ^ (mb + eb + 1) = 2 * (2 ^ eb * 2 ^ mb)).
  { rewrite !Z.pow_add_r by lia. lia. }
  rewrite HP in Hb.
  pose proof (Z.div_mod b (2 ^ mb) ltac:(lia)) as E1.
  pose proof (Z.mod_pos_bound b (2 ^ mb) ltac:(lia)).
  set (q := b / 2 ^ mb) in *. set (r := b mod 2 ^ mb) in *.
  assert (Hq : 0 <= q < 2 * 2 ^ eb) by nia.
  exists (2 ^ eb <=? q). unfold with_sign. rewrite Z.pow_add_r by lia.
  destruct (Z.leb_spec (2 ^ eb) q).
  - replace (q mod 2 ^ eb) with (q - 2 ^ eb); [lia|].
    apply (Z.mod_unique _ _ 1); lia.
  - rewrite Z.mod_small by lia. lia.
Qed.

Lemma round_shift_exact m k : 0 < k -> round_shift (m * 2 ^ k) k = m.
Proof.
  intros. unfold round_shift. pose proof (pow2_pos k ltac:(lia)).
  rewrite Z.div_mul, Z.mod_mul by lia.
  destruct (Z.ltb_spec 0 (2 ^ (k - 1))); [reflexivity|].
  pose proof (pow2_pos (k - 1) ltac:(lia)). lia.
Qed.

Lemma log2_range m k : 0 <= k -> 2 ^ k <= m < 2 ^ (k + 1) -> Z.log2 m = k.
Proof. intros. apply Z.log2_unique; [lia|]. now rewrite <- Z.add_1_r. Qed.

Lemma log2_scale m k : 0 < m -> 0 <= k -> Z.log2 (m * 2 ^ k) = Z.log2 m + k.
Proof. intros. rewrite Z.log2_mul_pow2 by lia. lia. Qed.

(** Exact widening of a finite single with significand [m] and exponent [e]. *)
Lemma widen_finite m e :
  0 < m < 2 ^ 24 -> -149 <= e <= 104 ->
  exists E M, ieee_round 52 11 m e = Some (E * 2 ^ 52 + M) /\ 0 <= M < 2 ^ 52 /\ 0 < E < 2047 /\
    2 ^ 52 + M = m * 2 ^ (52 - Z.log2 m) /\ E = Z.log2 m + e + 1023.
Proof.
  intros Hm He.
  assert (Hl : 0 <= Z.log2 m <= 23).
  { split; [apply Z.log2_nonneg|]. enough (Z.log2 m < 24) by lia. apply Z.log2_lt_pow2; lia. }
  pose proof (Z.log2_spec m ltac:(lia)) as Hs.
  set (l := Z.log2 m) in *.
  assert (Hq : 2 ^ 52 <= m * 2 ^ (52 - l) < 2 ^ 53).
  { replace 52 with (l + (52 - l)) at 1 by lia. rewrite Z.pow_add_r by lia.
    replace 53 with (Z.succ l + (52 - l)) by lia. rewrite Z.pow_add_r by lia.
    pose proof (pow2_pos (52 - l) ltac:(lia)). nia. }
  exists (l + e + 1023), (m * 2 ^ (52 - l) - 2 ^ 52).
  change (2 ^ 53) with (2 * 2 ^ 52) in Hq.
  split; [|repeat split; lia].
  unfold ieee_round. destruct (Z.eqb_spec m 0); [lia|]. fold l.
  change (2 - 2 ^ (11 - 1) - 52) with (-1074).
  rewrite Z.max_r by lia.
  destruct (Z.leb_spec (l + e - 52) e); [|lia].
  replace (e - (l + e - 52)) with (52 - l) by lia.
  change (2 ^ 11 - 1) with 2047.
  destruct (Z.leb_spec (2047 * 2 ^ 52) ((l + e - 52 - -1074) * 2 ^ 52 + m * 2 ^ (52 - l))).
  - exfalso. assert ((l + e - 52 - -1074) <= 1149) by lia. nia.
  - f_equal. lia.
Qed.

Lemma lor_high p k : 0 <= k -> 2 ^ k <= p < 2 ^ (k + 1) -> Z.lor p (2 ^ k) = p.
Proof.
  intros Hk Hp. apply Z.bits_inj'. intros n Hn. rewrite Z.lor_spec, Z.pow2_bits_eqb by lia.
  destruct (Z.eqb_spec k n); [|apply orb_false_r]. subst n.
  rewrite orb_true_r. symmetry. rewrite <- (log2_range p k) by assumption.
  apply Z.bit_log2. pose proof (pow2_pos k Hk). lia.
Qed.

(** Widening then narrowing is the identity except on signalling NaNs. *)
Lemma f32_round_trip b :
  0 <= b < 2 ^ 32 -> ~ signalling_single b -> f64_to_f32 (f32_to_f64 b) = Some b.
Proof.
  intros Hb Hq. destruct (split_fields 23 8 b) as [neg Hs]; [lia|lia|exact Hb|].
  unfold signalling_single, single_exponent, single_mantissa in Hq.
  change (2 ^ 8) with 256 in Hs.
  pose proof (Z.mod_pos_bound (b / 2 ^ 23) 256 ltac:(lia)) as HE.
  pose proof (Z.mod_pos_bound b (2 ^ 23) ltac:(lia)) as HM.
  set (E := (b / 2 ^ 23) mod 256) in *. set (M := b mod 2 ^ 23) in *.
  rewrite Hs. clearbody E M. clear Hb.
  unfold f32_to_f64. rewrite decode_fields by (change (2 ^ 8) with 256; lia).
  change (2 ^ 8 - 1) with 255. change (2 - 2 ^ (8 - 1) - 23) with (-149).
  destruct (Z.eqb_spec E 255) as [->|HE255].
  - destruct (Z.eqb_spec M 0) as [->|HM0].
    + unfold f64_to_f32.
      replace (2047 * 2 ^ 52) with (2047 * 2 ^ 52 + 0) by lia.
      rewrite decode_fields by (change (2 ^ 11) with 2048; lia).
      change (2 ^ 11 - 1) with 2047. rewrite !Z.eqb_refl.
      reflexivity.
    + assert (HMq : 2 ^ 22 <= M < 2 ^ 23) by lia.
      unfold f64_to_f32.
      rewrite lor_high; [|lia|change (2 ^ 51) with (2 ^ 22 * 2 ^ 29); change (2 ^ (51 + 1)) with (2 ^ 23 * 2 ^ 29); lia].
      rewrite decode_fields;
        [|lia|lia|change (2 ^ 52) with (2 ^ 23 * 2 ^ 29); lia|change (2 ^ 11) with 2048; lia].
      change (2 ^ 11 - 1) with 2047. rewrite Z.eqb_refl.
      destruct (Z.eqb_spec (M * 2 ^ 29) 0); [lia|].
      rewrite Z.div_mul by lia. rewrite lor_high; [reflexivity|lia|].
      change (2 ^ (22 + 1)) with (2 ^ 23). lia.
  - assert (Hfin : forall m e k', 0 < m < 2 ^ 24 -> -149 <= e <= 104 ->
        Z.max (-149) (Z.log2 m + e - 23) = e ->
        k' = (e + 149) * 2 ^ 23 + m -> k' < 255 * 2 ^ 23 ->
        f64_to_f32 (with_sign 52 11 neg (match ieee_round 52 11 m e with Some b => b | None => 0 end))
        = Some (with_sign 23 8 neg k')).
    { intros m e k' Hm He Hk -> Hov.
      destruct (widen_finite m e Hm He) as (E' & M' & -> & HM' & HE' & Hq' & HE'').
      unfold f64_to_f32. rewrite decode_fields by (change (2 ^ 11) with 2048; lia).
      change (2 ^ 11 - 1) with 2047. change (2 ^ (11 - 1)) with 1024.
      destruct (Z.eqb_spec E' 2047); [lia|]. destruct (Z.eqb_spec E' 0); [lia|].
      rewrite Hq'. replace (E' + 1 - 1024 - 52) with (Z.log2 m + e - 52) by lia.
      assert (Hl : 0 <= Z.log2 m <= 23).
      { split; [apply Z.log2_nonneg|]. enough (Z.log2 m < 24) by lia. apply Z.log2_lt_pow2; lia. }
      unfold ieee_round. pose proof (pow2_pos (52 - Z.log2 m) ltac:(lia)).
      destruct (Z.eqb_spec (m * 2 ^ (52 - Z.log2 m)) 0); [lia|].
      rewrite log2_scale by lia. change (2 - 2 ^ (8 - 1) - 23) with (-149).
      replace (Z.log2 m + (52 - Z.log2 m) + (Z.log2 m + e - 52) - 23) with (Z.log2 m + e - 23) by lia.
      rewrite Hk. destruct (Z.leb_spec e (Z.log2 m + e - 52)); [lia|].
      replace (e - (Z.log2 m + e - 52)) with (52 - Z.log2 m) by lia.
      rewrite round_shift_exact by lia. change (2 ^ 8 - 1) with 255.
      destruct (Z.leb_spec (255 * 2 ^ 23) ((e - -149) * 2 ^ 23 + m)); [lia|].
      cbn [option_map]. reflexivity. }
    destruct (Z.eqb_spec E 0) as [->|HE0].
    + destruct (Z.eq_dec M 0) as [->|HM0].
      * destruct neg; reflexivity.
      * apply Hfin; try lia.
        assert (Z.log2 M < 23) by (apply Z.log2_lt_pow2; lia). lia.
    + replace (E + 1 - 2 ^ (8 - 1) - 23) with (E - 150) by (change (2 ^ (8 - 1)) with 128; lia).
      assert (Hl : Z.log2 (2 ^ 23 + M) = 23) by (apply log2_range; [lia|]; change (2 ^ (23 + 1)) with (2 * 2 ^ 23); lia).
      apply Hfin; try lia.
Qed.

Lemma f32_to_f64_range b : 0 <= b < 2 ^ 32 -> 0 <= f32_to_f64 b < 2 ^ 64.
Proof.
  intros Hb. destruct (split_fields 23 8 b) as [neg Hs]; [lia|lia|exact Hb|].
  change (2 ^ 8) with 256 in Hs.
  pose proof (Z.mod_pos_bound (b / 2 ^ 23) 256 ltac:(lia)) as HE.
  pose proof (Z.mod_pos_bound b (2 ^ 23) ltac:(lia)) as HM.
  set (E := (b / 2 ^ 23) mod 256) in *. set (M := b mod 2 ^ 23) in *.
  rewrite Hs. clearbody E M.
  assert (Hw : forall r, 0 <= r < 2 ^ 63 -> 0 <= with_sign 52 11 neg r < 2 ^ 64).
  { intros r Hr. unfold with_sign. change (2 ^ (52 + 11)) with (2 ^ 63).
    change (2 ^ 64) with (2 * 2 ^ 63). destruct neg; lia. }
  unfold f32_to_f64. rewrite decode_fields by (change (2 ^ 8) with 256; lia).
  change (2 ^ 8 - 1) with 255. change (2 - 2 ^ (8 - 1) - 23) with (-149).
  assert (Hfin : forall m e, 0 <= m < 2 ^ 24 -> -149 <= e <= 104 ->
     0 <= match ieee_round 52 11 m e with Some b => b | None => 0 end < 2 ^ 63).
  { intros m e Hm He. destruct (Z.eq_dec m 0) as [->|]; [cbn; lia|].
    destruct (widen_finite m e ltac:(lia) He) as (E' & M' & -> & HM' & HE' & _).
    change (2 ^ 63) with (2048 * 2 ^ 52). nia. }
  destruct (Z.eqb_spec E 255); [destruct (Z.eqb_spec M 0)|destruct (Z.eqb_spec E 0)]; apply Hw.
  - change (2 ^ 63) with (2048 * 2 ^ 52). lia.
  - assert (0 <= Z.lor (M * 2 ^ 29) (2 ^ 51) < 2 ^ 52).
    { split; [apply Z.lor_nonneg; lia|].
      destruct (Z.eq_dec (Z.lor (M * 2 ^ 29) (2 ^ 51)) 0) as [->|]; [lia|].
      assert (0 <= Z.lor (M * 2 ^ 29) (2 ^ 51)) by (apply Z.lor_nonneg; lia).
      apply Z.log2_lt_pow2; [lia|]. rewrite Z.log2_lor by lia.
      apply Z.max_lub_lt; [|reflexivity].
      assert (0 < M) by lia. rewrite log2_scale by lia.
      assert (Z.log2 M < 23) by (apply Z.log2_lt_pow2; lia). lia. }
    change (2 ^ 63) with (2048 * 2 ^ 52). lia.
  - apply Hfin; lia.
  - apply Hfin; [change (2 ^ 24) with (2 * 2 ^ 23); lia|].
    change (2 ^ (8 - 1)) with 128. lia.
Qed.

(** Rounding of m / 2^k against 2^n - 1/2. *)
Lemma round_shift_ge m k n :
  0 < k -> 0 < n -> 0 <= m ->
  (2 ^ n <= round_shift m k <-> (2 ^ (n + 1) - 1) * 2 ^ (k - 1) <= m).
Proof.
  intros Hk Hn Hm. unfold round_shift.
  pose proof (pow2_pos (k - 1) ltac:(lia)) as Hh.
  assert (Ek : 2 ^ k = 2 * 2 ^ (k - 1)) by (rewrite <- Z.pow_succ_r by lia; f_equal; lia).
  pose proof (Z.div_mod m (2 ^ k) ltac:(lia)) as Ed.
  pose proof (Z.mod_pos_bound m (2 ^ k) ltac:(lia)) as Hr.
  rewrite Z.pow_add_r by lia. change (2 ^ 1) with 2.
  set (q := m / 2 ^ k) in *. set (r := m mod 2 ^ k) in *. set (h := 2 ^ (k - 1)) in *.
  assert (He : Z.even (2 ^ n - 1) = false).
  { replace n with (1 + (n - 1)) by lia. rewrite Z.pow_add_r by lia. change (2 ^ 1) with 2.
    rewrite Z.even_sub, Z.even_mul. reflexivity. }
  set (N := 2 ^ n) in *. rewrite Ek in *.
  destruct (Z.ltb_spec r h).
  - split; intros; nia.
  - destruct (Z.ltb_spec h r).
    + split; intros; nia.
    + assert (r = h) by lia. destruct (Z.even q) eqn:Eq.
      * assert (q <> N - 1) by (intros ->; congruence). split; intros; nia.
      * split; intros; nia.
Qed.

Lemma round_shift_upper m k n : 0 < k -> 0 <= n -> 0 <= m < 2 ^ (n + k) -> round_shift m k <= 2 ^ n.
Proof.
  intros Hk Hn Hm. unfold round_shift.
  pose proof (pow2_pos k ltac:(lia)).
  assert (m / 2 ^ k < 2 ^ n).
  { apply Z.div_lt_upper_bound; [lia|]. rewrite <- Z.pow_add_r by lia. rewrite Z.add_comm. lia. }
  destruct (_ <? _); [lia|]. destruct (_ <? _); [lia|]. destruct (Z.even _); lia.
Qed.

Lemma round_shift_nonneg m k : 0 <= k -> 0 <= m -> 0 <= round_shift m k.
Proof.
  intros Hk Hm. unfold round_shift. pose proof (pow2_pos k Hk).
  pose proof (Z.div_pos m (2 ^ k) ltac:(lia) ltac:(lia)).
  destruct (_ <? _); [lia|]. destruct (_ <? _); [lia|]. destruct (Z.even _); lia.
Qed.

(** Overflow when narrowing. *)
Lemma narrow_overflow b :
  0 <= b < 2 ^ 64 -> (f64_to_f32 b = None <-> too_large_for_single b).
Proof.
  intros Hb. destruct (split_fields 52 11 b) as [neg Hs]; [lia|lia|exact Hb|].
  unfold too_large_for_single, finite_double, double_units, double_exponent, double_mantissa.
  change (2 ^ 11) with 2048 in Hs.
  pose proof (Z.mod_pos_bound (b / 2 ^ 52) 2048 ltac:(lia)) as HE.
  pose proof (Z.mod_pos_bound b (2 ^ 52) ltac:(lia)) as HM.
  set (E := (b / 2 ^ 52) mod 2048) in *. set (M := b mod 2 ^ 52) in *.
  rewrite Hs. clearbody E M. clear Hb.
  unfold f64_to_f32. rewrite decode_fields by (change (2 ^ 11) with 2048; lia).
  change (2 ^ 11 - 1) with 2047. change (2 - 2 ^ (11 - 1) - 52) with (-1074).
  destruct (Z.eqb_spec E 2047) as [->|HE2].
  { destruct (Z.eqb_spec M 0); split; intros H; [discriminate|destruct H; congruence|discriminate|destruct H; congruence]. }
  destruct (Z.eqb_spec E 0) as [->|HE0].
  - (* subnormal doubles are tiny *)
    split.
    + intros H. exfalso. revert H. unfold ieee_round.
      destruct (Z.eqb_spec M 0); [discriminate|]. change (2 - 2 ^ (8 - 1) - 23) with (-149).
      assert (Z.log2 M < 52) by (apply Z.log2_lt_pow2; lia).
      rewrite Z.max_l by lia. destruct (Z.leb_spec (-149) (-1074)); [lia|].
      change (-149 - -1074) with 925.
      pose proof (round_shift_upper M 925 0 ltac:(lia) ltac:(lia)) as Hu.
      change (2 ^ 8 - 1) with 255. change (-149 - -149) with 0.
      assert (round_shift M 925 <= 1).
      { apply Hu. split; [lia|]. apply Z.lt_trans with (2 ^ 52); [lia|reflexivity]. }
      destruct (Z.leb_spec (255 * 2 ^ 23) (0 * 2 ^ 23 + round_shift M 925)); [|discriminate].
      lia.
    + intros [_ H]. exfalso.
      assert (2 ^ 52 <= (2 ^ 25 - 1) * 2 ^ 103 * 2 ^ 1074) by (vm_compute; discriminate). lia.
  - set (m := 2 ^ 52 + M) in *.
    assert (Hm : 2 ^ 52 <= m < 2 ^ 53) by (change (2 ^ 53) with (2 * 2 ^ 52); lia).
    replace (E + 1 - 2 ^ (11 - 1) - 52) with (E - 1075) by (change (2 ^ (11 - 1)) with 1024; lia).
    unfold ieee_round. destruct (Z.eqb_spec m 0); [lia|].
    rewrite (log2_range m 52) by (change (52 + 1) with 53; lia).
    change (2 - 2 ^ (8 - 1) - 23) with (-149). change (2 ^ 8 - 1) with 255.
    set (k := Z.max (-149) (52 + (E - 1075) - 23)).
    destruct (Z.leb_spec k (E - 1075)); [lia|].
    set (s := k - (E - 1075)). assert (Hs29 : 29 <= s) by lia.
    pose proof (round_shift_upper m s 24 ltac:(lia) ltac:(lia)) as Hu.
    assert (Hms : m < 2 ^ (24 + s)).
    { apply Z.lt_le_trans with (2 ^ 53); [lia|]. apply Z.pow_le_mono_r; lia. }
    specialize (Hu ltac:(lia)).
    pose proof (round_shift_nonneg m s ltac:(lia) ltac:(lia)) as Hnn.
    assert (HN : option_map (with_sign 23 8 neg)
       (if 255 * 2 ^ 23 <=? (k - -149) * 2 ^ 23 + round_shift m s then None
        else Some ((k - -149) * 2 ^ 23 + round_shift m s)) = None
       <-> 255 * 2 ^ 23 <= (k - -149) * 2 ^ 23 + round_shift m s).
    { destruct (Z.leb_spec (255 * 2 ^ 23) ((k - -149) * 2 ^ 23 + round_shift m s));
        split; intros; try reflexivity; try lia; discriminate. }
    rewrite HN. clear HN. change (2 ^ 24) with (2 * 2 ^ 23) in Hu.
    assert (HU : (E <> 2047 /\ (2 ^ 25 - 1) * 2 ^ 103 * 2 ^ 1074 <= m * 2 ^ (E - 1))
                 <-> (2 ^ 25 - 1) * 2 ^ 103 * 2 ^ 1074 <= m * 2 ^ (E - 1)) by tauto.
    rewrite HU. clear HU.
    destruct (Z_lt_le_dec k 104) as [Hk|Hk].
    + (* too small *)
      split; intros H1; exfalso.
      * nia.
      * assert (m * 2 ^ (E - 1) < 2 ^ 53 * 2 ^ 1148).
        { assert (2 ^ (E - 1) <= 2 ^ 1148) by (apply Z.pow_le_mono_r; lia).
          pose proof (pow2_pos (E - 1) ltac:(lia)). nia. }
        assert (2 ^ 53 * 2 ^ 1148 <= (2 ^ 25 - 1) * 2 ^ 103 * 2 ^ 1074) by (vm_compute; discriminate).
        lia.
    + assert (Ek : k = E - 1046) by lia. assert (Es : s = 29) by lia.
      rewrite Es in *.
      destruct (Z.eq_dec k 104) as [E104|].
      * rewrite E104. assert (EE : E = 1150) by lia.
        pose proof (round_shift_ge m 29 24 ltac:(lia) ltac:(lia) ltac:(lia)) as Hge.
        assert (Hx : 255 * 2 ^ 23 <= (104 - -149) * 2 ^ 23 + round_shift m 29 <-> 2 ^ 24 <= round_shift m 29)
          by (change (2 ^ 24) with (2 * 2 ^ 23); lia).
        rewrite Hx, Hge, EE. change (24 + 1) with 25. change (29 - 1) with 28.
        assert (EP : 2 ^ 103 * 2 ^ 1074 = 2 ^ 28 * 2 ^ (1150 - 1)) by reflexivity.
        rewrite <- Z.mul_assoc, EP, Z.mul_assoc.
        pose proof (pow2_pos (1150 - 1) ltac:(lia)) as HP. set (P := 2 ^ (1150 - 1)) in *. clearbody P.
        split; intros; nia.
      * split; intros _.
        -- assert ((2 ^ 25 - 1) * 2 ^ 103 * 2 ^ 1074 <= 2 ^ 52 * 2 ^ 1150) by (vm_compute; discriminate).
           assert (2 ^ 1150 <= 2 ^ (E - 1)) by (apply Z.pow_le_mono_r; lia).
           pose proof (pow2_pos 1150 ltac:(lia)) as HP. set (P := 2 ^ 1150) in *. clearbody P.
           nia.
        -- assert (2 ^ 23 <= round_shift m 29).
           { apply (round_shift_ge m 29 23); [lia|lia|lia|].
             apply Z.le_trans with (2 ^ 52); [vm_compute; discriminate|lia]. }
           nia.
Qed.

(** ** Float maps *)

Definition float_code (n : Z) : fcode := match n with 4 => Cf | _ => Cd end.

Lemma create_float orc f n :
  In n [4; 8] -> sized f n ->
  create orc (DFloat f) None =
  Ok (Some (MPrim (DFloat f) (Some (op1 (order_on (o_host orc) (f_bo f)) (float_code n))))).
Proof.
  intros Hn [Hs _].
  assert (Hc : prim_code (DFloat f) = Some (float_code n)).
  { cbn [prim_code]. rewrite Hs. cbn in Hn. destruct Hn as [<-|[<-|[]]]; reflexivity. }
  cbn [create ov_bo apply_ov]. now rewrite (prim_op_some _ _ _ _ Hc).
Qed.

Lemma map_float orc fuel f n bs off c depth :
  In n [4; 8] -> sized f n -> 0 <= off -> off + n <= len bs ->
  let b := stored_number (order_on (o_host orc) (f_bo f)) (window bs off n) in
  fst (mapbs orc fuel (MPrim (DFloat f)
        (Some (op1 (order_on (o_host orc) (f_bo f)) (float_code n)))) bs off c depth)
  = Ok (VFloat (if n =? 4 then f32_to_f64 b else b)).
Proof.
  intros Hn Hs Ho Hl b. cbn [mapbs].
  assert (Hcs : Z.of_nat (code_size (float_code n)) = n) by (destruct Hn as [<-|[<-|[]]]; reflexivity).
  rewrite (map_prim_spec _ _ _ n) by first [exact (sized_byte_size _ _ Hs) | assumption].
  assert (0 < n) by (cbn in Hn; lia).
  destruct (Z.ltb_spec (len bs - off) n); [lia|].
  destruct Hn as [<-|[<-|[]]]; cbn [unpack1 float_code map_value fst];
    rewrite le_val_stored; reflexivity.
Qed.

Lemma fold_float orc f n v c :
  In n [4; 8] -> sized f n ->
  fst (foldbs orc (MPrim (DFloat f)
        (Some (op1 (order_on (o_host orc) (f_bo f)) (float_code n)))) (VFloat v) c)
  = if n =? 4 then
      match f64_to_f32 v with
      | Some b => Ok (VBytes (enc_n (order_on (o_host orc) (f_bo f)) 4 b))
      | None => Raise FoldingError
      end
    else Ok (VBytes (enc_n (order_on (o_host orc) (f_bo f)) 8 v)).
Proof.
  intros Hn Hs. cbn [foldbs fst]. unfold fold_prim. cbn [fold_value bind fst].
  rewrite write_op1. destruct Hn as [<-|[<-|[]]]; cbn [float_code pack1 pack_float Z.eqb Pos.eqb].
  - destruct (f64_to_f32 v); reflexivity.
  - reflexivity.
Qed.

Lemma stored_number_range en bs n : len bs = n -> 0 <= stored_number en bs < 2 ^ (8 * n).
Proof.
  intros <-. rewrite <- le_val_stored. unfold len. now apply le_val_reorder_range.
Qed.

Lemma stored_number_enc en n b :
  0 <= b < 2 ^ (8 * Z.of_nat n) -> stored_number en (enc_n en n b) = b.
Proof. intros. rewrite <- le_val_stored, le_val_dec_enc. now apply Z.mod_small. Qed.

Lemma enc_stored_number en n bs : length bs = n -> enc_n en n (stored_number en bs) = bs.
Proof.
  intros <-. unfold enc_n. rewrite <- le_val_stored.
  rewrite <- (reorder_length en bs) at 1. rewrite le_enc_val. apply reorder_involutive.
Qed.

Lemma double_behaviour orc f :
  sized f 8 ->
  exists m, create orc (DFloat f) None = Ok (Some m) /\
    (forall fuel bs off c depth, 0 <= off -> off + 8 <= len bs ->
       fst (mapbs orc fuel m bs off c depth) =
       Ok (VFloat (stored_number (order_on (o_host orc) (f_bo f)) (window bs off 8)))) /\
    (forall b c, 0 <= b < 2 ^ 64 ->
       exists w, fst (foldbs orc m (VFloat b) c) = Ok (VBytes w) /\ len w = 8 /\
       forall fuel pre post c' depth,
         fst (mapbs orc fuel m (pre ++ w ++ post) (len pre) c' depth) = Ok (VFloat b)) /\
    (forall fuel bs off c depth c', 0 <= off -> off + 8 <= len bs ->
       exists v, fst (mapbs orc fuel m bs off c depth) = Ok v /\
         fst (foldbs orc m v c') = Ok (VBytes (window bs off 8))).
Proof.
  intros Hs. assert (Hn : In 8 [4; 8]) by (cbn; auto).
  eexists. split; [exact (create_float orc f 8 Hn Hs)|]. split; [|split].
  - intros. rewrite (map_float _ _ _ 8) by assumption. reflexivity.
  - intros b c Hb. rewrite (fold_float _ _ 8) by assumption. cbn [Z.eqb Pos.eqb].
    eexists. split; [reflexivity|]. split; [unfold len; now rewrite enc_n_length|].
    intros. rewrite (map_float _ _ _ 8); auto using len_nonneg.
    + cbn [Z.eqb Pos.eqb]. rewrite window_app' by (unfold len; now rewrite enc_n_length).
      rewrite stored_number_enc; [reflexivity|]. exact Hb.
    + rewrite !len_app. pose proof (len_nonneg post).
      assert (len (enc_n (order_on (o_host orc) (f_bo f)) 8 b) = 8)
        by (unfold len; now rewrite enc_n_length). lia.
  - intros. rewrite (map_float _ _ _ 8) by assumption. eexists. split; [reflexivity|].
    cbn [Z.eqb Pos.eqb]. rewrite (fold_float _ _ 8) by assumption. cbn [Z.eqb Pos.eqb].
    rewrite enc_stored_number; [reflexivity|]. now rewrite length_window by lia.
Qed.

Lemma single_behaviour orc f :
  sized f 4 ->
  exists m, create orc (DFloat f) None = Ok (Some m) /\
    (forall fuel bs off c depth c', 0 <= off -> off + 4 <= len bs ->
       ~ signalling_single (stored_number (order_on (o_host orc) (f_bo f)) (window bs off 4)) ->
       exists v, fst (mapbs orc fuel m bs off c depth) = Ok v /\
         fst (foldbs orc m v c') = Ok (VBytes (window bs off 4))) /\
    (forall b c, 0 <= b < 2 ^ 64 ->
       (fst (foldbs orc m (VFloat b) c) = Raise FoldingError <-> too_large_for_single b)).
Proof.
  intros Hs. assert (Hn : In 4 [4; 8]) by (cbn; auto).
  eexists. split; [exact (create_float orc f 4 Hn Hs)|]. split.
  - intros fuel bs off c depth c' Ho Hl Hq. rewrite (map_float _ _ _ 4) by assumption.
    eexists. split; [reflexivity|]. cbn [Z.eqb Pos.eqb].
    rewrite (fold_float _ _ 4) by assumption. cbn [Z.eqb Pos.eqb].
    rewrite f32_round_trip.
    + rewrite enc_stored_number; [reflexivity|]. now rewrite length_window by lia.
    + apply (stored_number_range _ _ 4). rewrite len_window by lia. reflexivity.
    + exact Hq.
  - intros b c Hb. rewrite (fold_float _ _ 4) by assumption. cbn [Z.eqb Pos.eqb].
    rewrite <- narrow_overflow by assumption. destruct (f64_to_f32 b); split; congruence.
Qed.
