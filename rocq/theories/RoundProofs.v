(** Proofs about rounding. *)
From Coq Require Import String List ZArith Bool Lia.
From Verif Require Import Base Ieee PyVal PyStruct DataTypes DataMaps.
From Verif Require Import BytesProofs SpecPrim PrimProofs IeeeProofs SpecMap SpecCreate SpecReads FloatProofs SpecRound Demo.
Import ListNotations.
Open Scope Z_scope.
Arguments Z.pow : simpl never.
Arguments Z.mul : simpl never.
Arguments Z.add : simpl never.
Arguments Z.sub : simpl never.
Arguments Z.div : simpl never.
Arguments Z.modulo : simpl never.

(** The magnitude of a pattern without sign, in units of the smallest subnormal. *)
Definition units (mb r : Z) : Z :=
  if r / 2 ^ mb =? 0 then r mod 2 ^ mb else (2 ^ mb + r mod 2 ^ mb) * 2 ^ (r / 2 ^ mb - 1).

Lemma units_of mb j q : 0 <= mb -> 0 <= j -> 0 <= q <= 2 ^ (mb + 1) -> j = 0 \/ 2 ^ mb <= q ->
  units mb (j * 2 ^ mb + q) = q * 2 ^ j.
Proof.
  intros Hmb Hj Hq Hn. pose proof (pow2_pos mb Hmb).
  rewrite Z.pow_add_r in Hq by lia. change (2 ^ 1) with 2 in Hq. unfold units.
  destruct (Z_lt_le_dec q (2 ^ mb)) as [L|L].
  - destruct Hn as [->|Hn]; [|lia].
    destruct (div_mod_fields 0 (2 ^ mb) q) as [-> ->]; try lia. cbn [Z.eqb]. change (2 ^ 0) with 1. lia.
  - destruct (Z.eq_dec q (2 * 2 ^ mb)) as [->|].
    + replace (j * 2 ^ mb + 2 * 2 ^ mb) with ((j + 2) * 2 ^ mb + 0) by lia.
      destruct (div_mod_fields (j + 2) (2 ^ mb) 0) as [-> ->]; try lia. destruct (Z.eqb_spec (j + 2) 0); [lia|].
      replace (j + 2 - 1) with (j + 1) by lia. rewrite (Z.pow_add_r 2 j 1) by lia. change (2 ^ 1) with 2. lia.
    + replace (j * 2 ^ mb + q) with ((j + 1) * 2 ^ mb + (q - 2 ^ mb)) by lia.
      destruct (div_mod_fields (j + 1) (2 ^ mb) (q - 2 ^ mb)) as [-> ->]; try lia. destruct (Z.eqb_spec (j + 1) 0); [lia|].
      replace (j + 1 - 1) with j by lia. f_equal. lia.
Qed.

Lemma units_split mb r : 0 <= mb -> 0 <= r ->
  exists j q, 0 <= j /\ 0 <= q < 2 ^ (mb + 1) /\ (j = 0 \/ 2 ^ mb <= q) /\ r = j * 2 ^ mb + q.
Proof.
  intros Hmb Hr. pose proof (pow2_pos mb Hmb).
  pose proof (Z.div_mod r (2 ^ mb) ltac:(lia)). pose proof (Z.mod_pos_bound r (2 ^ mb) ltac:(lia)).
  pose proof (Z.div_pos r (2 ^ mb) ltac:(lia) ltac:(lia)).
  rewrite Z.pow_add_r by lia. change (2 ^ 1) with 2.
  destruct (Z.eq_dec (r / 2 ^ mb) 0) as [E|E].
  - exists 0, (r mod 2 ^ mb). repeat split; try lia.
  - exists (r / 2 ^ mb - 1), (2 ^ mb + r mod 2 ^ mb). repeat split; try lia.
Qed.

Lemma units_succ mb r : 0 <= mb -> 0 <= r -> units mb r < units mb (r + 1).
Proof.
  intros Hmb Hr. destruct (units_split mb r Hmb Hr) as (j & q & Hj & Hq & Hn & ->).
  rewrite units_of by lia. replace (j * 2 ^ mb + q + 1) with (j * 2 ^ mb + (q + 1)) by lia.
  rewrite units_of by lia. pose proof (pow2_pos j Hj). nia.
Qed.

Lemma units_mono mb r r' : 0 <= mb -> 0 <= r < r' -> units mb r < units mb r'.
Proof.
  intros Hmb [Hr Hl]. replace r' with (r + 1 + Z.of_nat (Z.to_nat (r' - r - 1))) by lia.
  induction (Z.to_nat (r' - r - 1)) as [|n IH].
  - replace (r + 1 + Z.of_nat 0) with (r + 1) by lia. now apply units_succ.
  - eapply Z.lt_trans; [exact IH|]. replace (r + 1 + Z.of_nat (S n)) with (r + 1 + Z.of_nat n + 1) by lia.
    apply units_succ; lia.
Qed.

Lemma round_shift_nearest m k q' : 0 < k ->
  let q := round_shift m k in
  Z.abs (q * 2 ^ k - m) <= Z.abs (q' * 2 ^ k - m) /\
  (Z.abs (q * 2 ^ k - m) = Z.abs (q' * 2 ^ k - m) -> q' = q \/ Z.even q = true).
Proof.
  intros Hk. cbv zeta. unfold round_shift.
  pose proof (pow2_pos (k - 1) ltac:(lia)) as Hh.
  assert (Ek : 2 ^ k = 2 * 2 ^ (k - 1)) by (rewrite <- Z.pow_succ_r by lia; f_equal; lia).
  pose proof (Z.div_mod m (2 ^ k) ltac:(lia)) as Ed. pose proof (Z.mod_pos_bound m (2 ^ k) ltac:(lia)) as Hr.
  set (q := m / 2 ^ k) in *. set (r := m mod 2 ^ k) in *. set (h := 2 ^ (k - 1)) in *. rewrite Ek in *.
  rewrite Ed. clearbody q r h. clear Ed Ek m.
  assert (B : q' <= q - 1 \/ q' = q \/ q' = q + 1 \/ q + 2 <= q') by lia.
  assert (L : q' <= q - 1 -> q' * (2 * h) <= (q - 1) * (2 * h)) by nia.
  assert (G : q + 2 <= q' -> (q + 2) * (2 * h) <= q' * (2 * h)) by nia.
  set (x := q' * (2 * h)) in *. set (y := q * (2 * h)) in *.
  assert (Y : 2 * h * q = y) by (unfold y; lia). rewrite Y.
  assert (Y1 : (q + 1) * (2 * h) = y + 2 * h) by (unfold y; lia).
  assert (Y2 : (q - 1) * (2 * h) = y - 2 * h) by (unfold y; lia).
  assert (Y3 : (q + 2) * (2 * h) = y + 4 * h) by (unfold y; lia).
  rewrite Y2 in L. rewrite Y3 in G.
  assert (X0 : q' = q -> x = y) by (intros ->; reflexivity).
  assert (X1 : q' = q + 1 -> x = y + 2 * h) by (intros ->; unfold x; lia).
  clearbody x y. clear Y Y2 Y3.
  destruct (Z.ltb_spec r h); [lia|]. destruct (Z.ltb_spec h r).
  - rewrite Y1. lia.
  - assert (r = h) by lia. subst r. destruct (Z.even q) eqn:Eq.
    + split; [lia|]. auto.
    + rewrite Y1. split; [lia|]. intros _. right. rewrite Z.even_add, Eq. reflexivity.
Qed.

Lemma even_pattern mb j q : 0 < mb -> Z.even (j * 2 ^ mb + q) = Z.even q.
Proof.
  intros H. replace mb with (1 + (mb - 1)) by lia. rewrite Z.pow_add_r by lia. change (2 ^ 1) with 2.
  rewrite Z.even_add, !Z.even_mul. cbn [Z.even]. rewrite orb_true_r. now destruct (Z.even q).
Qed.

Lemma round_nearest mb eb m e r t : 0 < mb -> 0 < eb -> 0 <= m ->
  let emin := 2 - 2 ^ (eb - 1) - mb in
  ieee_round mb eb m e = Some r -> 0 <= t -> 0 <= e - emin + t ->
  0 <= r < (2 ^ eb - 1) * 2 ^ mb /\
  forall r', 0 <= r' ->
    Z.abs (units mb r * 2 ^ t - m * 2 ^ (e - emin + t)) <= Z.abs (units mb r' * 2 ^ t - m * 2 ^ (e - emin + t)) /\
    (Z.abs (units mb r * 2 ^ t - m * 2 ^ (e - emin + t)) = Z.abs (units mb r' * 2 ^ t - m * 2 ^ (e - emin + t)) ->
     r' = r \/ Z.even r = true).
Proof.
  intros Hmb Heb Hm emin H Ht Hg. unfold ieee_round in H. fold emin in H.
  pose proof (pow2_pos mb ltac:(lia)) as Pm. pose proof (pow2_pos eb ltac:(lia)) as Pe. pose proof (pow2_pos t Ht) as Pt.
  assert (P1 : 1 < 2 ^ eb) by (apply Z.pow_gt_1; lia).
  assert (U0 : forall r', 0 <= r' -> 0 <= units mb r').
  { intros r' Hr'. destruct (units_split mb r' ltac:(lia) Hr') as (j & q & Hj & Hq & Hn & ->).
    rewrite units_of by lia. pose proof (pow2_pos j Hj). nia. }
  assert (UI : forall a b, 0 <= a -> 0 <= b -> units mb a = units mb b -> a = b).
  { intros a b Ha Hb E. destruct (Z.lt_trichotomy a b) as [L|[L|L]]; auto.
    - pose proof (units_mono mb a b ltac:(lia) ltac:(lia)). lia.
    - pose proof (units_mono mb b a ltac:(lia) ltac:(lia)). lia. }
  assert (EXACT : forall x, 0 <= x -> units mb x * 2 ^ t = m * 2 ^ (e - emin + t) ->
     forall r', 0 <= r' ->
     Z.abs (units mb x * 2 ^ t - m * 2 ^ (e - emin + t)) <= Z.abs (units mb r' * 2 ^ t - m * 2 ^ (e - emin + t)) /\
     (Z.abs (units mb x * 2 ^ t - m * 2 ^ (e - emin + t)) = Z.abs (units mb r' * 2 ^ t - m * 2 ^ (e - emin + t)) ->
      r' = x \/ Z.even x = true)).
  { intros x Hx E r' Hr'. rewrite E. split; [lia|]. intros Q. left. apply UI; auto.
    assert (units mb r' * 2 ^ t = units mb x * 2 ^ t) by lia. apply Z.mul_reg_r in H0; lia. }
  destruct (Z.eqb_spec m 0) as [->|Nm].
  { inversion H; subst r. split; [nia|]. apply EXACT; [lia|]. 
    pose proof (units_of mb 0 0 ltac:(lia) ltac:(lia) ltac:(pose proof (pow2_pos (mb + 1) ltac:(lia)); lia) ltac:(auto)) as E.
    change (0 * 2 ^ mb + 0) with 0 in E. rewrite E. lia. }
  set (k := Z.max emin (Z.log2 m + e - mb)) in *.
  set (q := if k <=? e then m * 2 ^ (e - k) else round_shift m (k - e)) in *.
  destruct (Z.leb_spec ((2 ^ eb - 1) * 2 ^ mb) ((k - emin) * 2 ^ mb + q)) as [L|L]; [discriminate|].
  inversion H. clear H. subst r.
  pose proof (Z.log2_spec m ltac:(lia)) as Hl. pose proof (Z.log2_nonneg m) as Hl0. set (l := Z.log2 m) in *.
  assert (Hj : 0 <= k - emin) by lia.
  assert (Hq : 0 <= q <= 2 ^ (mb + 1) /\ (k - emin = 0 \/ 2 ^ mb <= q)).
  { unfold q. destruct (Z.leb_spec k e) as [K|K].
    - pose proof (pow2_pos (e - k) ltac:(lia)) as Pd. split; [split; [nia|]|].
      + apply Z.le_trans with (2 ^ Z.succ l * 2 ^ (e - k)); [nia|].
        rewrite <- Z.pow_add_r by lia. apply Z.pow_le_mono_r; lia.
      + destruct (Z.eq_dec (k - emin) 0); auto. right.
        apply Z.le_trans with (2 ^ l * 2 ^ (e - k)); [|nia].
        rewrite <- Z.pow_add_r by lia. apply Z.pow_le_mono_r; lia.
    - split; [split; [apply round_shift_nonneg; lia|]|].
      + apply round_shift_upper; [lia|lia|]. split; [lia|]. apply Z.lt_le_trans with (2 ^ Z.succ l); [lia|]. apply Z.pow_le_mono_r; lia.
      + destruct (Z.eq_dec (k - emin) 0); auto. right. 
        pose proof (round_shift_nearest m (k - e) (2 ^ mb) ltac:(lia)) as [A B]. cbv zeta in *.
        assert (M : 2 ^ mb * 2 ^ (k - e) <= m). { rewrite <- Z.pow_add_r by lia. replace (mb + (k - e)) with l by lia. lia. }
        pose proof (pow2_pos (k - e) ltac:(lia)). set (p := round_shift m (k - e)) in *. clearbody p.
        destruct (Z_le_gt_dec (2 ^ mb) p); auto. exfalso.
        assert (p * 2 ^ (k - e) < 2 ^ mb * 2 ^ (k - e)) by nia. lia. }
  destruct Hq as [Hq Hn]. 
  assert (Hr0 : 0 <= (k - emin) * 2 ^ mb + q) by nia. split; [lia|].
  destruct (Z.leb_spec k e) as [K|K].
  - apply EXACT; auto. rewrite units_of by lia. unfold q.
    rewrite <- !Z.mul_assoc, <- !Z.pow_add_r by lia. f_equal. f_equal. lia.
  - intros r' Hr'. set (g := e - emin + t) in *. set (d := k - e) in *.
    pose proof (pow2_pos g Hg) as Pg. pose proof (pow2_pos d ltac:(lia)) as Pd.
    assert (S : forall a, a * 2 ^ (k - emin) * 2 ^ t = a * 2 ^ d * 2 ^ g).
    { intros a. rewrite <- !Z.mul_assoc, <- !Z.pow_add_r by lia. f_equal. f_equal. lia. }
    rewrite units_of, S, even_pattern by lia.
    assert (A : forall x, Z.abs (x * 2 ^ g - m * 2 ^ g) = Z.abs (x - m) * 2 ^ g).
    { intros x. rewrite <- Z.mul_sub_distr_r, Z.abs_mul, (Z.abs_eq (2 ^ g)); lia. }
    assert (N : forall q', Z.abs (q * 2 ^ d - m) <= Z.abs (q' * 2 ^ d - m) /\
      (Z.abs (q * 2 ^ d - m) = Z.abs (q' * 2 ^ d - m) -> q' = q \/ Z.even q = true))
      by (intros q'; apply round_shift_nearest; lia).
    destruct (units_split mb r' ltac:(lia) Hr') as (j' & q' & Hj' & Hq' & Hn' & ->).
    rewrite (units_of mb j' q') by lia.
    destruct (Z_le_gt_dec (k - emin) j') as [J|J].
    + assert (Q : q' * 2 ^ j' = q' * 2 ^ (j' - (k - emin)) * 2 ^ (k - emin)).
      { rewrite <- Z.mul_assoc, <- Z.pow_add_r by lia. do 2 f_equal. lia. }
      assert (Z0 : units mb (j' * 2 ^ mb + q') = q' * 2 ^ (j' - (k - emin)) * 2 ^ (k - emin)) by (rewrite units_of by lia; exact Q).
      rewrite Q, S, !A. destruct (N (q' * 2 ^ (j' - (k - emin)))) as [N1 N2]. split; [nia|].
      intros E. apply Z.mul_reg_r in E; [|lia]. destruct (N2 E) as [E'|E']; auto. left.
      apply UI; auto. rewrite Z0, E', units_of by lia. reflexivity.
    + assert (B : 2 ^ mb * 2 ^ d <= m). { rewrite <- Z.pow_add_r by lia. replace (mb + d) with l by lia. lia. }
      assert (C : q' * 2 ^ j' * 2 ^ t < 2 ^ mb * 2 ^ d * 2 ^ g).
      { rewrite <- S. apply Z.mul_lt_mono_pos_r; auto.
        apply Z.lt_le_trans with (2 ^ (mb + 1) * 2 ^ j').
        - pose proof (pow2_pos j' Hj'). nia.
        - rewrite <- !Z.pow_add_r by lia. apply Z.pow_le_mono_r; lia. }
      destruct (N (2 ^ mb)) as [N1 _].
      assert (D : Z.abs (q * 2 ^ d * 2 ^ g - m * 2 ^ g) <= Z.abs (2 ^ mb * 2 ^ d * 2 ^ g - m * 2 ^ g)) by (rewrite !A; nia).
      assert (2 ^ mb * 2 ^ d * 2 ^ g <= m * 2 ^ g) by nia. lia.
Qed.

(** ** Signs *)

Definition sg (neg : bool) : Z := if neg then -1 else 1.

Lemma signed_nearest mb t r X : 0 < mb -> 0 <= t -> 0 <= X -> 0 <= r ->
  (forall r', 0 <= r' ->
    Z.abs (units mb r * 2 ^ t - X) <= Z.abs (units mb r' * 2 ^ t - X) /\
    (Z.abs (units mb r * 2 ^ t - X) = Z.abs (units mb r' * 2 ^ t - X) -> r' = r \/ Z.even r = true)) ->
  forall neg neg' r', 0 <= r' ->
    Z.abs (sg neg * (units mb r * 2 ^ t) - sg neg * X) <= Z.abs (sg neg' * (units mb r' * 2 ^ t) - sg neg * X) /\
    (Z.abs (sg neg * (units mb r * 2 ^ t) - sg neg * X) = Z.abs (sg neg' * (units mb r' * 2 ^ t) - sg neg * X) ->
     sg neg' * (units mb r' * 2 ^ t) = sg neg * (units mb r * 2 ^ t) \/ Z.even r = true).
Proof.
  intros Hmb Ht HX Hr N neg neg' r' Hr'. pose proof (pow2_pos t Ht) as Pt.
  assert (U0 : forall x, 0 <= x -> 0 <= units mb x).
  { intros x Hx. destruct (units_split mb x ltac:(lia) Hx) as (j & q & Hj & Hq & Hn & ->).
    rewrite units_of by lia. pose proof (pow2_pos j Hj). nia. }
  assert (Z0 : units mb 0 = 0).
  { pose proof (units_of mb 0 0 ltac:(lia) ltac:(lia) ltac:(pose proof (pow2_pos (mb + 1) ltac:(lia)); lia) ltac:(auto)) as E.
    exact E. }
  assert (ZP : forall x, 0 <= x -> units mb x = 0 -> x = 0).
  { intros x Hx E. destruct (Z.eq_dec x 0); auto. pose proof (units_mono mb 0 x ltac:(lia) ltac:(lia)). lia. }
  destruct (N r' Hr') as [A B]. pose proof (U0 r Hr) as Ur. pose proof (U0 r' Hr') as Ur'.
  destruct (N 0 ltac:(lia)) as [C D]. rewrite Z0 in C, D.
  assert (Vr : 0 <= units mb r * 2 ^ t) by nia. assert (Vr' : 0 <= units mb r' * 2 ^ t) by nia.
  assert (E0 : units mb r' * 2 ^ t = 0 -> r' = 0) by (intros; apply ZP; auto; nia).
  assert (E1 : r' = r -> units mb r' * 2 ^ t = units mb r * 2 ^ t) by (intros ->; reflexivity).
  assert (E2 : r' = 0 -> units mb r' * 2 ^ t = 0) by (intros ->; rewrite Z0; lia).
  set (u := units mb r * 2 ^ t) in *. set (u' := units mb r' * 2 ^ t) in *. clearbody u u'.
  change (0 * 2 ^ t) with 0 in *.
  destruct neg, neg'; cbn [sg].
  - split; [lia|]. intros Q. destruct B as [B|B]; [lia| |now right]. left. specialize (E1 B). lia.
  - split; [lia|]. intros Q. assert (Y : u' = 0) by lia. specialize (E0 Y). subst r' u'.
    destruct B as [B|B]; [lia| |now right]. left. specialize (E1 B). lia.
  - split; [lia|]. intros Q. assert (Y : u' = 0) by lia. specialize (E0 Y). subst r' u'.
    destruct B as [B|B]; [lia| |now right]. left. specialize (E1 B). lia.
  - split; [lia|]. intros Q. destruct B as [B|B]; [lia| |now right]. left. specialize (E1 B). lia.
Qed.

(** Two magnitudes of the same sign that are nearest to a number. *)
Lemma nearest_two mb t neg x r1 r2 bound : 0 < mb -> 0 <= t -> 0 <= r1 < r2 -> r2 < bound ->
  (forall r', 0 <= r' < bound ->
     Z.abs (sg neg * (units mb r1 * 2 ^ t) - x) <= Z.abs (sg neg * (units mb r' * 2 ^ t) - x) /\
     (Z.abs (sg neg * (units mb r1 * 2 ^ t) - x) = Z.abs (sg neg * (units mb r' * 2 ^ t) - x) ->
      sg neg * (units mb r' * 2 ^ t) = sg neg * (units mb r1 * 2 ^ t) \/ Z.even r1 = true)) ->
  (forall r', 0 <= r' < bound ->
     Z.abs (sg neg * (units mb r2 * 2 ^ t) - x) <= Z.abs (sg neg * (units mb r' * 2 ^ t) - x) /\
     (Z.abs (sg neg * (units mb r2 * 2 ^ t) - x) = Z.abs (sg neg * (units mb r' * 2 ^ t) - x) ->
      sg neg * (units mb r' * 2 ^ t) = sg neg * (units mb r2 * 2 ^ t) \/ Z.even r2 = true)) -> False.
Proof.
  intros Hmb Ht Hr Hb N1 N2. pose proof (pow2_pos t Ht) as Pt.
  destruct (N1 r2 ltac:(lia)) as [A1 B1], (N2 r1 ltac:(lia)) as [A2 B2].
  assert (M : units mb r1 * 2 ^ t < units mb r2 * 2 ^ t).
  { pose proof (units_mono mb r1 r2 ltac:(lia) ltac:(lia)). nia. }
  destruct (Z.eq_dec r2 (r1 + 1)) as [->|].
  - destruct B1 as [B1|B1]; [lia|destruct neg; cbn [sg] in *; lia|].
    destruct B2 as [B2|B2]; [lia|destruct neg; cbn [sg] in *; lia|].
    rewrite Z.even_add, B1 in B2. discriminate.
  - destruct (N1 (r1 + 1) ltac:(lia)) as [A3 _].
    assert (units mb r1 * 2 ^ t < units mb (r1 + 1) * 2 ^ t).
    { pose proof (units_mono mb r1 (r1 + 1) ltac:(lia) ltac:(lia)). nia. }
    assert (units mb (r1 + 1) * 2 ^ t < units mb r2 * 2 ^ t).
    { pose proof (units_mono mb (r1 + 1) r2 ltac:(lia) ltac:(lia)). nia. }
    destruct neg; cbn [sg] in *; lia.
Qed.

(** ** Singles and doubles by sign and magnitude *)

Lemma magnitude mb eb neg r : 0 <= mb -> 0 <= eb -> 0 <= r < 2 ^ eb * 2 ^ mb ->
  let w := with_sign mb eb neg r in
  w / 2 ^ (mb + eb) = Z.b2z neg /\ (w / 2 ^ mb) mod 2 ^ eb = r / 2 ^ mb /\ w mod 2 ^ mb = r mod 2 ^ mb /\
  0 <= w < 2 ^ (mb + eb + 1).
Proof.
  intros Hm He Hr w. pose proof (pow2_pos mb Hm). pose proof (pow2_pos eb He).
  pose proof (Z.div_mod r (2 ^ mb) ltac:(lia)). pose proof (Z.mod_pos_bound r (2 ^ mb) ltac:(lia)).
  assert (HE : 0 <= r / 2 ^ mb < 2 ^ eb) by nia.
  destruct (sign_fields mb eb neg (r / 2 ^ mb) (r mod 2 ^ mb)) as (A & B & C); auto.
  replace (r / 2 ^ mb * 2 ^ mb + r mod 2 ^ mb) with r in A, B, C by lia. fold w in A, B, C. rewrite A, B, C. unfold w.
  repeat split; auto; unfold with_sign; rewrite !Z.pow_add_r by lia; change (2 ^ 1) with 2; destruct neg; nia.
Qed.

Lemma single_at neg r : 0 <= r < 255 * 2 ^ 23 ->
  let s := with_sign 23 8 neg r in
  a_finite_single s /\ s / 2 ^ 31 = Z.b2z neg /\ single_number s = sg neg * (units 23 r * 2 ^ (1074 - 149)) /\
  (Z.even (single_mantissa s) = Z.even r).
Proof.
  intros Hr s. destruct (magnitude 23 8 neg r ltac:(lia) ltac:(lia)) as (A & B & C & D); [change (2 ^ 8) with 256; lia|].
  fold s in A, B, C, D. change (23 + 8) with 31 in A. change (2 ^ 8) with 256 in B. change (23 + 8 + 1) with 32 in D.
  assert (E : 0 <= r / 2 ^ 23 < 255).
  { split; [apply Z.div_pos; lia|apply Z.div_lt_upper_bound; lia]. }
  repeat split; try lia.
  - unfold single_exponent. rewrite B. lia.
  - unfold single_number. rewrite A. unfold single_units, single_exponent, single_mantissa. rewrite B, C.
    fold (units 23 r). now destruct neg.
  - unfold single_mantissa. rewrite C. rewrite (Z.div_mod r (2 ^ 23)) at 2 by lia.
    rewrite (Z.mul_comm (2 ^ 23)). now rewrite even_pattern by lia.
Qed.

Lemma a_single s : a_finite_single s -> exists neg r, s = with_sign 23 8 neg r /\ 0 <= r < 255 * 2 ^ 23.
Proof.
  intros [Hs He]. destruct (split_fields 23 8 s ltac:(lia) ltac:(lia) Hs) as [neg E]. exists neg. eexists. split; [exact E|].
  unfold single_exponent in He. change (2 ^ 8) with 256.
  pose proof (Z.mod_pos_bound (s / 2 ^ 23) 256 ltac:(lia)). pose proof (Z.mod_pos_bound s (2 ^ 23) ltac:(lia)). lia.
Qed.

Lemma double_at neg r : 0 <= r < 2047 * 2 ^ 52 ->
  let s := with_sign 52 11 neg r in
  a_finite_double s /\ s / 2 ^ 63 = Z.b2z neg /\ double_number s = sg neg * (units 52 r * 2 ^ 0) /\
  (Z.even (double_mantissa s) = Z.even r).
Proof.
  intros Hr s. destruct (magnitude 52 11 neg r ltac:(lia) ltac:(lia)) as (A & B & C & D); [change (2 ^ 11) with 2048; lia|].
  fold s in A, B, C, D. change (52 + 11) with 63 in A. change (2 ^ 11) with 2048 in B. change (52 + 11 + 1) with 64 in D.
  assert (E : 0 <= r / 2 ^ 52 < 2047).
  { split; [apply Z.div_pos; lia|apply Z.div_lt_upper_bound; lia]. }
  repeat split; try lia.
  - unfold finite_double, double_exponent. rewrite B. lia.
  - unfold double_number. rewrite A. unfold double_units, double_exponent, double_mantissa. rewrite B, C.
    fold (units 52 r). change (2 ^ 0) with 1. rewrite Z.mul_1_r. now destruct neg.
  - unfold double_mantissa. rewrite C. rewrite (Z.div_mod r (2 ^ 52)) at 2 by lia.
    rewrite (Z.mul_comm (2 ^ 52)). now rewrite even_pattern by lia.
Qed.

Lemma a_double s : a_finite_double s -> exists neg r, s = with_sign 52 11 neg r /\ 0 <= r < 2047 * 2 ^ 52.
Proof.
  intros [Hs He]. destruct (split_fields 52 11 s ltac:(lia) ltac:(lia) Hs) as [neg E]. exists neg. eexists. split; [exact E|].
  unfold finite_double, double_exponent in He. change (2 ^ 11) with 2048.
  pose proof (Z.mod_pos_bound (s / 2 ^ 52) 2048 ltac:(lia)). pose proof (Z.mod_pos_bound s (2 ^ 52) ltac:(lia)). lia.
Qed.

Lemma nearest_single_unique x s1 s2 : nearest_single x s1 -> nearest_single x s2 -> s1 / 2 ^ 31 = s2 / 2 ^ 31 -> s1 = s2.
Proof.
  intros [F1 N1] [F2 N2] S. destruct (a_single _ F1) as (n1 & r1 & -> & H1), (a_single _ F2) as (n2 & r2 & -> & H2).
  destruct (single_at n1 r1 H1) as (_ & S1 & D1 & P1), (single_at n2 r2 H2) as (_ & S2 & D2 & P2). rewrite S1, S2 in S.
  assert (n1 = n2) as <- by (destruct n1, n2; auto; discriminate).
  assert (W : forall r s', 0 <= r < 255 * 2 ^ 23 -> s' = with_sign 23 8 n1 r ->
     (forall s'', a_finite_single s'' -> Z.abs (single_number s' - x) <= Z.abs (single_number s'' - x) /\
       (Z.abs (single_number s' - x) = Z.abs (single_number s'' - x) ->
        single_number s'' = single_number s' \/ Z.Even (single_mantissa s'))) ->
     forall r', 0 <= r' < 255 * 2 ^ 23 ->
     Z.abs (sg n1 * (units 23 r * 2 ^ (1074 - 149)) - x) <= Z.abs (sg n1 * (units 23 r' * 2 ^ (1074 - 149)) - x) /\
     (Z.abs (sg n1 * (units 23 r * 2 ^ (1074 - 149)) - x) = Z.abs (sg n1 * (units 23 r' * 2 ^ (1074 - 149)) - x) ->
      sg n1 * (units 23 r' * 2 ^ (1074 - 149)) = sg n1 * (units 23 r * 2 ^ (1074 - 149)) \/ Z.even r = true)).
  { intros r s' Hr -> N r' Hr'. destruct (single_at n1 r Hr) as (_ & _ & E & P), (single_at n1 r' Hr') as (F & _ & E' & _).
    specialize (N _ F). rewrite E, E' in N. rewrite <- P, Z.even_spec. exact N. }
  pose proof (W r1 _ H1 eq_refl N1) as W1. pose proof (W r2 _ H2 eq_refl N2) as W2.
  destruct (Z.lt_trichotomy r1 r2) as [L|[->|L]]; auto; exfalso.
  - apply (nearest_two 23 (1074 - 149) n1 x r1 r2 (255 * 2 ^ 23)); auto; lia.
  - apply (nearest_two 23 (1074 - 149) n1 x r2 r1 (255 * 2 ^ 23)); auto; lia.
Qed.

Lemma nearest_double_unique x s1 s2 : nearest_double x s1 -> nearest_double x s2 -> s1 / 2 ^ 63 = s2 / 2 ^ 63 -> s1 = s2.
Proof.
  intros [F1 N1] [F2 N2] S. destruct (a_double _ F1) as (n1 & r1 & -> & H1), (a_double _ F2) as (n2 & r2 & -> & H2).
  destruct (double_at n1 r1 H1) as (_ & S1 & D1 & P1), (double_at n2 r2 H2) as (_ & S2 & D2 & P2). rewrite S1, S2 in S.
  assert (n1 = n2) as <- by (destruct n1, n2; auto; discriminate).
  assert (W : forall r s', 0 <= r < 2047 * 2 ^ 52 -> s' = with_sign 52 11 n1 r ->
     (forall s'', a_finite_double s'' -> Z.abs (double_number s' - x) <= Z.abs (double_number s'' - x) /\
       (Z.abs (double_number s' - x) = Z.abs (double_number s'' - x) ->
        double_number s'' = double_number s' \/ Z.Even (double_mantissa s'))) ->
     forall r', 0 <= r' < 2047 * 2 ^ 52 ->
     Z.abs (sg n1 * (units 52 r * 2 ^ 0) - x) <= Z.abs (sg n1 * (units 52 r' * 2 ^ 0) - x) /\
     (Z.abs (sg n1 * (units 52 r * 2 ^ 0) - x) = Z.abs (sg n1 * (units 52 r' * 2 ^ 0) - x) ->
      sg n1 * (units 52 r' * 2 ^ 0) = sg n1 * (units 52 r * 2 ^ 0) \/ Z.even r = true)).
  { intros r s' Hr -> N r' Hr'. destruct (double_at n1 r Hr) as (_ & _ & E & P), (double_at n1 r' Hr') as (F & _ & E' & _).
    specialize (N _ F). rewrite E, E' in N. rewrite <- P, Z.even_spec. exact N. }
  pose proof (W r1 _ H1 eq_refl N1) as W1. pose proof (W r2 _ H2 eq_refl N2) as W2.
  destruct (Z.lt_trichotomy r1 r2) as [L|[->|L]]; auto; exfalso.
  - apply (nearest_two 52 0 n1 x r1 r2 (2047 * 2 ^ 52)); auto; lia.
  - apply (nearest_two 52 0 n1 x r2 r1 (2047 * 2 ^ 52)); auto; lia.
Qed.

(** Narrowing gives the single that stands for the double. *)
Lemma lor_narrow p : 0 <= p < 2 ^ 23 -> Z.lor p (2 ^ 22) = 2 ^ 22 + p mod 2 ^ 22.
Proof.
  intros H. pose proof (lor_quiet p H) as E. change (2 ^ 51) with (2 ^ 22 * 2 ^ 29) in E.
  rewrite <- !Z.shiftl_mul_pow2, <- Z.shiftl_lor, !Z.shiftl_mul_pow2 in E by lia. lia.
Qed.

Lemma narrowed_f64 b s : 0 <= b < 2 ^ 64 -> f64_to_f32 b = Some s -> narrowed b s.
Proof.
  intros Hb. destruct (split_fields 52 11 b) as [neg Hs]; [lia|lia|exact Hb|]. change (2 ^ 11) with 2048 in Hs.
  pose proof (Z.mod_pos_bound (b / 2 ^ 52) 2048 ltac:(lia)) as HE.
  pose proof (Z.mod_pos_bound b (2 ^ 52) ltac:(lia)) as HM.
  assert (SB : b / 2 ^ 63 = Z.b2z neg).
  { rewrite Hs. change 63 with (52 + 11). apply sign_fields; [lia|lia|lia|]. change (2 ^ 11) with 2048. lia. }
  unfold narrowed, double_number, finite_double, double_units, double_exponent, double_mantissa. rewrite SB.
  set (E := (b / 2 ^ 52) mod 2048) in *. set (M := b mod 2 ^ 52) in *. rewrite Hs. clearbody E M. clear Hb SB Hs b.
  unfold f64_to_f32. rewrite decode_fields by (change (2 ^ 11) with 2048; lia).
  change (2 ^ 11 - 1) with 2047. change (2 - 2 ^ (11 - 1) - 52) with (-1074).
  assert (SPEC : forall E' M', 0 <= M' < 2 ^ 23 -> 0 <= E' < 256 ->
     let w := with_sign 23 8 neg (E' * 2 ^ 23 + M') in
     0 <= w < 2 ^ 32 /\ w / 2 ^ 31 = Z.b2z neg /\ single_exponent w = E' /\ single_mantissa w = M').
  { intros E' M' H1 H2 w. destruct (sign_fields 23 8 neg E' M' ltac:(lia) ltac:(lia) H1 H2) as (A & B & C).
    unfold single_exponent, single_mantissa. fold w in A, B, C. change (2 ^ 8) with 256 in B. repeat split; auto;
    unfold w, with_sign; change (2 ^ (23 + 8)) with (256 * 2 ^ 23); change (2 ^ 32) with (512 * 2 ^ 23); destruct neg; nia. }
  destruct (Z.eqb_spec E 2047) as [->|NE].
  { destruct (Z.eqb_spec M 0) as [->|NM]; intros H; inversion H; subst s; clear H.
    - destruct (SPEC 255 0 ltac:(lia) ltac:(lia)) as (A & B & C & D). rewrite Z.add_0_r in *.
      split; [exact A|]. split; [exact B|]. split; [congruence|]. intros _. split; auto.
    - assert (P : 0 <= M / 2 ^ 29 < 2 ^ 23).
      { split; [apply Z.div_pos; lia|apply Z.div_lt_upper_bound; [lia|]]. change (2 ^ 29 * 2 ^ 23) with (2 ^ 52). lia. }
      rewrite lor_narrow by exact P. pose proof (Z.mod_pos_bound (M / 2 ^ 29) (2 ^ 22) ltac:(lia)).
      destruct (SPEC 255 (2 ^ 22 + (M / 2 ^ 29) mod 2 ^ 22)) as (A & B & C & D); [change (2 ^ 23) with (2 * 2 ^ 22); lia|lia|].
      split; [exact A|]. split; [exact B|]. split; [congruence|]. intros _. split; auto. }
  assert (FIN : forall m e X, 0 <= m -> -1074 <= e -> X = m * 2 ^ (e + 1074) ->
     option_map (with_sign 23 8 neg) (ieee_round 23 8 m e) = Some s ->
     0 <= s < 2 ^ 32 /\ s / 2 ^ 31 = Z.b2z neg /\
     (E <> 2047 -> nearest_single ((if Z.b2z neg =? 0 then 1 else -1) * X) s) /\
     (~ E <> 2047 -> single_exponent s = 255 /\ single_mantissa s = (if M =? 0 then 0 else 2 ^ 22 + (M / 2 ^ (52 - 23)) mod 2 ^ 22))).
  { intros m e X Hm He HX H. destruct (ieee_round 23 8 m e) as [r|] eqn:R; [|discriminate]. inversion H; subst s; clear H.
    destruct (round_nearest 23 8 m e r 925 ltac:(lia) ltac:(lia) Hm R ltac:(lia)) as [HR N].
    { change (2 - 2 ^ (8 - 1) - 23) with (-149). lia. }
    change (2 - 2 ^ (8 - 1) - 23) with (-149) in N. change (2 ^ 8 - 1) with 255 in HR.
    replace (e - -149 + 925) with (e + 1074) in N by lia. rewrite <- HX in N.
    destruct (single_at neg r HR) as (A & B & C & D).
    split; [apply A|]. split; [exact B|]. split; [|tauto]. intros _. split; [exact A|].
    intros s' Hs'. destruct (a_single _ Hs') as (neg' & r' & -> & Hr').
    destruct (single_at neg' r' Hr') as (_ & _ & C' & _). rewrite C, C', <- Z.even_spec, D.
    replace (if Z.b2z neg =? 0 then 1 else -1) with (sg neg) by (now destruct neg).
    assert (0 <= X) by (rewrite HX; pose proof (pow2_pos (e + 1074) ltac:(lia)); nia).
    apply (signed_nearest 23 925); auto; lia. }
  destruct (Z.eqb_spec E 0) as [->|NZ]; intros H.
  - apply (FIN M (-1074)); auto; lia.
  - apply (FIN (2 ^ 52 + M) (E + 1 - 2 ^ (11 - 1) - 52)); auto; change (2 ^ (11 - 1)) with 1024; try lia.
    f_equal. f_equal. lia.
Qed.

Lemma narrowed_unique b s s' : narrowed b s -> narrowed b s' -> s = s'.
Proof.
  intros (R & S & F & I) (R' & S' & F' & I'). destruct (Z.eq_dec (double_exponent b) 2047) as [E|E].
  - destruct (I ltac:(unfold finite_double; tauto)) as [A B], (I' ltac:(unfold finite_double; tauto)) as [A' B'].
    unfold single_exponent, single_mantissa in *.
    assert (D : forall x, 0 <= x < 2 ^ 32 -> x = (x / 2 ^ 31) * 2 ^ 31 + ((x / 2 ^ 23) mod 256) * 2 ^ 23 + x mod 2 ^ 23).
    { intros x Hx. pose proof (Z.div_mod x (2 ^ 23) ltac:(lia)). pose proof (Z.div_mod (x / 2 ^ 23) 256 ltac:(lia)) as H0.
      rewrite Z.div_div in H0 by lia. change (2 ^ 23 * 256) with (2 ^ 31) in H0. lia. }
    rewrite (D s R), (D s' R'). congruence.
  - apply (nearest_single_unique (double_number b)); auto. congruence.
Qed.

(** C04: which single a double is folded to. *)
Lemma single_rounding orc f : sized f 4 ->
  exists m, create orc (DFloat f) None = Ok (Some m) /\
    forall b c, 0 <= b < 2 ^ 64 -> ~ too_large_for_single b ->
      exists w, fst (foldbs orc m (VFloat b) c) = Ok (VBytes w) /\ len w = 4 /\
        forall s, narrowed b s <-> s = stored_number (order_on (o_host orc) (f_bo f)) w.
Proof.
  intros Hs. assert (Hn : In 4 [4; 8]) by (cbn; auto).
  eexists. split; [exact (create_float orc f 4 Hn Hs)|]. intros b c Hb T.
  rewrite (fold_float _ _ 4) by assumption. cbn [Z.eqb Pos.eqb]. rewrite <- narrow_overflow in T by assumption.
  destruct (f64_to_f32 b) as [s0|] eqn:E; [|congruence]. pose proof (narrowed_f64 _ _ Hb E) as N.
  eexists. split; [reflexivity|]. split; [unfold len; now rewrite enc_n_length|].
  intros s. rewrite stored_number_enc by exact (proj1 N). split; [intros N'; eapply narrowed_unique; eauto|intros ->; exact N].
Qed.

(** ** Integers given for floats *)

Lemma int_overflow z : Z_to_f64 z = None <-> too_large_for_double z.
Proof.
  unfold Z_to_f64, too_large_for_double. pose proof (Z.abs_nonneg z) as Hm. set (m := Z.abs z) in *. clearbody m.
  assert (Q : forall o, option_map (with_sign 52 11 (z <? 0)) o = None <-> o = None) by (intros [?|]; cbn; split; congruence).
  rewrite Q. clear Q. unfold ieee_round. change (2 - 2 ^ (11 - 1) - 52) with (-1074). change (2 ^ 11 - 1) with 2047.
  assert (B : 2 ^ 53 * 2 ^ 970 <= (2 ^ 54 - 1) * 2 ^ 970) by (vm_compute; discriminate).
  destruct (Z.eqb_spec m 0) as [->|Nm].
  { split; [discriminate|]. intros H. exfalso. assert (0 < 2 ^ 53 * 2 ^ 970) by reflexivity. lia. }
  pose proof (Z.log2_spec m ltac:(lia)) as Hl. pose proof (Z.log2_nonneg m) as Hl0. set (l := Z.log2 m) in *. clearbody l.
  rewrite Z.max_r by lia. rewrite Z.add_0_r.
  assert (O : forall x, (if 2047 * 2 ^ 52 <=? x then None else Some x) = None <-> 2047 * 2 ^ 52 <= x).
  { intros x. destruct (Z.leb_spec (2047 * 2 ^ 52) x); split; auto; try discriminate; lia. }
  rewrite O. clear O.
  destruct (Z.leb_spec (l - 52) 0) as [K|K].
  - pose proof (pow2_pos (0 - (l - 52)) ltac:(lia)).
    assert (m * 2 ^ (0 - (l - 52)) < 2 * 2 ^ 52).
    { apply Z.lt_le_trans with (2 ^ Z.succ l * 2 ^ (0 - (l - 52))); [nia|].
      rewrite <- Z.pow_add_r by lia. change (2 * 2 ^ 52) with (2 ^ 53). apply Z.pow_le_mono_r; lia. }
    assert (m < 2 ^ 53). { apply Z.lt_le_trans with (2 ^ Z.succ l); [lia|]. apply Z.pow_le_mono_r; lia. }
    split; intros; exfalso; [nia|]. assert (2 ^ 53 <= 2 ^ 53 * 2 ^ 970) by (vm_compute; discriminate). lia.
  - rewrite Z.sub_0_r.
    assert (U : round_shift m (l - 52) <= 2 ^ 53).
    { apply round_shift_upper; [lia|lia|]. split; [lia|]. replace (53 + (l - 52)) with (Z.succ l) by lia. lia. }
    change (2 ^ 53) with (2 * 2 ^ 52) in U.
    destruct (Z.lt_trichotomy l 1023) as [L|[->|L]].
    + assert (m < 2 ^ 1023). { apply Z.lt_le_trans with (2 ^ Z.succ l); [lia|]. apply Z.pow_le_mono_r; lia. }
      assert (2 ^ 1023 = 2 ^ 53 * 2 ^ 970) by reflexivity.
      split; intros; exfalso; [nia|]. lia.
    + pose proof (round_shift_ge m (1023 - 52) 53 ltac:(lia) ltac:(lia) Hm) as G.
      change (53 + 1) with 54 in G. change (1023 - 52 - 1) with 970 in G. rewrite <- G.
      change (2 ^ 53) with (2 * 2 ^ 52). lia.
    + assert (G : 2 ^ 52 <= round_shift m (l - 52)).
      { apply round_shift_ge; [lia|lia|lia|]. apply Z.le_trans with (2 ^ 53 * 2 ^ (l - 52 - 1)).
        - pose proof (pow2_pos (l - 52 - 1) ltac:(lia)). change (52 + 1) with 53. nia.
        - rewrite <- Z.pow_add_r by lia. replace (53 + (l - 52 - 1)) with l by lia. lia. }
      split; intros _; [|nia]. apply Z.le_trans with (2 ^ 1024); [vm_compute; discriminate|].
      apply Z.le_trans with (2 ^ l); [apply Z.pow_le_mono_r; lia|lia].
Qed.

Lemma int_nearest z w : Z_to_f64 z = Some w ->
  nearest_double (integer_number z) w /\ w / 2 ^ 63 = (if z <? 0 then 1 else 0).
Proof.
  unfold Z_to_f64. intros H. destruct (ieee_round 52 11 (Z.abs z) 0) as [r|] eqn:R; [|discriminate].
  cbn in H. inversion H; subst w; clear H.
  destruct (round_nearest 52 11 (Z.abs z) 0 r 0 ltac:(lia) ltac:(lia) ltac:(lia) R ltac:(lia)) as [HR N].
  { change (2 - 2 ^ (11 - 1) - 52) with (-1074). lia. }
  change (2 - 2 ^ (11 - 1) - 52) with (-1074) in N. change (2 ^ 11 - 1) with 2047 in HR. change (0 - -1074 + 0) with 1074 in N.
  destruct (double_at (z <? 0) r HR) as (A & B & C & D). split; [|rewrite B; now destruct (z <? 0)].
  split; [exact A|]. intros w' Hw'. destruct (a_double _ Hw') as (neg' & r' & -> & Hr').
  destruct (double_at neg' r' Hr') as (_ & _ & C' & _). rewrite C, C', <- Z.even_spec, D.
  replace (integer_number z) with (sg (z <? 0) * (Z.abs z * 2 ^ 1074)).
  - apply (signed_nearest 52 0); auto; try lia; try (pose proof (pow2_pos 1074 ltac:(lia)); lia).
  - unfold integer_number. rewrite Z.mul_assoc. f_equal. destruct (Z.ltb_spec z 0); cbn [sg]; lia.
Qed.

Lemma fold_float_int orc f n z c :
  In n [4; 8] -> sized f n ->
  fst (foldbs orc (MPrim (DFloat f)
        (Some (op1 (order_on (o_host orc) (f_bo f)) (float_code n)))) (VInt z) c)
  = match Z_to_f64 z with
    | Some w => fst (foldbs orc (MPrim (DFloat f)
        (Some (op1 (order_on (o_host orc) (f_bo f)) (float_code n)))) (VFloat w) c)
    | None => Raise FoldingError
    end.
Proof.
  intros Hn Hs. cbn [foldbs fst]. unfold fold_prim. cbn [fold_value bind fst].
  destruct Hn as [<-|[<-|[]]]; rewrite write_op1; cbn [float_code pack1 Z.eqb Pos.eqb];
    (destruct (Z_to_f64 z); [rewrite write_op1|]; reflexivity).
Qed.

(** C04: integers given for floats. *)
Lemma integer_rounding orc f n : In n [4; 8] -> sized f n ->
  exists m, create orc (DFloat f) None = Ok (Some m) /\
    forall z c,
      (too_large_for_double z -> fst (foldbs orc m (VInt z) c) = Raise FoldingError) /\
      (~ too_large_for_double z -> exists w,
         (forall w', nearest_double (integer_number z) w' /\ w' / 2 ^ 63 = (if z <? 0 then 1 else 0) <-> w' = w) /\
         fst (foldbs orc m (VInt z) c) = fst (foldbs orc m (VFloat w) c)).
Proof.
  intros Hn Hs. eexists. split; [exact (create_float orc f n Hn Hs)|]. intros z c.
  rewrite fold_float_int by assumption. rewrite <- int_overflow. destruct (Z_to_f64 z) as [w|] eqn:E.
  - split; [discriminate|]. intros _. exists w. split; auto. destruct (int_nearest z w E) as [A B].
    intros w'. split; [intros [A' B']; eapply nearest_double_unique; eauto; congruence|intros ->; auto].
  - split; [auto|congruence].
Qed.

(** C04: an integer given for a four byte float is rounded twice. *)
Lemma integer_single_refuted : exists d m z w,
  d = DFloat (fixed_of "float32" BOBig 4) /\ create demo d None = Ok (Some m) /\
  fst (foldbs demo m (VInt z) None) = Ok (VBytes w) /\
  ~ nearest_single (integer_number z) (stored_number Big w).
Proof.
  exists (DFloat (fixed_of "float32" BOBig 4)). eexists. exists (2 ^ 60 + 2 ^ 36 + 1). eexists.
  split; [reflexivity|]. split; [vm_compute; reflexivity|]. split; [vm_compute; reflexivity|].
  intros [_ N]. destruct (N (187 * 2 ^ 23 + 1)) as [A _].
  - split; vm_compute; [split; congruence|congruence].
  - vm_compute in A. now apply A.
Qed.
