(** Whole numbers in definition files. *)
From Coq Require Import String List ZArith QArith Qpower Bool Lia Lqa.
From Verif Require Import Base Ieee BytesProofs PyVal Yaml SpecEqual EqualProofs.
Import ListNotations.
Open Scope Z_scope.
#[local] Arguments Z.pow : simpl never.
#[local] Arguments Z.mul : simpl never.
#[local] Arguments Z.div : simpl never.

Definition whole_part (m e : Z) : Z := if 0 <=? e then m * 2 ^ e else m / 2 ^ (- e).

Lemma whole_part_bounds m e : 0 <= m -> 0 <= whole_part m e /\
  (inject_Z (whole_part m e) <= inject_Z m * Qpower 2 e)%Q /\ (inject_Z m * Qpower 2 e < inject_Z (whole_part m e + 1))%Q.
Proof.
  intros M. unfold whole_part. destruct (0 <=? e) eqn:E.
  - apply Z.leb_le in E. pose proof (Z.pow_nonneg 2 e ltac:(lia)). split; [nia|].
    rewrite <- inject_pow by lia. rewrite <- inject_Z_mult, <- Zle_Qle, <- Zlt_Qlt. lia.
  - apply Z.leb_gt in E. set (P := 2 ^ (- e)). assert (HP : 0 < P) by (apply Z.pow_pos_nonneg; lia).
    assert (Q1 : (Qpower 2 e == / inject_Z P)%Q).
    { unfold P. rewrite inject_pow by lia. rewrite <- Qpower_opp. now replace (- - e) with e by lia. }
    assert (PQ : (0 < inject_Z P)%Q) by (change 0%Q with (inject_Z 0); rewrite <- Zlt_Qlt; exact HP).
    split; [apply Z.div_pos; lia|]. rewrite Q1. change (inject_Z m * / inject_Z P)%Q with (inject_Z m / inject_Z P)%Q.
    pose proof (Z.mul_div_le m P HP). pose proof (Z.mul_succ_div_gt m P HP). split.
    + apply Qle_shift_div_l; auto. rewrite <- inject_Z_mult, <- Zle_Qle. lia.
    + apply Qlt_shift_div_r; auto. rewrite <- inject_Z_mult, <- Zlt_Qlt. lia.
Qed.

Lemma fin_mantissa a b c n m e : FFin a b c = FFin n m e -> m = b.
Proof. congruence. Qed.

(** The mantissa of a decoded double is not negative. *)
Lemma decoded_mantissa bits n m e : ieee_decode 52 11 bits = FFin n m e -> 0 <= m.
Proof.
  unfold ieee_decode. cbv zeta. pose proof (Z.mod_pos_bound (bits mod 2 ^ (52 + 11)) (2 ^ 52) ltac:(lia)) as B.
  destruct (_ =? 2 ^ 11 - 1); [destruct (_ =? 0); discriminate|]. destruct (_ =? 0); intros H; apply fin_mantissa in H; rewrite H; lia.
Qed.

(** C46: a number that stands where a whole number is expected loses its fraction. *)
Lemma int_of_float env bits q : double_value bits q -> exists z, y_int env (YFloat bits) = Ok z /\ truncated q z.
Proof.
  intros D. apply double_num in D. destruct D as (p & F & E). unfold fnum in F. cbn [y_int].
  destruct (ieee_decode 52 11 bits) as [n|n p0|n m e] eqn:I; try discriminate F. injection F as <-.
  apply decoded_mantissa in I. destruct (whole_part_bounds m e I) as (N & L & U).
  fold (whole_part m e). eexists. split; [reflexivity|]. set (w := whole_part m e) in *. clearbody w.
  unfold dyadic in E. pose proof (two_pos e) as T.
  assert (MP : (0 <= inject_Z m * Qpower 2 e)%Q).
  { apply Qmult_le_0_compat; [change 0%Q with (inject_Z 0); rewrite <- Zle_Qle; lia|]. apply Qlt_le_weak, T. }
  destruct n.
  - rewrite inject_Z_opp in E. assert (E' : (q == - (inject_Z m * Qpower 2 e))%Q) by (rewrite <- E; ring).
    unfold truncated. unfold Z.sub. rewrite !inject_Z_plus, !inject_Z_opp. rewrite inject_Z_plus in U. change (inject_Z 1) with 1%Q in *. set (x := (inject_Z m * Qpower 2 e)%Q) in *. clearbody x.
    assert (W : (0 <= inject_Z w)%Q) by (change 0%Q with (inject_Z 0); rewrite <- Zle_Qle; lia).
    split; intros S.
    + assert (X0 : (x == 0)%Q) by lra. assert (W0 : (inject_Z w == 0)%Q) by lra. split; lra.
    + split; lra.
  - set (x := (inject_Z m * Qpower 2 e)%Q) in *. clearbody x.
    assert (W : (0 <= inject_Z w)%Q) by (change 0%Q with (inject_Z 0); rewrite <- Zle_Qle; lia).
    unfold truncated, Z.sub. rewrite !inject_Z_plus in *. change (inject_Z 1) with 1%Q in *. rewrite inject_Z_opp. change (inject_Z 1) with 1%Q.
    split; intros S; split; lra.
Qed.

(** Infinities and NaN are no whole numbers. *)
Lemma int_of_infinity env s : 0 <= s <= 1 -> y_int env (YFloat (pattern s 2047 0)) = Raise OverflowError.
Proof. intros S. cbn [y_int]. rewrite decode_pattern by lia. reflexivity. Qed.

Lemma int_of_nan env s m : 0 <= s <= 1 -> 0 < m < 2 ^ 52 -> y_int env (YFloat (pattern s 2047 m)) = Raise ValueError.
Proof.
  intros S M. cbn [y_int]. rewrite decode_pattern by lia. cbn [Z.eqb Pos.eqb].
  change (2047 =? 2047) with true. cbv iota. replace (m =? 0) with false by (symmetry; apply Z.eqb_neq; lia). reflexivity.
Qed.

Lemma int_of_number env bits q s m :
  (double_value bits q -> exists z, y_int env (YFloat bits) = Ok z /\ truncated q z) /\
  (0 <= s <= 1 -> y_int env (YFloat (pattern s 2047 0)) = Raise OverflowError) /\
  (0 <= s <= 1 -> 0 < m < 2 ^ 52 -> y_int env (YFloat (pattern s 2047 m)) = Raise ValueError).
Proof. split; [apply int_of_float|]. split; [apply int_of_infinity|apply int_of_nan]. Qed.
