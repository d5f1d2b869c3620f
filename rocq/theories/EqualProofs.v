(** Proofs about equality of values. *)
From Coq Require Import String List ZArith QArith Qpower Bool Lia Lqa.
From Verif Require Import Base Ieee BytesProofs PyVal Yaml SpecEqual.
Import ListNotations.
Open Scope Z_scope.
Arguments Z.pow : simpl never.
Arguments Z.mul : simpl never.
Arguments Z.div : simpl never.
Arguments Z.modulo : simpl never.

(** * The number of a decoded double *)

Definition dyadic (n : bool) (m e : Z) : Q :=
  (inject_Z (if n then - m else m) * Qpower 2 e)%Q.

Lemma two_pos : forall e, (0 < Qpower 2 e)%Q.
Proof. intros e. apply Qpower_0_lt. reflexivity. Qed.

Lemma inject_pow : forall e, 0 <= e -> (inject_Z (2 ^ e) == Qpower 2 e)%Q.
Proof. intros e H. rewrite Zpower_Qpower by exact H. reflexivity. Qed.

Lemma dyadic_eqb_iff : forall n1 m1 e1 n2 m2 e2,
  dyadic_eqb n1 m1 e1 n2 m2 e2 = true <-> (dyadic n1 m1 e1 == dyadic n2 m2 e2)%Q.
Proof.
  intros n1 m1 e1 n2 m2 e2. unfold dyadic_eqb, dyadic.
  set (s1 := if n1 then - m1 else m1). set (s2 := if n2 then - m2 else m2).
  set (e := Z.min e1 e2). rewrite Z.eqb_eq.
  assert (P1 : (Qpower 2 e1 == inject_Z (2 ^ (e1 - e)) * Qpower 2 e)%Q).
  { rewrite inject_pow by (unfold e; lia). rewrite <- Qpower_plus by discriminate.
    replace (e1 - e + e) with e1 by lia. reflexivity. }
  assert (P2 : (Qpower 2 e2 == inject_Z (2 ^ (e2 - e)) * Qpower 2 e)%Q).
  { rewrite inject_pow by (unfold e; lia). rewrite <- Qpower_plus by discriminate.
    replace (e2 - e + e) with e2 by lia. reflexivity. }
  rewrite P1, P2, !Qmult_assoc, <- !inject_Z_mult.
  split; intros H.
  - rewrite H. reflexivity.
  - apply Qmult_inj_r in H.
    + unfold Qeq in H. cbn in H. lia.
    + intros C. pose proof (two_pos e) as P. rewrite C in P. discriminate P.
Qed.

(** What a value is as a number. *)
Inductive nval : Type :=
| NNumber (q : Q)
| NInf (n : bool)
| NNan
| NNone.

Definition fnum (bits : Z) : nval :=
  match ieee_decode 52 11 bits with
  | FFin n m e => NNumber (dyadic n m e)
  | FInf n => NInf n
  | FNan _ _ => NNan
  end.

Definition neq (a b : nval) : Prop :=
  match a, b with
  | NNumber p, NNumber q => (p == q)%Q
  | NInf n, NInf n' => n = n'
  | _, _ => False
  end.

Lemma neq_sym : forall a b, neq a b -> neq b a.
Proof. intros [] []; cbn; auto. intros H. symmetry. exact H. Qed.

Lemma neq_trans : forall a b c, neq a b -> neq b c -> neq a c.
Proof.
  intros [] [] []; cbn; try tauto; try congruence. intros H1 H2. rewrite H1. exact H2.
Qed.

Definition znum (z : Z) : nval := NNumber (inject_Z z).

Lemma f64_eqb_iff : forall a b, f64_eqb a b = true <-> neq (fnum a) (fnum b).
Proof.
  intros a b. unfold f64_eqb, fnum.
  destruct (ieee_decode 52 11 a), (ieee_decode 52 11 b); cbn [neq];
    try (split; [discriminate|contradiction]).
  - apply Bool.eqb_true_iff.
  - apply dyadic_eqb_iff.
Qed.

Lemma dyadic_int : forall z, (dyadic (z <? 0) (Z.abs z) 0 == inject_Z z)%Q.
Proof.
  intros z. unfold dyadic. change (Qpower 2 0) with 1%Q. rewrite Qmult_1_r.
  destruct (Z.ltb_spec z 0).
  - replace (- Z.abs z) with z by lia. reflexivity.
  - rewrite Z.abs_eq by lia. reflexivity.
Qed.

Lemma f64_eqZ_iff : forall a z, f64_eqZ a z = true <-> neq (fnum a) (znum z).
Proof.
  intros a z. unfold f64_eqZ, fnum. destruct (ieee_decode 52 11 a); cbn [neq znum];
    try (split; [discriminate|contradiction]).
  rewrite dyadic_eqb_iff, dyadic_int. reflexivity.
Qed.

Lemma znum_iff : forall a b, (a =? b) = true <-> neq (znum a) (znum b).
Proof.
  intros a b. cbn. rewrite Z.eqb_eq. split; intros H; [subst; reflexivity|].
  unfold Qeq in H. cbn in H. lia.
Qed.

(** * Equality of YAML values is transitive *)

Definition ynum (v : yval) : nval :=
  match v with
  | YBool b => znum (Z.b2z b)
  | YInt z => znum z
  | YFloat f => fnum f
  | _ => NNone
  end.

Definition is_num (n : nval) : bool := match n with NNone => false | _ => true end.

Lemma y_eqb_num : forall a b, is_num (ynum a) = true ->
  y_eqb a b = true <-> neq (ynum a) (ynum b).
Proof.
  intros a b H. destruct a; try discriminate H; destruct b; cbn [y_eqb ynum];
    try (split; [discriminate|destruct (fnum bits); intros []]);
    try (split; [discriminate|intros []]).
  - rewrite <- znum_iff. destruct b0, b; cbn; intuition congruence.
  - apply znum_iff.
  - rewrite f64_eqZ_iff. split; apply neq_sym.
  - rewrite <- znum_iff, !Z.eqb_eq. intuition congruence.
  - apply znum_iff.
  - rewrite f64_eqZ_iff. split; apply neq_sym.
  - apply f64_eqZ_iff.
  - apply f64_eqZ_iff.
  - apply f64_eqb_iff.
Qed.

Lemma y_eqb_nonnum : forall a b, is_num (ynum a) = false -> y_eqb a b = true ->
  is_num (ynum b) = false.
Proof.
  intros a b H E. destruct a; try discriminate H; destruct b; cbn in E; try discriminate E;
    try reflexivity; cbn in H; unfold fnum in H;
    destruct (ieee_decode 52 11 bits); discriminate H.
Qed.

Lemma is_num_neq : forall a b, neq a b -> is_num b = true.
Proof. intros [] []; cbn; tauto || auto. Qed.

Lemma list_eqb_Z_iff : forall a b, list_eqb Z.eqb a b = true <-> a = b.
Proof.
  induction a as [|x a IH]; intros [|y b]; cbn; split; intros H; try discriminate H; try reflexivity.
  - apply andb_true_iff in H. destruct H as [H1 H2]. apply Z.eqb_eq in H1. apply IH in H2. congruence.
  - injection H as -> ->. rewrite Z.eqb_refl. cbn. apply IH. reflexivity.
Qed.

Lemma y_eqb_trans : forall a b c, y_eqb a b = true -> y_eqb b c = true -> y_eqb a c = true.
Proof.
  fix IH 1. intros a b c H1 H2.
  destruct (is_num (ynum a)) eqn:N.
  - apply (y_eqb_num _ _ N) in H1. pose proof (is_num_neq _ _ H1) as Nb.
    apply (y_eqb_num _ _ Nb) in H2. apply (y_eqb_num _ _ N). exact (neq_trans _ _ _ H1 H2).
  - destruct a; try discriminate N; destruct b; cbn [y_eqb] in H1; try discriminate H1;
      try (cbn [ynum] in N; unfold fnum in N; destruct (ieee_decode 52 11 bits); discriminate N);
      destruct c; cbn [y_eqb] in H2; try discriminate H2; cbn [y_eqb].
    + reflexivity.
    + apply list_eqb_Z_iff in H1, H2. apply list_eqb_Z_iff. congruence.
    + apply bytes_eqb_eq in H1, H2. apply bytes_eqb_eq. congruence.
    + apply Z.eqb_eq in H1, H2. apply Z.eqb_eq. congruence.
    + clear N. revert l0 l1 H1 H2. induction l as [|x l IHl]; intros [|y l0] [|z l1] H1 H2;
        try discriminate H1; try discriminate H2; try reflexivity.
      apply andb_true_iff in H1, H2. destruct H1 as [A1 A2], H2 as [B1 B2].
      apply andb_true_iff. split; [exact (IH x y z A1 B1)|exact (IHl _ _ A2 B2)].
Qed.

(** * Equality of Python values *)

Definition pnum (v : pyval) : nval :=
  match v with
  | VBool b => znum (Z.b2z b)
  | VInt z => znum z
  | VFloat f => fnum f
  | _ => NNone
  end.

Lemma py_eq_num : forall a b, is_num (pnum a) = true ->
  py_eq a b = true <-> neq (pnum a) (pnum b).
Proof.
  intros a b H. destruct a; try discriminate H; destruct b; cbn [py_eq pnum];
    try (split; [discriminate|destruct (fnum bits); intros []]);
    try (split; [discriminate|intros []]).
  - rewrite <- znum_iff. destruct b0, b; cbn; intuition congruence.
  - apply znum_iff.
  - rewrite f64_eqZ_iff. split; apply neq_sym.
  - rewrite <- znum_iff, !Z.eqb_eq. intuition congruence.
  - apply znum_iff.
  - rewrite f64_eqZ_iff. split; apply neq_sym.
  - apply f64_eqZ_iff.
  - apply f64_eqZ_iff.
  - apply f64_eqb_iff.
Qed.

(** The fields of a pattern. *)
Lemma pattern_fields : forall bits, 0 <= bits < 2 ^ 64 ->
  exists s e m, bits = pattern s e m /\ 0 <= s <= 1 /\ 0 <= e < 2048 /\ 0 <= m < 2 ^ 52.
Proof.
  intros bits B. exists (bits / 2 ^ 63), ((bits mod 2 ^ 63) / 2 ^ 52), (bits mod 2 ^ 52).
  pose proof (Z.div_mod bits (2 ^ 63) ltac:(lia)) as D1.
  pose proof (Z.mod_pos_bound bits (2 ^ 63) ltac:(lia)) as M1.
  pose proof (Z.div_mod (bits mod 2 ^ 63) (2 ^ 52) ltac:(lia)) as D2.
  pose proof (Z.mod_pos_bound (bits mod 2 ^ 63) (2 ^ 52) ltac:(lia)) as M2.
  pose proof (Z.mod_pos_bound bits (2 ^ 52) ltac:(lia)) as M3.
  assert (E : (bits mod 2 ^ 63) mod 2 ^ 52 = bits mod 2 ^ 52).
  { change (2 ^ 63) with (2 ^ 52 * 2 ^ 11). rewrite Z.rem_mul_r by lia.
    rewrite (Z.mul_comm (2 ^ 52)), Z.mod_add by lia. apply Z.mod_mod. lia. }
  unfold pattern. split; [rewrite E in D2; lia|].
  split; [|split; [|exact M3]].
  - split; [apply Z.div_pos; lia|]. apply Z.lt_succ_r, Z.div_lt_upper_bound; lia.
  - split; [apply Z.div_pos; lia|]. apply Z.div_lt_upper_bound; lia.
Qed.

Lemma decode_pattern : forall s e m, 0 <= s <= 1 -> 0 <= e < 2048 -> 0 <= m < 2 ^ 52 ->
  ieee_decode 52 11 (pattern s e m) =
    if e =? 2047 then (if m =? 0 then FInf (s =? 1) else FNan (s =? 1) m)
    else if e =? 0 then FFin (s =? 1) m (- 1074)
    else FFin (s =? 1) (2 ^ 52 + m) (e - 1075).
Proof.
  intros s e m S E M. unfold ieee_decode, pattern.
  change (52 + 11) with 63. change (2 ^ 11 - 1) with 2047.
  change (2 - 2 ^ (11 - 1) - 52) with (- 1074).
  replace (e + 1 - 2 ^ (11 - 1) - 52) with (e - 1075) by (change (2 ^ (11 - 1)) with 1024; lia).
  assert (Rem : (s * 2 ^ 63 + e * 2 ^ 52 + m) mod 2 ^ 63 = e * 2 ^ 52 + m).
  { rewrite <- Z.add_assoc, Z.add_comm, Z.mod_add by lia. apply Z.mod_small. nia. }
  rewrite Rem.
  assert (Quo : (e * 2 ^ 52 + m) / 2 ^ 52 = e).
  { rewrite Z.add_comm, Z.div_add by lia. rewrite Z.div_small by exact M. lia. }
  assert (Low : (e * 2 ^ 52 + m) mod 2 ^ 52 = m).
  { rewrite Z.add_comm, Z.mod_add by lia. apply Z.mod_small. exact M. }
  rewrite Quo, Low.
  replace (2 ^ 63 <=? s * 2 ^ 63 + e * 2 ^ 52 + m) with (s =? 1).
  2:{ assert (C : s = 0 \/ s = 1) by lia. destruct C as [-> | ->].
      - symmetry. apply Z.leb_gt. lia.
      - symmetry. apply Z.leb_le. lia. }
  replace (2 - 2 ^ (11 - 1) - 52) with (- 1074) by reflexivity.
  replace (e + 1 - 2 ^ (11 - 1) - 52) with (e - 1075) by (change (2 ^ (11 - 1)) with 1024; lia).
  reflexivity.
Qed.

Lemma sign_dyadic : forall s m e, 0 <= s <= 1 ->
  (dyadic (s =? 1) m e == sign_of s * inject_Z m * Qpower 2 e)%Q.
Proof.
  intros s m e S. unfold dyadic, sign_of.
  assert (C : s = 0 \/ s = 1) by lia. destruct C as [-> | ->]; cbn [Z.eqb Pos.eqb].
  - rewrite Qmult_1_l. reflexivity.
  - rewrite inject_Z_opp. ring.
Qed.

Lemma pow52 : forall e, (Qpower 2 (e - 52) == / inject_Z (2 ^ 52) * Qpower 2 e)%Q.
Proof.
  intros e. replace (e - 52) with (- 52 + e) by lia. rewrite Qpower_plus by discriminate.
  rewrite inject_pow by lia. change (- 52) with (Z.opp 52).
  pose proof (Qpower_opp 2 52) as O. rewrite O. reflexivity.
Qed.

(** The number of a pattern is the one it stands for. *)
Lemma double_num : forall bits q, double_value bits q -> exists p, fnum bits = NNumber p /\ (p == q)%Q.
Proof.
  intros bits q H. destruct H as [s e m S E M|s m S M]; unfold fnum.
  - rewrite decode_pattern by lia.
    destruct (Z.eqb_spec e 2047); [lia|]. destruct (Z.eqb_spec e 0); [lia|].
    eexists. split; [reflexivity|]. rewrite sign_dyadic by exact S.
    replace (e - 1075) with ((e - 1023) - 52) by lia. rewrite pow52, inject_Z_plus.
    field. discriminate.
  - rewrite decode_pattern by lia. cbn [Z.eqb].
    eexists. split; [reflexivity|]. rewrite sign_dyadic by exact S.
    change (- 1074) with (- 1022 - 52). rewrite pow52. field. discriminate.
Qed.

Lemma double_cases : forall bits, 0 <= bits < 2 ^ 64 ->
  (exists p q, fnum bits = NNumber p /\ double_value bits q)
  \/ (exists s, 0 <= s <= 1 /\ bits = pattern s 2047 0 /\ fnum bits = NInf (s =? 1))
  \/ fnum bits = NNan.
Proof.
  intros bits B. destruct (pattern_fields bits B) as [s [e [m [-> [S [E M]]]]]].
  unfold fnum. rewrite decode_pattern by assumption.
  destruct (Z.eqb_spec e 2047) as [-> | N].
  - destruct (Z.eqb_spec m 0) as [-> | Nm]; [right; left; exists s; auto|auto].
  - left. destruct (Z.eqb_spec e 0) as [-> | N0]; eexists; eexists; (split; [reflexivity|]).
    + apply DSubnormal; assumption.
    + apply DNormal; lia.
Qed.

Lemma denotes_num : forall v q, denotes v q -> exists p, pnum v = NNumber p /\ (p == q)%Q.
Proof.
  intros v q H. destruct H as [z|b|bits q H]; cbn [pnum].
  - eexists. split; [reflexivity|reflexivity].
  - eexists. split; [reflexivity|]. destruct b; reflexivity.
  - exact (double_num _ _ H).
Qed.

Lemma num_denotes : forall v p, proper v -> pnum v = NNumber p -> exists q, denotes v q /\ (p == q)%Q.
Proof.
  intros v p P H. destruct v; cbn [pnum] in H; try discriminate H.
  - injection H as <-. eexists. split; [constructor|]. destruct b; reflexivity.
  - injection H as <-. eexists. split; [constructor|reflexivity].
  - inversion P as [? B | |? C]; subst; [|contradiction].
    destruct (double_cases _ B) as [[p' [q [E D]]]|[[s [_ [_ E]]]|E]]; try congruence.
    exists q. split; [constructor; exact D|].
    destruct (double_num _ _ D) as [p2 [E2 Q2]]. rewrite E2 in H. injection H as <-. exact Q2.
Qed.

Theorem equality : forall v w, proper v -> proper w -> (py_eq v w = true <-> equal v w).
Proof.
  fix IH 1. intros v w Pv Pw.
  destruct (is_num (pnum v)) eqn:N.
  - rewrite (py_eq_num _ _ N). split.
    + intros H. destruct (pnum v) as [p|n| |] eqn:Ev, (pnum w) as [q|n'| |] eqn:Ew;
        cbn in H; try contradiction.
      * destruct (num_denotes _ _ Pv Ev) as [p' [Dp Qp]].
        destruct (num_denotes _ _ Pw Ew) as [q' [Dq Qq]].
        apply (EqNumbers _ _ p' q' Dp Dq). rewrite <- Qp, <- Qq. exact H.
      * subst n'. destruct v; try discriminate Ev. destruct w; try discriminate Ew.
        cbn [pnum] in Ev, Ew.
        inversion Pv as [? Bv | |? C]; subst; [|contradiction].
        inversion Pw as [? Bw | |? C]; subst; [|contradiction].
        destruct (double_cases _ Bv) as [[? [? [E _]]]|[[s [S [E Es]]]|E]]; try congruence.
        destruct (double_cases _ Bw) as [[? [? [E' _]]]|[[s' [S' [E' Es']]]|E']]; try congruence.
        assert (s = s').
        { rewrite Ev in Es. rewrite Ew in Es'. injection Es as Es. injection Es' as Es'.
          subst n. destruct (Z.eqb_spec s 1), (Z.eqb_spec s' 1); try discriminate; lia. }
        subst s'. rewrite E, E'. constructor. exact S.
    + intros H. destruct H; try discriminate N.
      * destruct (denotes_num _ _ H) as [p' [E1 Q1]]. destruct (denotes_num _ _ H0) as [q' [E2 Q2]].
        rewrite E1, E2. cbn. rewrite Q1, Q2. exact H1.
      * cbn [pnum]. unfold fnum. rewrite decode_pattern by lia. cbn. reflexivity.
  - destruct v; try discriminate N;
      try (cbn [pnum] in N; unfold fnum in N; destruct (ieee_decode 52 11 bits); discriminate N).
    + destruct w; cbn; split; intros H; try discriminate H; try reflexivity; try constructor;
        inversion H; subst;
        match goal with D : denotes VNone _ |- _ => inversion D end.
    + destruct w; cbn [py_eq]; split; intros H; try discriminate H;
        try (inversion H; subst; match goal with D : denotes (VStr _) _ |- _ => inversion D end; fail).
      * apply list_eqb_Z_iff in H. subst. constructor.
      * apply list_eqb_Z_iff. inversion H; subst; [|reflexivity].
        match goal with D : denotes (VStr _) _ |- _ => inversion D end.
    + destruct w; cbn [py_eq]; split; intros H; try discriminate H;
        try (inversion H; subst; match goal with D : denotes (VBytes _) _ |- _ => inversion D end; fail).
      * apply bytes_eqb_eq in H. subst. constructor.
      * apply bytes_eqb_eq. inversion H; subst; [|reflexivity].
        match goal with D : denotes (VBytes _) _ |- _ => inversion D end.
    + destruct w; cbn [py_eq]; split; intros H; try discriminate H;
        try (inversion H; subst; match goal with D : denotes (VUUID _) _ |- _ => inversion D end; fail).
      * apply bytes_eqb_eq in H. subst. constructor.
      * apply bytes_eqb_eq. inversion H; subst; [|reflexivity].
        match goal with D : denotes (VUUID _) _ |- _ => inversion D end.
    + destruct w; cbn [py_eq]; split; intros H; try discriminate H;
        try (inversion H; subst; match goal with D : denotes (VTuple _) _ |- _ => inversion D end; fail).
      * constructor.
        inversion Pv as [|? Fv |? C]; subst; [|contradiction].
        inversion Pw as [|? Fw |? C]; subst; [|contradiction]. clear Pv Pw N.
        revert l0 Fw H. induction l as [|x l IHl]; intros [|y l0] Fw H; try discriminate H; constructor.
        -- apply andb_true_iff in H. inversion Fv; inversion Fw; subst. apply IH; tauto.
        -- apply andb_true_iff in H. inversion Fv; inversion Fw; subst. apply IHl; tauto.
      * inversion Pv as [|? Fv |? C]; subst; [|contradiction].
        inversion Pw as [|? Fw |? C]; subst; [|contradiction]. clear Pv Pw N.
        inversion H as [? ? ? ? D| | | | | | |? ? F]; subst; [inversion D|]. clear H.
        revert l0 Fw F. induction l as [|x l IHl]; intros [|y l0] Fw F; inversion F; subst;
          [reflexivity|].
        inversion Fv; inversion Fw; subst. apply andb_true_iff. split.
        -- apply IH; assumption.
        -- apply IHl; assumption.
    + destruct w; cbn; split; intros H; try discriminate H; inversion H; subst;
        match goal with D : denotes (VStruct _ _) _ |- _ => inversion D end.
    + destruct w; cbn; split; intros H; try discriminate H; try reflexivity; try constructor;
        inversion H; subst;
        match goal with D : denotes VBuiltins _ |- _ => inversion D end.
Qed.
