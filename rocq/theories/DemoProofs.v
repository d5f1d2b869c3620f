(** The evaluator used in the examples looks at a namespace only through the
    values of its names. *)
From Coq Require Import String Ascii List ZArith Bool Lia.
From Verif Require Import Base PyVal DataTypes DataMaps Expr Codec Demo BytesProofs CreateProofs SteadyProofs SpecMap SpecCreate.
Import ListNotations.
Open Scope Z_scope.

Lemma eval_ast_ext a e1 e2 : (forall k, dict_get k e1 = dict_get k e2) ->
  eval_ast a e1 = eval_ast a e2.
Proof.
  intros H. induction a; cbn [eval_ast]; auto.
  - now rewrite H.
  - now rewrite IHa.
  - now rewrite IHa.
  - now rewrite IHa1, IHa2.
Qed.

Lemma extensional_demo : extensional demo.
Proof.
  intros x e1 e2 H. cbn [demo o_eval]. unfold expr_eval. destruct (parse_expr x); auto.
  now rewrite (eval_ast_ext _ _ _ H).
Qed.

(** ** A check for sensible definitions *)

Definition opt_eqb {A} (f : A -> A -> bool) (a b : option A) : bool :=
  match a, b with Some x, Some y => f x y | None, None => true | _, _ => false end.

Definition meta_eqb (a b : meta) : bool :=
  String.eqb (m_name a) (m_name b) && list_eqb String.eqb (m_aliases a) (m_aliases b) &&
  opt_eqb String.eqb (m_desc a) (m_desc b).

Definition fixed_eqb (a b : fixed) : bool :=
  meta_eqb (f_meta a) (f_meta b) && bo_eqb (f_bo a) (f_bo b) && opt_eqb Z.eqb (f_size a) (f_size b) &&
  String.eqb (f_units a) (f_units b).

Definition same_simple (a b : dtype) : bool :=
  match a, b with
  | DInteger f u, DInteger g v => fixed_eqb f g && Bool.eqb u v
  | DCharacter f, DCharacter g => fixed_eqb f g
  | _, _ => false
  end.

Fixpoint nth_same (i : nat) (d : dtype) (l : list dtype) : bool :=
  match l with
  | [] => true
  | m :: r =>
      (negb (String.eqb (dt_name (type_of d)) (dt_name (type_of m))) || same_simple (type_of d) (type_of m))
      && nth_same i d r
  end.

Fixpoint apart (l : list dtype) : bool :=
  match l with [] => true | m :: r => nth_same 0 m r && apart r end.

Definition plain_name (s : string) : bool :=
  match s with String c _ => negb (Ascii.eqb c "_"%char) | EmptyString => true end.

Definition positive (o : option Z) : bool := match o with Some n => 0 <? n | None => true end.

Fixpoint fineb (d : dtype) : bool :=
  match d with
  | DBoolean f _ _ | DCharacter f | DFloat f | DInteger f _ => positive (fixed_byte_size f)
  | DUUID f => match fixed_byte_size f with Some n => n =? 16 | None => true end
  | DPadding _ _ a => match a with Some n => 0 <? n | None => false end
  | DElems k e el =>
      (negb (has_data_size e) || negb (has_number e)) && positive (e_data_size e) && positive (e_number e) &&
      match k, e_terminator e with
      | KSequence, Some VNone => false
      | KSequence, _ => true
      | _, None => true
      | _, Some (VBytes b) =>
          match get_byte_size el with Some n => (n =? len b) && (0 <? len b) | None => false end
      | _, Some _ => false
      end && fineb el
  | DStructure _ _ ms =>
      apart ms && forallb (fun m => plain_name (dt_name (type_of m))) ms && forallb fineb ms
  | DUnion _ _ ms => forallb fineb ms
  | DMember _ _ _ _ _ i => fineb i
  | DFamily _ b ms => fineb b && forallb fineb ms
  | DGroup _ _ b _ df ms => fineb b && match df with Some x => fineb x | None => true end && forallb fineb ms
  | _ => true
  end.

Lemma opt_eqb_eq {A} (f : A -> A -> bool) : (forall x y, f x y = true -> x = y) ->
  forall a b, opt_eqb f a b = true -> a = b.
Proof. intros H [x|] [y|] E; cbn in E; try discriminate; auto. f_equal. auto. Qed.

Lemma fixed_eqb_eq a b : fixed_eqb a b = true -> a = b.
Proof.
  destruct a as [[n1 a1 d1] b1 s1 u1], b as [[n2 a2 d2] b2 s2 u2]. unfold fixed_eqb, meta_eqb. cbn.
  rewrite !andb_true_iff. intros (((((N & A) & D) & B) & S) & U).
  apply String.eqb_eq in N, U. apply list_eqb_eq in A; [|intros; apply String.eqb_eq].
  apply opt_eqb_eq in D; [|intros x y; apply String.eqb_eq].
  apply opt_eqb_eq in S; [|intros x y; apply Z.eqb_eq].
  assert (b1 = b2) by (destruct b1, b2; cbn in B; congruence). subst. reflexivity.
Qed.

Lemma same_simple_eq a b : same_simple a b = true -> a = b.
Proof.
  destruct a, b; cbn; try discriminate.
  - intros H. apply fixed_eqb_eq in H. congruence.
  - rewrite andb_true_iff. intros [H U]. apply fixed_eqb_eq in H. apply eqb_prop in U. congruence.
Qed.

Lemma nth_same_spec i d l : nth_same i d l = true -> forall m, In m l ->
  dt_name (type_of d) = dt_name (type_of m) -> type_of d = type_of m.
Proof.
  induction l as [|x l IH]; cbn; [tauto|]. rewrite andb_true_iff, orb_true_iff, negb_true_iff.
  intros [[H|H] T] m [<-|I] E; auto.
  - apply String.eqb_neq in H. congruence.
  - now apply same_simple_eq.
Qed.

Lemma apart_spec l : apart l = true -> forall m1 m2, In m1 l -> In m2 l ->
  dt_name (type_of m1) = dt_name (type_of m2) -> type_of m1 = type_of m2.
Proof.
  induction l as [|x l IH]; cbn; [tauto|]. rewrite andb_true_iff. intros [H T] m1 m2 [<-|I1] [<-|I2] E; auto.
  - eapply nth_same_spec; eauto.
  - symmetry. eapply nth_same_spec; eauto.
Qed.

Lemma positive_spec o n : positive o = true -> o = Some n -> 0 < n.
Proof. intros H ->. now apply Z.ltb_lt in H. Qed.

Lemma fine_sound d : fineb d = true -> everywhere sound d.
Proof.
  assert (L : forall ms, Forall (fun d => fineb d = true -> everywhere sound d) ms -> forallb fineb ms = true ->
    Forall (everywhere sound) ms).
  { intros ms F B. rewrite forallb_forall in B. rewrite Forall_forall in *. auto. }
  induction d using dtype_rect'; cbn [fineb]; intros B; cbn [everywhere]; try (split; [unfold sound; cbn; tauto|exact I]).
  - repeat split; auto. intros n. now apply positive_spec.
  - repeat split; auto. intros n. now apply positive_spec.
  - repeat split; auto. intros n. now apply positive_spec.
  - repeat split; auto. intros n. now apply positive_spec.
  - repeat split; auto. intros n Q. rewrite Q in B. lia.
  - repeat split; auto. destruct a as [n|]; [|discriminate]. exists n. split; auto. lia.
  - rewrite !andb_true_iff, orb_true_iff, !negb_true_iff in B. destruct B as ((((B1 & B2) & B3) & B4) & B5).
    split; [|auto]. split; [|exact I]. repeat split; auto.
    + intros n. now apply positive_spec.
    + intros n. now apply positive_spec.
    + destruct k.
      * intros Q. rewrite Q in B4. discriminate.
      * intros t Q. rewrite Q in B4. destruct t; try discriminate.
        destruct (get_byte_size d) as [n|]; [|discriminate]. apply andb_true_iff in B4. destruct B4 as [B4 B6].
        exists b. repeat split; [f_equal|]; lia.
      * intros t Q. rewrite Q in B4. destruct t; try discriminate.
        destruct (get_byte_size d) as [n|]; [|discriminate]. apply andb_true_iff in B4. destruct B4 as [B4 B6].
        exists b. repeat split; [f_equal|]; lia.
  - rewrite !andb_true_iff in B. destruct B as ((B1 & B2) & B3). split; [|refine (proj2 (everywhere_list _ _) _); auto].
    split; auto. split; [now apply apart_spec|]. intros x r I Q. rewrite forallb_forall in B2. apply B2 in I.
    rewrite Q in I. discriminate.
  - split; [unfold sound; cbn; auto|]. refine (proj2 (everywhere_list _ _) _). auto.
  - split; [unfold sound; cbn; auto|]. auto.
  - rewrite !andb_true_iff in B. split; [unfold sound; cbn; auto|]. split; [tauto|]. refine (proj2 (everywhere_list _ _) _). apply L; tauto.
  - rewrite !andb_true_iff in B. split; [unfold sound; cbn; auto|]. split; [tauto|]. split.
    + destruct df; [|exact I]. apply H. tauto.
    + refine (proj2 (everywhere_list _ _) _). apply L; tauto.
Qed.
