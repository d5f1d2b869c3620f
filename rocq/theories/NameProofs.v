(** Proofs about structures whose names hide one another. *)
From Coq Require Import String List ZArith Bool Lia.
From Verif Require Import Base PyVal PyStruct DataTypes ClassFactory DataMaps SpecPrim SpecMap SpecCreate
  MapProofs StructProofs LayoutProofs CreateProofs WindowProofs FuelProofs ReadsProofs SpecHint.
Import ListNotations.
Open Scope Z_scope.

Lemma make_attrs_combine : forall names args, List.length args = List.length names ->
  make_attrs names args = combine names args.
Proof.
  induction names as [|n names IH]; intros [|a args] L; try discriminate; auto.
  cbn in *. f_equal. apply IH. lia.
Qed.

Lemma unclear cls names : ~ clear_names cls names -> constructible cls names = false.
Proof. intros N. destruct (clear_dec cls names); tauto. Qed.

Lemma error_raises cls names : constructor_raises cls names (constructor_error cls names).
Proof.
  unfold constructor_raises, constructor_error.
  destruct (is_private cls) eqn:P; [left; split; auto; now apply is_private_spec|].
  assert (NP : ~ private_name cls) by (rewrite <- is_private_spec; congruence).
  right. destruct (String.eqb_spec cls "super") as [E|E]; cbn [andb].
  2:{ right. repeat split; auto. congruence. }
  assert (I : str_in "super" names = true <-> In "super"%string names).
  { unfold str_in. rewrite existsb_exists. split; [intros (x & X & Y); apply String.eqb_eq in Y; now subst x|].
    intros H. exists "super"%string. split; auto. }
  destruct (str_in "super" names); cbn [negb andb].
  - right. repeat split; auto. intros _. left. tauto.
  - destruct (Nat.leb_spec 2 (List.length names)).
    + left. repeat split; auto. intros H'. apply I in H'. discriminate.
    + right. repeat split; auto.
Qed.

Lemma instances cls names args : List.length args = List.length names ->
  (clear_names cls names -> instance cls names args = Ok (VStruct cls (combine names args))) /\
  (~ clear_names cls names -> exists e, constructor_raises cls names e /\ instance cls names args = Raise e).
Proof.
  intros L. split; intros N.
  - rewrite instance_clear by auto. unfold new_struct. now rewrite make_attrs_combine.
  - exists (constructor_error cls names). split; [apply error_raises|]. unfold instance. now rewrite unclear.
Qed.

Lemma hidden orc fuel mt bo ms m bs off vals depth :
  create orc (DStructure mt bo ms) None = Ok (Some m) -> ~ clear_names (m_name mt) (map dt_name ms) ->
  (forall v n, ~ maps orc fuel m bs off vals depth v n) /\
  (level m -> exists e, constructor_raises (m_name mt) (map dt_name ms) e /\
     (depth <= 10 -> fails orc fuel m bs off vals depth e) /\
     fst (hint orc m off (Some (ctx_new vals))) = Raise e) /\
  (~ level m -> get_byte_size (DStructure mt bo ms) <> None ->
     fails orc fuel m bs off vals depth ByteStreamTooSmallError \/ fails orc fuel m bs off vals depth MappingError).
Proof.
  intros C N.
  assert (S : exists lin d cls ms' attrs op, m = MStructure lin d cls ms' attrs op).
  { pose proof C as C'. apply created_structure, create_structure_inv in C'.
    destruct C' as (attrs & _ & _ & _ & _ & [(_ & op & _ & ->)|(_ & ->)]); do 6 eexists; reflexivity. }
  destruct S as (lin & d & cls & ms' & attrs & op & ->).
  pose proof (created_shape _ _ _ _ _ _ _ _ _ _ _ C) as SH. cbn [ov_name ov_bo apply_ov] in SH.
  destruct SH as (-> & -> & -> & NE & ND & AN & LA & _ & CL & OP).
  rewrite <- AN in N. pose proof (unclear _ _ N) as U.
  split; [|split].
  - intros v n M. apply maps_clear in M. tauto.
  - intros L. destruct lin; [contradiction|]. exists (constructor_error (m_name mt) (map fst attrs)).
    split; [rewrite <- AN; apply error_raises|]. split.
    + intros D. unfold fails. now rewrite unclear_run.
    + cbn [hint]. unfold hint_struct. cbn [opt_bind ctx_new c_byte_size ctx_state c_state st_empty].
      unfold struct_values, instance. cbn [s_mapped_values]. now rewrite U.
  - intros L G. destruct lin; [|cbn in L; tauto]. unfold fails. cbn [mapbs]. unfold map_struct_linear.
    destruct (get_byte_size _); [|congruence].
    destruct (_ <? _); [now left|]. right. unfold instance. rewrite U.
    destruct op as [o|]; [|reflexivity].
    pose proof (read_ends o (slice_from bs off)). destruct (read_from _ _); cbn [bind]; try reflexivity; [|congruence].
    pose proof (linear_values_ends ms a (map snd attrs)). destruct (linear_values _ _ _); try reflexivity. congruence.
Qed.

(** ** Structures nested in a structure with a byte order *)

Lemma member_mapped orc fuel mt bo ms m mem bs off vals depth v n :
  extensional orc -> create orc (DStructure mt bo ms) None = Ok (Some m) -> distinct_types (m_name mt) bo ms ->
  In mem ms -> is_composite mem = true -> unconditional mem -> maps orc fuel m bs off vals depth v n ->
  exists x o vals' v' n', create orc (used_type (m_name mt) bo mem) None = Ok (Some x) /\
    maps orc fuel x bs o vals' (depth + 1) v' n'.
Proof.
  intros X C DT I K U M.
  assert (S : exists lin d cls ms' attrs op, m = MStructure lin d cls ms' attrs op).
  { pose proof C as C'. apply created_structure, create_structure_inv in C'.
    destruct C' as (attrs & _ & _ & _ & _ & [(_ & op & _ & ->)|(_ & ->)]); do 6 eexists; reflexivity. }
  destruct S as (lin & d & cls & ms' & attrs & op & ->).
  pose proof (structure_own_maps _ _ _ _ _ _ _ _ _ _ C DT) as OM.
  pose proof (created_shape _ _ _ _ _ _ _ _ _ _ _ C) as SH. cbn [ov_name ov_bo apply_ov] in SH.
  destruct SH as (-> & -> & -> & NE & ND & AN & LA & _ & CL & OP).
  destruct lin; [exfalso; eapply check_linear_composite; eauto|].
  pose proof (maps_clear _ _ _ _ _ _ _ _ _ _ _ _ _ _ M) as CN. rewrite AN in CN.
  destruct (Z.lt_ge_cases 10 depth) as [D|D].
  { exfalso. apply maps_fst in M. rewrite too_deep in M by (cbn; auto). discriminate. }
  destruct (structure_members orc fuel mt bo ms None _ _ _ _ _ bs off vals depth X C CN D) as (_ & _ & SM).
  apply SM in M. destruct M as (rs & (RL & RR) & _).
  apply In_nth_error in I. destruct I as (i & I).
  assert (exists a, nth_error attrs i = Some a) as (a & Ha).
  { destruct (nth_error attrs i) eqn:Q; eauto. apply nth_error_None in Q.
    assert (nth_error ms i <> None) by congruence. apply nth_error_Some in H. lia. }
  assert (exists r, nth_error rs i = Some r) as (r & Hr).
  { destruct (nth_error rs i) eqn:Q; eauto. apply nth_error_None in Q.
    assert (nth_error ms i <> None) by congruence. apply nth_error_Some in H. lia. }
  specialize (RR i mem (snd a) r I (map_nth_error snd _ _ Ha) Hr). cbn zeta in RR.
  destruct r as [[v' n']|].
  2:{ unfold condition_is in RR. rewrite U in RR. discriminate. }
  destruct RR as (_ & _ & y & E & My).
  assert (CA : create orc (used_type (m_name mt) bo mem) None = Ok (snd a)).
  { clear -OM I Ha. revert i I Ha. induction OM as [|m' a' l l' [_ Q] F IH]; intros [|i] I Ha; try discriminate.
    - inversion I; inversion Ha; subst. exact Q.
    - eauto. }
  rewrite E in CA. exists y. eauto 6.
Qed.

Lemma append_assoc (a b c : string) : String.append (String.append a b) c = String.append a (String.append b c).
Proof. induction a; cbn; congruence. Qed.

Lemma append_suffix : forall x r s t : string, String.append x s = String.append r t ->
  (String.length t <= String.length s)%nat -> exists q, s = String.append q t.
Proof.
  induction x as [|c x IH]; intros r s t E L.
  - exists r. exact E.
  - destruct r as [|c' r].
    + exfalso. cbn [String.append] in E. apply (f_equal String.length) in E. cbn in E.
      assert (G : forall a b, String.length (String.append a b) = (String.length a + String.length b)%nat)
        by (induction a; cbn; auto). rewrite G in E. lia.
    + inversion E. eauto.
Qed.

(** The name of the copy of a copy. *)
Lemma nested_private s a b : b <> EmptyString -> (forall r, String.append "_" b <> String.append r "__") ->
  private_name (String.append "_" (String.append (String.append "_" (String.append s (String.append "_" a)))
     (String.append "_" b))).
Proof.
  intros NE NS. split; [eexists; cbn; reflexivity|]. intros r E.
  rewrite <- append_assoc in E.
  apply append_suffix in E.
  - destruct E as (q & E). now apply (NS q).
  - destruct b; [congruence|]. cbn. lia.
Qed.

Lemma nested_never orc fuel mt bo ms m mid mt1 ms1 inner mt2 ms2 bs off vals depth v n :
  extensional orc -> create orc (DStructure mt bo ms) None = Ok (Some m) -> bo <> BONative ->
  distinct_types (m_name mt) bo ms ->
  In mid ms -> type_of mid = DStructure mt1 BONative ms1 -> unconditional mid ->
  distinct_types (dt_name (used_type (m_name mt) bo mid)) bo ms1 ->
  In inner ms1 -> type_of inner = DStructure mt2 BONative ms2 -> unconditional inner ->
  m_name mt2 <> EmptyString -> (forall r, String.append "_" (m_name mt2) <> String.append r "__") ->
  ~ maps orc fuel m bs off vals depth v n.
Proof.
  intros X C NB DT I1 T1 U1 DT1 I2 T2 U2 NE NS M.
  assert (K1 : is_composite mid = true) by (destruct mid; cbn in T1 |- *; try discriminate T1; try subst; cbn; rewrite ?orb_true_r; reflexivity).
  assert (K2 : is_composite inner = true) by (destruct inner; cbn in T2 |- *; try discriminate T2; try subst; cbn; rewrite ?orb_true_r; reflexivity).
  destruct (member_mapped _ _ _ _ _ _ _ _ _ _ _ _ _ X C DT I1 K1 U1 M) as (x & o & vals' & v' & n' & C1 & M1).
  assert (E1 : exists mt1', used_type (m_name mt) bo mid = DStructure mt1' bo ms1 /\
     m_name mt1' = String.append "_" (String.append (m_name mt) (String.append "_" (m_name mt1)))).
  { unfold used_type. rewrite T1. cbn [dt_byte_order]. destruct bo; [congruence| |]; eexists; split; reflexivity. }
  destruct E1 as (mt1' & E1 & N1). rewrite E1 in *. cbn [dt_name] in DT1.
  destruct (member_mapped _ _ _ _ _ _ _ _ _ _ _ _ _ X C1 DT1 I2 K2 U2 M1) as (y & o2 & vals2 & v2 & n2 & C2 & M2).
  assert (E2 : exists mt2', used_type (m_name mt1') bo inner = DStructure mt2' bo ms2 /\
     m_name mt2' = String.append "_" (String.append (m_name mt1') (String.append "_" (m_name mt2)))).
  { unfold used_type. rewrite T2. cbn [dt_byte_order]. destruct bo; [congruence| |]; eexists; split; reflexivity. }
  destruct E2 as (mt2' & E2 & N2). rewrite E2 in *.
  eapply (proj1 (hidden orc fuel mt2' bo ms2 y bs o2 vals2 (depth + 1 + 1) C2 _)); [exact M2].
  Unshelve. intros (_ & _ & _ & _ & P). apply P. rewrite N2, N1. now apply nested_private.
Qed.
