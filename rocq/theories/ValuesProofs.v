(** Values made by hand. *)
From Coq Require Import String List ZArith Bool Lia.
From Verif Require Import Base PyVal PyStruct DataTypes ClassFactory DataMaps Values SpecPrim SpecMap SpecCreate SpecReads SpecFold SpecFits SpecValues
  CreateProofs MapProofs StructProofs LayoutProofs NameProofs WindowProofs.
From Verif Require ContainerProofs FitProofs.
Import ListNotations.
Open Scope Z_scope.

Lemma str_in_iff a l : str_in a l = true <-> In a l.
Proof.
  unfold str_in. rewrite existsb_exists. split.
  - intros (x & X & E). apply String.eqb_eq in E. now subst.
  - intros H. exists a. split; auto. apply String.eqb_refl.
Qed.

Lemma skipn_nth {A} (l : list A) x : forall k, In x (skipn k l) <-> exists i, (k <= i)%nat /\ nth_error l i = Some x.
Proof.
  induction l as [|a l IH]; intros k.
  - rewrite skipn_nil. split; [intros []|]. intros (i & _ & H). destruct i; discriminate.
  - destruct k as [|k]; cbn [skipn].
    + split.
      * intros H. apply In_nth_error in H. destruct H as [i H]. exists i. split; [lia|exact H].
      * intros (i & _ & H). eapply nth_error_In; eauto.
    + rewrite IH. split; intros (i & I & H).
      * exists (S i). split; [lia|exact H].
      * destruct i as [|i]; [lia|]. exists i. split; [lia|exact H].
Qed.

Lemma bind_ok_iff names args kwargs :
  (passable names args kwargs -> bind_arguments names args kwargs =
     Ok (args ++ map (fun n => match dict_get n kwargs with Some v => v | None => VNone end) (skipn (List.length args) names))) /\
  (~ passable names args kwargs -> bind_arguments names args kwargs = Raise TypeError).
Proof.
  unfold bind_arguments.
  assert (Q : ((List.length args <=? List.length names)%nat && forallb (fun kv => str_in (fst kv) (skipn (List.length args) names)) kwargs) = true
    <-> passable names args kwargs).
  { rewrite andb_true_iff, Nat.leb_le, forallb_forall. unfold passable. rewrite Forall_forall.
    split; intros [A B]; split; auto; intros x X; specialize (B x X).
    - now apply skipn_nth, str_in_iff.
    - now apply str_in_iff, skipn_nth. }
  destruct (_ && _); split; intros H; try reflexivity; exfalso.
  - apply H, Q. reflexivity.
  - apply Q in H. discriminate.
Qed.

Lemma nth_combine {A B} (l : list A) : forall (r : list B) i a b, nth_error (combine l r) i = Some (a, b) -> nth_error l i = Some a /\ nth_error r i = Some b.
Proof.
  induction l as [|x l IH]; intros [|y r] [|i] a b H; cbn in *; try discriminate.
  - injection H as <- <-. auto.
  - now apply IH.
Qed.

Lemma fst_combine {A B} (l : list A) : forall (r : list B), List.length r = List.length l -> map fst (combine l r) = l.
Proof.
  induction l as [|x l IH]; intros [|y r] E; cbn in *; try discriminate; [reflexivity|]. f_equal. apply IH. now injection E.
Qed.

Lemma nth_rest {A} (l : list A) : forall i k n, (k <= i)%nat -> nth_error l i = Some n -> nth_error (skipn k l) (i - k) = Some n.
Proof.
  induction l as [|a l IH]; intros i k n I N; [destruct i; discriminate|].
  destruct k as [|k]; [now rewrite Nat.sub_0_r|]. destruct i as [|i]; [lia|]. cbn. apply IH; [lia|exact N].
Qed.

(** The class takes the arguments. *)
Lemma values_made : forall orc mt bo ms m args kwargs,
  create orc (DStructure mt bo ms) None = Ok (Some m) -> clear_names (m_name mt) (map dt_name ms) ->
  (passable (map dt_name ms) args kwargs ->
   exists attrs, create_values m args kwargs = Ok (VStruct (m_name mt) attrs) /\ map fst attrs = map dt_name ms /\
     forall i n v, nth_error attrs i = Some (n, v) -> passed args kwargs i n v) /\
  (~ passable (map dt_name ms) args kwargs -> create_values m args kwargs = Raise TypeError).
Proof.
  intros orc mt bo ms m args kwargs C CN.
  assert (S : exists lin d attrs op, m = MStructure lin d (m_name mt) ms attrs op).
  { pose proof C as C'. apply created_structure, create_structure_inv in C'.
    assert (T : exists lin d cls ms' attrs op, m = MStructure lin d cls ms' attrs op).
    { destruct C' as (attrs & _ & _ & _ & _ & [(_ & op & _ & ->)|(_ & ->)]); do 6 eexists; reflexivity. }
    destruct T as (lin & d & cls & ms' & attrs & op & ->).
    apply created_shape in C. destruct C as (-> & -> & _). cbn. eauto. }
  destruct S as (lin & d & at' & op & ->). cbn [create_values].
  set (names := map dt_name ms) in *. destruct (bind_ok_iff names args kwargs) as [B1 B2]. split; intros P.
  - rewrite (B1 P). cbn [bind]. set (rest := map _ _). destruct P as [L P].
    assert (Le : List.length (args ++ rest) = List.length names).
    { unfold rest. rewrite app_length, map_length, skipn_length. lia. }
    exists (combine names (args ++ rest)). split; [apply instances; [exact Le|exact CN]|]. split.
    + now apply fst_combine.
    + intros i n v H.
      apply nth_combine in H. rename H into N.
      destruct N as [N V]. destruct (Nat.lt_ge_cases i (List.length args)) as [I|I].
      * left. rewrite nth_error_app1 in V by exact I. exact V.
      * right. assert (Z : nth_error args i = None) by now apply nth_error_None. rewrite nth_error_app2 in V by exact I.
        assert (V' : v = match dict_get n kwargs with Some v => v | None => VNone end).
        { unfold rest in V. rewrite nth_error_map in V.
          rewrite (nth_rest _ _ _ _ I N) in V. cbn in V. now injection V as <-. }
        destruct (dict_get n kwargs) as [w|] eqn:G.
        -- left. split; [exact Z|]. subst w. now apply ContainerProofs.dict_get_in.
        -- right. split; [exact Z|]. split; [|exact V']. apply ContainerProofs.dict_get_none in G.
           intros w W. apply G. exact (in_map fst _ _ W).
  - now rewrite (B2 P).
Qed.

(** What is mapped could have been made by hand. *)
Lemma values_mapped : forall orc fuel mt bo ms m bs off vals depth v n,
  extensional orc -> create orc (DStructure mt bo ms) None = Ok (Some m) -> maps orc fuel m bs off vals depth v n ->
  exists args, List.length args = List.length ms /\ create_values m args [] = Ok v.
Proof.
  intros orc fuel mt bo ms m bs off vals depth v n E C M.
  assert (CN : clear_names (m_name mt) (map dt_name ms)).
  { destruct (constructible (m_name mt) (map dt_name ms)) eqn:Q; [now apply constructible_spec|]. exfalso.
    refine (proj1 (hidden orc fuel mt bo ms m bs off vals depth C _) v n M). intros H. apply constructible_spec in H. congruence. }
  assert (G : forall l, List.length l = List.length ms -> create_values m l [] = Ok (VStruct (m_name mt) (combine (map dt_name ms) l))).
  { intros l L. assert (P : passable (map dt_name ms) l []).
    { split; [rewrite map_length; lia|constructor]. }
    assert (S : exists lin d attrs op, m = MStructure lin d (m_name mt) ms attrs op).
    { destruct (values_made orc mt bo ms m l [] C CN) as [V _]. destruct (V P) as (attrs & V' & _).
      destruct m; try discriminate V'. apply created_shape in C. destruct C as (-> & -> & _). cbn. eauto. }
    destruct S as (lin & d & at' & op & ->). cbn [create_values]. rewrite (proj1 (bind_ok_iff _ _ _) P). cbn [bind].
    rewrite skipn_all2 by (rewrite map_length; lia). rewrite app_nil_r. apply instances; [rewrite map_length; lia|exact CN]. }
  assert (R : exists l, List.length l = List.length ms /\ v = VStruct (m_name mt) (combine (map dt_name ms) l)).
  { destruct (values_made orc mt bo ms m [] [] C CN) as [V _].
    destruct V as (attrs0 & V & _); [split; [cbn; lia|constructor]|]. destruct m as [| | | | | |lin d cls ms' attrs op| | |]; try discriminate V. clear V attrs0.
    destruct lin.
    - pose proof C as C0. apply created_shape in C0. destruct C0 as (-> & -> & _ & _ & _ & A & _). cbn [ov_name] in *.
      destruct M as (c & M & _). cbn [mapbs] in M. unfold map_struct_linear in M.
      destruct (get_byte_size d) as [k|]; [|discriminate]. destruct (_ <? _); [discriminate|]. destruct op as [o|]; [|discriminate].
      destruct (read_from o _) as [t| |]; cbn [bind] in M; try discriminate. destruct (linear_values _ _ _) as [vs| |]; cbn [bind] in M; try discriminate.
      unfold instance in M. rewrite A in M. rewrite (proj2 (constructible_spec _ _) CN) in M. injection M as <- _. unfold new_struct.
      exists (map snd (make_attrs (map dt_name ms) vs)). split.
      + rewrite map_length. clear. revert vs. induction ms as [|x ms IH]; intros [|w vs]; cbn; try reflexivity; now rewrite IH.
      + f_equal. clear. revert vs. induction ms as [|x ms IH]; intros [|w vs]; cbn; try reflexivity; now rewrite <- IH.
    - destruct (Z.lt_ge_cases 10 depth) as [D|D].
      { destruct M as (c & M & _). rewrite too_deep in M; [discriminate|exact D|exact I]. }
      pose proof C as C0. apply created_shape in C0. destruct C0 as (-> & _). cbn [ov_name] in *.
      destruct (structure_members orc fuel mt bo ms None d (m_name mt) ms' attrs op bs off vals depth E C CN ltac:(lia)) as (_ & _ & H).
      apply H in M. destruct M as (rs & (L & _) & -> & _). unfold partly. eexists. split; [|reflexivity].
      rewrite app_length, map_length, repeat_length, map_length. lia. }
  destruct R as (l & L & ->). exists l. auto.
Qed.

(** What fits can be made by hand, written and read back. *)
Lemma values_written : forall orc mt bo ms m off vals v n,
  extensional orc -> everywhere regular (DStructure mt bo ms) -> folds_back orc (DStructure mt bo ms) ->
  create orc (DStructure mt bo ms) None = Ok (Some m) ->
  levels (DStructure mt bo ms) <= 11 -> 0 <= off -> fits orc (DStructure mt bo ms) off vals v n ->
  (everywhere no_single (DStructure mt bo ms) \/ no_nan v) ->
  exists args, create_values m args [] = Ok v /\
    forall c, clean c -> sizes_agree orc (DStructure mt bo ms) vals (ctx_values c) v ->
    exists b, fst (foldbs orc m v c) = Ok (VBytes b) /\ len b = n /\
      forall pre post, len pre = off -> exists fuel, maps orc fuel m (pre ++ b ++ post) off vals 0 v n.
Proof.
  intros orc mt bo ms m off vals v n E R F C L O H N.
  destruct (proj1 (FitProofs.fits_iff orc _ m off vals v n E R F C L O) H) as (fuel & bs & _ & M).
  destruct (values_mapped orc fuel mt bo ms m bs off vals 0 v n E C M) as (args & _ & A).
  exists args. split; [exact A|]. intros c K S. now apply (FitProofs.fits_folds orc (DStructure mt bo ms) m off vals v n).
Qed.
