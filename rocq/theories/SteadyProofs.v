(** Maps of sensible definitions: sizes are not negative, struct operations read
    as many bytes as the definition says, terminators are comparable. *)
From Coq Require Import String List ZArith Bool Lia.
From Verif Require Import Base PyVal PyStruct DataTypes ClassFactory DataMaps.
From Verif Require Import BytesProofs ContainerProofs SpecPrim PrimProofs SpecMap SpecCreate MapProofs ContextProofs
  StructProofs CreateProofs LinearProofs StreamProofs.
Import ListNotations.
Open Scope Z_scope.
Arguments Z.pow : simpl never.
Arguments Z.mul : simpl never.

Lemma everywhere_list P ms :
  (fix go (l : list dtype) : Prop :=
     match l with [] => True | m :: r => everywhere P m /\ go r end) ms <-> Forall (everywhere P) ms.
Proof.
  induction ms as [|m ms IH]; split; intros H; auto.
  - constructor; [tauto|]. apply IH. tauto.
  - inversion H; subst. split; auto. now apply IH.
Qed.

Lemma everywhere_everywhere P d : everywhere P d -> everywhere (everywhere P) d.
Proof.
  induction d using dtype_rect'; intros E;
    (split; [exact E|]); cbn in E; cbn; auto.
  - apply IHd. tauto.
  - apply everywhere_list. destruct E as [_ E]. apply everywhere_list in E.
    clear -H E. induction H; inversion E; subst; constructor; auto.
  - apply everywhere_list. destruct E as [_ E]. apply everywhere_list in E.
    clear -H E. induction H; inversion E; subst; constructor; auto.
  - apply IHd. tauto.
  - split; [apply IHd; tauto|]. destruct E as (_ & _ & E). apply everywhere_list. apply everywhere_list in E.
    clear -H E. induction H; inversion E; subst; constructor; auto.
  - split; [apply IHd; tauto|]. destruct E as (_ & _ & D & E). split.
    + destruct df; auto.
    + apply everywhere_list. apply everywhere_list in E.
      match goal with F : Forall _ ms |- _ => clear -F E; induction F; inversion E; subst; constructor; auto end.
Qed.

Lemma padding_nonneg a o : 0 < a -> 0 <= padding_size a o.
Proof.
  intros H. unfold padding_size. pose proof (Z.mod_pos_bound o a H). destruct (0 <? o mod a); lia.
Qed.

Lemma sound_size d : everywhere sound d -> forall n, get_byte_size d = Some n -> 0 <= n.
Proof.
  induction d using dtype_rect'; intros E n S; try discriminate;
    try (destruct E as [[E _] _]; cbn in E, S; specialize (E _ S); lia).
  - destruct E as [[(_ & E1 & E2 & _) _] E]. cbn in S. unfold elems_byte_size in S.
    destruct (truthy_Z (e_data_size e)) as [s|] eqn:K.
    + apply truthy_Z_some in K. destruct K as [K _]. apply E1 in K. inversion S; lia.
    + destruct (truthy_Z (e_number e)) as [j|] eqn:J; [|discriminate].
      apply truthy_Z_some in J. destruct J as [J _]. apply E2 in J.
      destruct (truthy_Z (get_byte_size d)) as [b|] eqn:B; [|discriminate].
      apply truthy_Z_some in B. destruct B as [B _]. apply IHd in B; auto. inversion S. nia.
  - destruct E as [_ E]. apply everywhere_list in E.
    rewrite structure_size in S. destruct ms as [|m0 ms0]; [discriminate|].
    assert (G : forall acc, 0 <= acc -> struct_size_loop (m0 :: ms0) acc = Some n -> 0 <= n).
    { clear S. revert E. induction H as [|m1 ms1 H1 HF IH]; intros E acc A S; cbn in S.
      - inversion S; lia.
      - inversion E as [|? ? E1 E2]; subst. destruct (pad_align m1) as [a|] eqn:PA; cbn in S.
        + destruct m1; try discriminate. cbn in PA. apply truthy_Z_some in PA.
          destruct PA as [-> _]. destruct E1 as [[(k & Q & K) _] _]. inversion Q; subst.
          pose proof (padding_nonneg k acc K). apply IH in S; auto. lia.
        + specialize (H1 E1). destruct (get_byte_size m1) as [k|] eqn:G; [|discriminate]. specialize (H1 _ eq_refl). apply IH in S; auto. lia. }
    apply (G 0); auto. lia.
  - cbn in S. destruct ms as [|m0 ms0]; [discriminate|].
    assert (G : forall l acc, 0 <= acc ->
      (fix go (l : list dtype) (acc : Z) : option Z :=
             match l with
             | [] => Some acc
             | m :: r =>
                 match get_byte_size m with
                 | Some s => go r (Z.max acc s)
                 | None => None
                 end
             end) l acc = Some n -> 0 <= n).
    { clear. induction l as [|m l IH]; intros acc A S.
      - inversion S; lia.
      - destruct (get_byte_size m); [|discriminate]. apply IH in S; lia. }
    apply (G (m0 :: ms0) 0); auto. lia.
  - cbn in S. destruct (truthy_str c); [discriminate|]. apply IHd; auto. cbn in E. tauto.
Qed.

(** The operation reads its codes from its bytes, no more than [n] of them. *)
Definition reads_within (op : option structop) (n : Z) : Prop :=
  forall o, op = Some o -> op_size o = csizes (op_codes o) /\ op_size o <= n.

Definition steady (m : dmap) : Prop :=
  match m with
  | MPrim d op => forall n, get_byte_size d = Some n -> 0 < n /\ reads_within op n
  | MUUID d => forall n, get_byte_size d = Some n -> n = 16
  | MPadding d => exists mt bo a, d = DPadding mt bo (Some a) /\ 0 < a
  | MSequence true e ed em op =>
      forall n, elems_byte_size e (get_byte_size ed) = Some n -> 0 <= n /\ reads_within op n
  | MSequence false e ed em op =>
      e_terminator e <> Some VNone /\ element_terminator ed <> Ok (Some VNone)
  | MStream e ed em | MString e ed em =>
      (forall b, get_byte_size ed = Some b -> 0 <= b) /\
      forall t, e_terminator e = Some t ->
        exists b, t = VBytes b /\ get_byte_size ed = Some (len b) /\ 0 < len b
  | MStructure true d cls ms attrs op =>
      forall n, get_byte_size d = Some n -> 0 <= n /\ reads_within op n
  | MStructure false d cls ms attrs op => List.length ms = List.length attrs /\ ms <> []
  | MSemantic _ | MFormat _ | MGroup _ _ _ _ _ => True
  end.

Lemma prim_steady orc d op b n : prim_op orc d b = Ok op -> get_byte_size d = Some n ->
  reads_within op n.
Proof.
  intros O S o ->. unfold prim_op in O. destruct (prim_code d) as [c|] eqn:C; [|discriminate].
  rewrite make_op1 in O. cbn in O. inversion O; subst. apply (prim_size d c) in S; auto. subst.
  destruct (op_ones (resolve orc b) [c]) as [OS OC]. cbn [map] in OS, OC.
  unfold op1. rewrite OS, OC. cbn [csizes fold_right]. split; [reflexivity|lia].
Qed.

Lemma csizes_repeat c k : csizes (repeat c k) = Z.of_nat k * csize c.
Proof.
  induction k; cbn [repeat csizes fold_right]; [lia|]. fold (csizes (repeat c k)). rewrite IHk. lia.
Qed.

Lemma seq_op_steady en k c o n : make_op en [(k, c)] = Ok o -> k * csize c <= n ->
  op_size o = csizes (op_codes o) /\ op_size o <= n.
Proof.
  unfold make_op. cbn [forallb]. destruct (Z.leb_spec 0 k); cbn [andb]; [|discriminate].
  destruct (_ <=? _); [|discriminate]. intros Q L. inversion Q; subst. unfold op_size, op_codes. cbn [op_tokens fold_right flat_map].
  rewrite app_nil_r, csizes_repeat, Z2Nat.id by lia. fold (csize c). lia.
Qed.

Lemma csize_pos c : 0 < csize c.
Proof. unfold csize. pose proof (code_size_pos c). lia. Qed.

Lemma apply_ov_terminator ov d : element_terminator (apply_ov ov d) = element_terminator d.
Proof. destruct ov as [[n b]|]; auto. destruct d; reflexivity. Qed.

Lemma create_apply orc d ov : create orc d ov = create orc (apply_ov ov d) None.
Proof. destruct ov as [[n b]|]; [apply create_copy|reflexivity]. Qed.

Lemma created_steady orc d ov m : everywhere sound d -> create orc d ov = Ok (Some m) -> steady m.
Proof.
  intros E C.
  assert (PS : forall d' op b, get_byte_size d' = get_byte_size (apply_ov ov d') -> sound d' ->
             is_prim d' = true -> prim_op orc d' b = Ok op -> steady (MPrim (apply_ov ov d') op)).
  { intros d' op b Z S P O n Q. rewrite <- Z in Q. split; [|eapply prim_steady; eauto].
    destruct S as [S _]. destruct d'; try discriminate; cbn in Q; auto. }
  pose proof (everywhere_here _ _ E) as S.
  destruct d.
  - cbn [create] in C. destruct false_value, true_value; try discriminate;
      (apply bind_ok in C; destruct C as (o & O & C); inversion C; subst; eapply PS; eauto; now rewrite apply_ov_size).
  - cbn [create] in C. apply bind_ok in C; destruct C as (o & O & C); inversion C; subst; eapply PS; eauto; now rewrite apply_ov_size.
  - cbn [create] in C. apply bind_ok in C; destruct C as (o & O & C); inversion C; subst; eapply PS; eauto; now rewrite apply_ov_size.
  - cbn [create] in C. apply bind_ok in C; destruct C as (o & O & C); inversion C; subst; eapply PS; eauto; now rewrite apply_ov_size.
  - cbn [create] in C. inversion C; subst. cbn [steady]. rewrite apply_ov_size. destruct S as [S _]. exact S.
  - cbn [create] in C. inversion C; subst. cbn [steady]. destruct S as [(n & -> & N) _].
    destruct ov as [[nm b]|]; cbn; eauto 6.
  - pose proof (sound_size _ E) as SS. cbn [get_byte_size] in SS.
    apply create_elems in C. destruct C as (eov & em & O & Ce & _ & C).
    destruct S as [(S1 & S2 & S3 & S4) _].
    assert (T : e_terminator (elems_of ov e) = e_terminator e /\ e_data_size (elems_of ov e) = e_data_size e /\
                e_number (elems_of ov e) = e_number e) by (destruct ov as [[nm b]|]; auto).
    destruct T as (T1 & T2 & T3).
    assert (TS : elems_byte_size (elems_of ov e) = elems_byte_size e) by (unfold elems_byte_size; now rewrite T2, T3).
    assert (Ed : forall b, get_byte_size d = Some b -> 0 <= b) by (apply sound_size; cbn in E; tauto).
    destruct k.
    + destruct (sequence_is_linear _ _).
      * destruct C as (o & Op & ->). cbn [steady]. rewrite TS, apply_ov_size. intros n N. split; [now apply SS|].
        intros o' ->. unfold sequence_op in Op. destruct em as [em|]; [|discriminate].
        apply bind_ok in Op. destruct Op as (en & _ & Op). apply bind_ok in Op. destruct Op as (t & Tk & Op).
        destruct t as [t|]; [|discriminate]. apply bind_ok in Op. destruct Op as (o & M & Op). inversion Op; subst o'.
        unfold sequence_tokens in Tk. rewrite T2, T3, apply_ov_size in Tk. unfold elems_byte_size in N.
        assert (PC : forall x, map_tokens em = Ok (Some [x]) -> exists c, x = (1, c) /\
                  forall b, get_byte_size d = Some b -> b = csize c).
        { intros x MT. destruct em; cbn in MT; try discriminate.
          destruct (prim_code d0) as [c|] eqn:PC; [|discriminate]. inversion MT; subst. exists c. split; auto.
          intros b B. rewrite create_apply in Ce. apply created_prim in Ce. destruct Ce as [-> _].
          apply (prim_size (apply_ov eov d) c); auto. now rewrite apply_ov_size. }
        destruct (truthy_Z (e_data_size e)) as [s|] eqn:DS.
        { destruct (get_byte_size d) as [b|] eqn:B; [|discriminate]. destruct (Z.eqb_spec b 0); [discriminate|].
          apply bind_ok in Tk. destruct Tk as (f & MT & Tk).
          destruct (truthy_Z (Some (s / b))) as [q|] eqn:Q; [|discriminate]. apply truthy_Z_some in Q. destruct Q as [Q _]. inversion Q; subst q.
          destruct f as [[|[j c] [|]]|]; try discriminate. inversion Tk; subst t.
          destruct (PC _ MT) as (c' & X & Y). inversion X; subst c' j. specialize (Y _ eq_refl). subst b.
          eapply seq_op_steady; eauto. inversion N; subst s. pose proof (csize_pos c).
          pose proof (Z.mul_div_le n (csize c)). lia. }
        { apply bind_ok in Tk. destruct Tk as (f & MT & Tk).
          destruct (truthy_Z (e_number e)) as [q|] eqn:Q; [|discriminate].
          destruct f as [[|[j c] [|]]|]; try discriminate. inversion Tk; subst t.
          destruct (PC _ MT) as (c' & X & Y). inversion X; subst c' j.
          destruct (truthy_Z (get_byte_size d)) as [b|] eqn:B; [|discriminate]. apply truthy_Z_some in B. destruct B as [B _].
          specialize (Y _ B). subst b. eapply seq_op_steady; eauto. inversion N; lia. }
      * subst m. cbn [steady]. rewrite T1, apply_ov_terminator. split; auto.
        destruct E as [_ E]. apply everywhere_here in E. destruct d; try discriminate. cbn [element_terminator].
        destruct E as [(_ & _ & _ & E4) _]. destruct k; [congruence| |];
          (intros Q; inversion Q as [Q']; destruct (E4 _ Q') as (b & B & _); discriminate).
    + destruct C as [_ ->]. cbn [steady]. rewrite T1, apply_ov_size. split; auto.
    + destruct C as [_ ->]. cbn [steady]. rewrite T1, apply_ov_size. split; auto.
  - rename m0 into mt, members into ms. rewrite create_apply in C.
    set (d := apply_ov ov (DStructure mt bo ms)) in *.
    assert (Q : exists mt' bo', d = DStructure mt' bo' ms) by (subst d; destruct ov as [[nm b]|]; cbn; eauto).
    destruct Q as (mt' & bo' & Q). assert (SZ : get_byte_size d = get_byte_size (DStructure mt bo ms)) by (subst d; apply apply_ov_size).
    clearbody d. subst d.
    assert (C' := C). apply created_structure in C'. apply create_structure_inv in C'.
    destruct C' as (attrs & MM & NE & ND & A & X). rewrite map_map in *. cbn [fst] in *. rewrite map_id in *.
    destruct X as [(L & op & OP & ->)|(L & ->)].
    + cbn [steady]. cbn [apply_ov ov_name ov_bo] in *. intros n N. split; [rewrite SZ in N; eapply sound_size; eauto|].
      assert (DT : distinct_types (m_name mt') bo' ms) by (eapply well_named_distinct; destruct S as [_ S]; exact S).
      pose proof (structure_own_maps _ _ _ _ _ _ _ _ _ _ C DT) as F.
      rewrite structure_size in N. destruct ms as [|m0 ms0]; [congruence|].
      destruct (lin_cases orc (m_name mt') bo' _ attrs F _ _ _ L N)
        as [(K & cs & T & PC & ->)|(T & _)].
      * intros o ->. unfold struct_op in OP. rewrite T in OP. cbn [bind] in OP.
        destruct cs as [|c0 cs0]; [discriminate|]. cbn [map] in OP.
        change ((1, c0) :: map (fun c => (1, c)) cs0) with (map (fun c => (1, c)) (c0 :: cs0)) in OP.
        unfold make_op in OP. destruct (_ && _); [|discriminate]. cbn [bind] in OP.
        destruct (op_ones (resolve orc bo') (c0 :: cs0)) as [OS OC].
        set (oo := mkOp (resolve orc bo') (map (fun c => (1, c)) (c0 :: cs0))) in *.
        assert (Eo : o = oo) by congruence. rewrite Eo, OS, OC. lia.
      * intros o ->. unfold struct_op in OP. rewrite T in OP. discriminate.
    + cbn [steady]. split; auto. apply (f_equal (@List.length string)) in A. rewrite !map_length in A. auto.
  - discriminate.
  - discriminate.
  - cbn [create] in C. inversion C; subst. exact I.
  - cbn [create] in C. inversion C; subst. exact I.
  - cbn [create] in C. inversion C; subst. exact I.
  - discriminate.
  - cbn [create] in C. apply bind_ok in C. destruct C as (df & D & C).
    apply bind_ok in C. destruct C as (b & B & C). destruct members; [discriminate|].
    apply bind_ok in C. destruct C as (entries & G & C). inversion C; subst. exact I.
Qed.

Lemma all_steady orc d m : everywhere sound d -> create orc d None = Ok (Some m) -> all_maps steady m.
Proof.
  intros E C. eapply (created_all orc (everywhere sound)); eauto.
  - intros. eapply created_steady; eauto.
  - now apply everywhere_everywhere.
Qed.
