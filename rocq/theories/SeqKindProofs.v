(** Sequences by what governs their length: a number of elements, a terminator or
    a data size. *)
From Coq Require Import String List ZArith Bool Lia.
From Verif Require Import Base PyVal PyStruct DataTypes ClassFactory DataMaps.
From Verif Require Import BytesProofs ContainerProofs SpecPrim PrimProofs SpecMap SpecCreate MapProofs ContextProofs
  StructProofs LayoutProofs CreateProofs LinearProofs SeqProofs StreamProofs GroupProofs SteadyProofs WindowProofs.
Import ListNotations.
Open Scope Z_scope.
Arguments Z.pow : simpl never.
Arguments Z.mul : simpl never.
Arguments Z.div : simpl never.

Lemma element_override_type e el eov : element_override e el = Ok eov -> apply_ov eov el = element_type e el.
Proof.
  unfold element_override, element_type. destruct (dt_byte_order el) as [b|]; [|discriminate].
  destruct (e_bo e), b, (is_composite el); cbn; intros H; inversion H; reflexivity.
Qed.

Lemma element_type_size e el : get_byte_size (element_type e el) = get_byte_size el.
Proof.
  unfold element_type. destruct (e_bo e); auto; destruct (dt_byte_order el) as [[]|]; auto;
    destruct (is_composite el); auto; apply set_name_bo_size.
Qed.

Lemma element_type_composite e el : is_composite (element_type e el) = is_composite el.
Proof.
  unfold element_type. destruct (e_bo e); auto; destruct (dt_byte_order el) as [[]|]; auto;
    destruct (is_composite el) eqn:C; auto; destruct el; try discriminate; exact C.
Qed.

Lemma created_elems orc k e el m : create orc (DElems k e el) None = Ok (Some m) ->
  exists em, create orc (element_type e el) None = Ok em /\
    match k with
    | KSequence =>
        if sequence_is_linear e (element_type e el)
        then exists o, sequence_op orc e (element_type e el) em = Ok o /\
               m = MSequence true e (element_type e el) em o
        else m = MSequence false e (element_type e el) em None
    | KStream => m = MStream e (element_type e el) em
    | KString => m = MString e (element_type e el) em
    end.
Proof.
  intros C. apply create_elems in C. destruct C as (eov & em & O & Ce & _ & C). cbn [elems_of] in *.
  rewrite create_apply in Ce. rewrite (element_override_type _ _ _ O) in *. exists em. split; auto.
  destruct k; auto; destruct C; auto.
Qed.

(** ** The fast path *)

Lemma maps_prim orc fuel p en c bs off vals depth v n : get_byte_size p = Some (csize c) -> 0 <= off ->
  (maps orc fuel (MPrim p (Some (op1 en c))) bs off vals depth v n <->
   n = csize c /\ off + csize c <= len bs /\ map_value p (unpack1 en c (window bs off (csize c))) = Ok v).
Proof.
  intros S Ho. unfold maps. cbn [mapbs]. rewrite (map_prim_spec p c en (csize c)) by auto.
  destruct (Z.ltb_spec (len bs - off) (csize c)) as [L|L].
  - split; [intros (x & Q & _); discriminate|lia].
  - destruct (map_value p _) as [w|e|].
    + split.
      * intros (x & Q & N). inversion Q; subst. cbn in N. inversion N. repeat split; auto. lia.
      * intros (-> & _ & Q). inversion Q; subst. eexists. split; reflexivity.
    + split; [intros (x & Q & _); discriminate|intros (_ & _ & Q); discriminate].
    + split; [intros (x & Q & _); discriminate|intros (_ & _ & Q); discriminate].
Qed.

Lemma prim_elements orc fuel p en c bs depth : get_byte_size p = Some (csize c) ->
  forall vs off e, 0 <= off ->
  (elements orc fuel (MPrim p (Some (op1 en c))) bs depth off vs e <->
   e = off + len vs * csize c /\ (vs = [] \/ e <= len bs) /\
   map_values p (unpack_codes en (repeat c (List.length vs)) (skipn (Z.to_nat off) bs)) = Ok vs).
Proof.
  intros S. pose proof (csize_pos c) as P. induction vs as [|v vs IH]; intros off e Ho.
  - split.
    + intros E. inversion E; subst. cbn [len List.length Z.of_nat]. split; [unfold len; cbn; lia|]. split; auto.
    + intros (-> & _). replace (off + len [] * csize c) with off by (unfold len; cbn; lia). constructor.
  - rewrite len_cons. cbn [List.length repeat unpack_codes map_values].
    replace (firstn (code_size c) (skipn (Z.to_nat off) bs)) with (window bs off (csize c))
      by (unfold window, csize; now rewrite Nat2Z.id).
    replace (skipn (code_size c) (skipn (Z.to_nat off) bs)) with (skipn (Z.to_nat (off + csize c)) bs).
    2:{ rewrite <- skipn_plus. f_equal. unfold csize. lia. }
    split.
    + intros E. inversion E as [|? ? n ? ? L M E']; subst.
      apply (maps_prim orc fuel p en c) in M; auto. destruct M as (-> & L' & M). apply IH in E'; [|lia].
      destruct E' as (-> & B & Q). split; [lia|]. rewrite M. cbn [bind]. rewrite Q. split; auto. right.
      destruct B as [->|B]; [cbn; lia|auto].
    + intros (-> & [B|B] & Q); [discriminate|].
      destruct (map_value p _) as [w| |] eqn:M; try discriminate. cbn [bind] in Q.
      destruct (map_values p _) as [ws| |] eqn:W; try discriminate. cbn [bind] in Q. inversion Q; subst w ws.
      pose proof (len_nonneg vs).
      apply (elements_cons _ _ _ _ _ off v (csize c)).
      * nia.
      * apply maps_prim; auto. repeat split; auto. nia.
      * apply IH; [lia|]. split; [lia|]. split; auto.
Qed.

Lemma prim_none_elements orc fuel p bs depth off vs e :
  elements orc fuel (MPrim p None) bs depth off vs e -> vs = [].
Proof. intros E. inversion E; subst; auto. exfalso. eapply dead_maps; eauto. Qed.

Lemma linear_created orc e el e' ed em op :
  create orc (DElems KSequence e el) None = Ok (Some (MSequence true e' ed em op)) ->
  e' = e /\ ed = element_type e el /\ sequence_is_linear e ed = true /\
  create orc ed None = Ok em /\ sequence_op orc e ed em = Ok op.
Proof.
  intros C. apply created_elems in C. destruct C as (em' & Ce & C).
  destruct (sequence_is_linear e (element_type e el)) eqn:L; [|discriminate].
  destruct C as (o & O & C). inversion C; subst. auto.
Qed.

(** The count of elements that the fast path reads. *)
Definition linear_count (e : elems) (b : Z) : Z :=
  match truthy_Z (e_data_size e) with
  | Some s => s / b
  | None => match e_number e with Some k => k | None => 0 end
  end.

Lemma linear_seq_layout orc fuel e el e' ed em op x bs off vals depth :
  create orc (DElems KSequence e el) None = Ok (Some (MSequence true e' ed em op)) ->
  create orc (element_type e el) None = Ok (Some x) ->
  everywhere sound (DElems KSequence e el) -> 0 <= off ->
  forall v n, maps orc fuel (MSequence true e' ed em op) bs off vals depth v n <->
    exists b vs, get_byte_size el = Some b /\ elems_byte_size e (Some b) = Some n /\ off + n <= len bs /\
      0 < len vs /\ len vs = linear_count e b /\ v = VTuple vs /\
      elements orc fuel x bs depth off vs (off + len vs * b).
Proof.
  intros C Cx Sd Ho v n. apply linear_created in C. destruct C as (-> & -> & L & Ce & O).
  assert (em = Some x) by congruence. subst em. clear Ce.
  set (t := element_type e el) in *.
  assert (IC : is_composite t = false).
  { unfold sequence_is_linear in L. destruct (is_composite t); auto; discriminate. }
  assert (SZ : get_byte_size t = get_byte_size el) by apply element_type_size.
  assert (SS := sound_size el). destruct Sd as [Sd1 Sd2]. specialize (SS Sd2).
  destruct Sd1 as [(_ & Sd3 & Sd4 & _) _].
  unfold sequence_op in O. apply bind_ok in O. destruct O as (en & En & O).
  assert (IP : is_prim t = true).
  { clearbody t. destruct t; try discriminate; auto; cbn [create] in Cx; inversion Cx; subst; discriminate. }
  destruct (prim_created orc t _ IP Cx) as (pop & b0 & Ex & B0 & PO). inversion Ex; subst x.
  cbn [map_endian] in En. rewrite B0 in En. inversion En as [En']. clear En.
  apply bind_ok in O. destruct O as (tk & TK & O). unfold sequence_tokens in TK. cbn [map_tokens] in TK.
  unfold maps. cbn [mapbs]. unfold map_seq_linear. rewrite SZ.
  destruct (prim_code t) as [c|] eqn:PC.
  - rewrite (prim_op_some orc t b0 c PC) in PO. injection PO as PO'. rewrite resolve_order in En'. rewrite En' in PO'.
    destruct (get_byte_size el) as [b|] eqn:B.
    2:{ split.
        - intros (cx & Q & _). unfold elems_byte_size in Q. destruct (truthy_Z (e_data_size e)) as [s|] eqn:DS.
          + rewrite SZ in TK. inversion TK; subst tk. inversion O; subst op. destruct (_ <? _); discriminate.
          + destruct (truthy_Z (e_number e)); discriminate.
        - intros (b & vs & Q & _). discriminate. }
    assert (b = csize c) by (apply (prim_size t); auto; congruence). subst b. pose proof (csize_pos c) as P.
    unfold linear_count. rewrite SZ in TK. unfold elems_byte_size.
    assert (MAIN : forall (f : Z -> Z) (g : Z -> option Z) q n0, f (csize c) = q -> g (csize c) = Some n0 -> 0 <= q -> op = match truthy_Z (Some q) with Some k => Some (mkOp en [(k, c)]) | None => None end ->
       q * csize c <= n0 ->
       (exists cx, (if len bs - off <? n0 then (Raise ByteStreamTooSmallError, on_state (upd_data_size (Some n0)) (option_map (set_sizes None (Some n0)) (Some (ctx_new vals))))
        else match op with
             | Some o => match read_from o (slice_from bs off) with
                 | Ok t0 => (let* vs := map_values t t0 in Ok (VTuple vs), ctx_done n0 (option_map (set_sizes None (Some n0)) (Some (ctx_new vals))))
                 | Raise _ => (Raise MappingError, option_map (set_sizes None (Some n0)) (Some (ctx_new vals)))
                 | OutOfFuel => (OutOfFuel, option_map (set_sizes None (Some n0)) (Some (ctx_new vals)))
                 end
             | None => (Raise MappingError, option_map (set_sizes None (Some n0)) (Some (ctx_new vals)))
             end) = (Ok v, Some cx) /\ c_byte_size cx = Some n) <->
       exists b vs, Some (csize c) = Some b /\ g b = Some n /\ off + n <= len bs /\ 0 < len vs /\
         len vs = f b /\ v = VTuple vs /\
         elements orc fuel (MPrim t pop) bs depth off vs (off + len vs * b)).
    { intros f g q n0 Fq Gn Q0 OP QL. rewrite <- PO'. destruct (Z.ltb_spec (len bs - off) n0) as [SL|SL].
      - split; [intros (cx & X & _); discriminate|]. intros (b & vs & Qb & Q & H & _). inversion Qb; subst b. rewrite Gn in Q. inversion Q; subst. lia.
      - destruct (truthy_Z (Some q)) as [k|] eqn:TQ.
        + apply truthy_Z_some in TQ. destruct TQ as [TQ NZ]. assert (k = q) by congruence; subst k. subst op. clear TQ.
          unfold read_from. rewrite slice_from_nonneg by lia.
          assert (OS : op_size (mkOp en [(q, c)]) = q * csize c) by (unfold op_size; cbn; unfold csize; lia).
          assert (OC : op_codes (mkOp en [(q, c)]) = repeat c (Z.to_nat q)) by (unfold op_codes; cbn; now rewrite app_nil_r).
          rewrite OS, OC, len_skipn, Z2Nat.id by lia. cbn [op_endian].
          destruct (Z.ltb_spec (Z.max 0 (len bs - off)) (q * csize c)) as [SR|_]; [lia|].
          split.
          * intros (cx & X & N). destruct (map_values t _) as [vs| |] eqn:MV; try discriminate. cbn [bind] in X.
            injection X as <- <-. cbn in N. inversion N; subst n0.
            assert (LV : len vs = q).
            { assert (LG : forall l vs, map_values t l = Ok vs -> len vs = len l).
              { clear. induction l as [|a l IH]; intros vs H; cbn in H; [inversion H; auto|].
                destruct (map_value t a); try discriminate. cbn in H. destruct (map_values t l) eqn:E; try discriminate. inversion H; subst.
                rewrite !len_cons. now rewrite (IH _ eq_refl). }
              apply LG in MV. rewrite MV. unfold len. rewrite unpack_codes_length, repeat_length. lia. }
            exists (csize c), vs. repeat split; auto; try lia.
            apply prim_elements; [congruence|lia|]. split; auto. split; [right; lia|].
            replace (List.length vs) with (Z.to_nat q) by (unfold len in LV; lia). exact MV.
          * intros (b & vs & Qb & Qn & H & LP & LV & -> & E). inversion Qb; subst b. rewrite Gn in Qn. inversion Qn; subst n0. rewrite Fq in LV.
            apply prim_elements in E; [|congruence|lia]. destruct E as (_ & _ & E).
            replace (List.length vs) with (Z.to_nat q) in E by (unfold len in LV; lia). rewrite E. cbn [bind].
            eexists. split; reflexivity.
        + apply truthy_Z_none in TQ. subst op. split.
          * intros (cx & X & _). discriminate.
          * intros (b & vs & Qb & _ & _ & LP & LV & _). inversion Qb; subst b. rewrite Fq in LV. destruct TQ as [TQ|TQ]; [discriminate|]. inversion TQ. lia. }
    destruct (truthy_Z (e_data_size e)) as [s|] eqn:DS.
    + apply truthy_Z_some in DS. destruct DS as [DS _]. apply Sd3 in DS.
      destruct (Z.eqb_spec (csize c) 0); [lia|]. cbn [bind] in TK.
      apply (MAIN (fun b => s / b) (fun _ => Some s) (s / csize c) s eq_refl eq_refl).
      * apply Z.div_pos; lia.
      * destruct (truthy_Z (Some (s / csize c))) as [k|]; inversion TK; subst tk; [|congruence].
        apply bind_ok in O. destruct O as (o & MO & O). inversion O; subst op. f_equal.
        unfold make_op in MO. destruct (_ && _); [|discriminate]. congruence.
      * pose proof (Z.mul_div_le s (csize c)). lia.
    + cbn [bind] in TK.
      destruct (truthy_Z (e_number e)) as [k|] eqn:K.
      * pose proof K as K'. apply truthy_Z_some in K'. destruct K' as [K' NZ]. pose proof (Sd4 _ K') as KP. rewrite K'.
        assert (TC : truthy_Z (Some (csize c)) = Some (csize c)).
        { unfold truthy_Z. destruct (Z.eqb_spec (csize c) 0); [lia|reflexivity]. }
        rewrite TC. rewrite K' in K. apply (MAIN (fun _ => k) (fun b => match truthy_Z (Some b) with None => None | Some s => Some (s * k) end) k (csize c * k) eq_refl ltac:(cbv beta; rewrite TC; reflexivity)); [lia| |lia].
        inversion TK; subst tk. apply bind_ok in O. destruct O as (o & MO & O). inversion O; subst op.
        rewrite K. f_equal. unfold make_op in MO. destruct (_ && _); [|discriminate]. congruence.
      * split; [intros (cx & X & _); discriminate|]. intros (b & vs & _ & Q & _). discriminate.
  - assert (pop = None) by (unfold prim_op in PO; rewrite PC in PO; congruence). subst pop.
    assert (op = None).
    { destruct (truthy_Z (e_data_size e)).
      - destruct (get_byte_size t) as [b|]; [|inversion TK; subst; congruence].
        destruct (b =? 0); [discriminate|]. cbn [bind] in TK. destruct (truthy_Z _); inversion TK; subst; congruence.
      - cbn [bind] in TK. destruct (truthy_Z _); inversion TK; subst; congruence. }
    subst op. split.
    + intros (cx & X & _). destruct (elems_byte_size _ _); [destruct (_ <? _)|]; discriminate.
    + intros (b & vs & _ & _ & _ & LP & _ & _ & E). apply prim_none_elements in E. subst. cbn in LP. lia.
Qed.

(** ** Bounds *)

Lemma bounds_counted orc e ed vals : has_data_size e = false -> e_terminator e = None ->
  forall r, fst (seq_bounds orc e ed (Some (ctx_new vals))) = Ok r <->
    exists k, measure orc (e_number e) (e_number_expr e) vals k /\ r = (Some k, None, None).
Proof.
  intros D T r. unfold seq_bounds. rewrite D. unfold has_terminator. rewrite T. cbn [is_some].
  destruct (has_number e) eqn:N.
  - destruct (eval_number_spec orc e (Some (ctx_new vals))) as (A & B & C).
    destruct (eval_number orc e (Some (ctx_new vals))) as [[k|x|] c]; cbn [fst bind] in *; cbn [ctx_values c_values ctx_new] in A.
    + split.
      * intros Q. inversion Q; subst. exists k. split; auto. now apply A.
      * intros (k' & M & ->). apply A in M. congruence.
    + split; [discriminate|]. intros (k' & M & _). apply A in M. discriminate.
    + split; [discriminate|]. intros (k' & M & _). apply A in M. discriminate.
  - cbn [fst]. split; [discriminate|]. intros (k & M & _). unfold has_number in N. unfold measure in M.
    destruct (e_number e), (e_number_expr e); try discriminate. destruct M as [[M _]|[_ (x & M & _)]]; [destruct M|discriminate].
Qed.

Lemma bounds_terminated orc e ed vals t : has_data_size e = false -> e_terminator e = Some t ->
  fst (seq_bounds orc e ed (Some (ctx_new vals))) = Ok (None, None, Some t).
Proof. intros D T. unfold seq_bounds. rewrite D. unfold has_terminator. rewrite T. reflexivity. Qed.

Lemma bounds_sized orc e ed vals : has_data_size e = true ->
  forall r, fst (seq_bounds orc e ed (Some (ctx_new vals))) = Ok r <->
    exists s, measure orc (e_data_size e) (e_data_size_expr e) vals s /\
      ((exists b, get_byte_size ed = Some b /\ b <> 0 /\ r = (Some (s / b), Some s, None)) \/
       (exists t, get_byte_size ed = None /\ element_terminator ed = Ok (Some t) /\ r = (None, Some s, Some t))).
Proof.
  intros D r. unfold seq_bounds. rewrite D. cbn [fst].
  destruct (eval_data_size_spec orc e vals) as (A & B & C). cbn [ctx_values c_values ctx_new].
  destruct (eval_data_size orc e vals) as [s|x|]; cbn [bind].
  - assert (AS : forall s', measure orc (e_data_size e) (e_data_size_expr e) vals s' -> s' = s) by (intros s' M; apply A in M; congruence).
    assert (M : measure orc (e_data_size e) (e_data_size_expr e) vals s) by now apply A.
    destruct (get_byte_size ed) as [b|].
    + destruct (Z.eqb_spec b 0).
      * split; [discriminate|]. intros (s' & _ & [(b' & Q & N & _)|(t & Q & _)]); congruence.
      * split.
        -- intros Q. inversion Q; subst. exists s. split; auto. left. eauto.
        -- intros (s' & M' & [(b' & Q & N & ->)|(t & Q & _)]); [|discriminate]. apply AS in M'. congruence.
    + destruct (element_terminator ed) as [[t|]|x|]; cbn [bind].
      * split.
        -- intros Q. inversion Q; subst. exists s. split; auto. right. eauto.
        -- intros (s' & M' & [(b' & Q & _)|(t' & _ & Q & ->)]); [discriminate|]. apply AS in M'. congruence.
      * split; [discriminate|]. intros (s' & M' & [(b' & Q & _)|(t' & _ & Q & _)]); discriminate.
      * split; [discriminate|]. intros (s' & M' & [(b' & Q & _)|(t' & _ & Q & _)]); discriminate.
      * split; [discriminate|]. intros (s' & M' & [(b' & Q & _)|(t' & _ & Q & _)]); discriminate.
  - split; [discriminate|]. intros (s & M & _). apply A in M. discriminate.
  - split; [discriminate|]. intros (s & M & _). apply A in M. discriminate.
Qed.

Lemma seq_maps_deep orc fuel e ed em op bs off vals depth v n :
  maps orc fuel (MSequence false e ed em op) bs off vals depth v n -> depth <= 10.
Proof.
  intros M. destruct (Z.lt_ge_cases 10 depth) as [D|D]; [|lia].
  apply maps_fst in M. rewrite too_deep in M by (cbn; auto). discriminate.
Qed.

Lemma seq_maps_bounds orc fuel e ed em op bs off vals depth v n :
  maps orc fuel (MSequence false e ed em op) bs off vals depth v n ->
  exists r, fst (seq_bounds orc e ed (Some (ctx_new vals))) = Ok r.
Proof.
  intros M. pose proof (seq_maps_deep _ _ _ _ _ _ _ _ _ _ _ _ M) as D. apply maps_fst in M. revert M.
  cbn [mapbs]. unfold map_seq. destruct (Z.ltb_spec max_depth depth) as [H|_]; [unfold max_depth in H; lia|].
  destruct (seq_bounds _ _ _ _) as [[r|x|] c]; cbn; [eauto|discriminate|discriminate].
Qed.

(** The parts of a created sequence map. *)
Lemma seq_parts orc e el m x : extensional orc -> everywhere sound (DElems KSequence e el) ->
  create orc (DElems KSequence e el) None = Ok (Some m) -> create orc (element_type e el) None = Ok (Some x) ->
  contained orc x /\ e_terminator e <> Some VNone /\ element_terminator (element_type e el) <> Ok (Some VNone) /\
  ((exists op, m = MSequence true e (element_type e el) (Some x) op) \/
   (m = MSequence false e (element_type e el) (Some x) None)).
Proof.
  intros X Sd C Cx. pose proof (all_steady _ _ _ Sd C) as AS.
  pose proof C as C'. apply created_elems in C'. destruct C' as (em & Ce & C').
  assert (em = Some x) by congruence. subst em.
  assert (K : contained orc x).
  { destruct (sequence_is_linear _ _).
    - destruct C' as (o & _ & ->). apply steady_contained; auto.
      apply (all_maps_elem steady (MSequence true e (element_type e el) (Some x) o) (Some x) eq_refl) in AS. cbn in AS; tauto.
    - subst m. apply steady_contained; auto.
      apply (all_maps_elem steady (MSequence false e (element_type e el) (Some x) None) (Some x) eq_refl) in AS. cbn in AS; tauto. }
  split; auto. destruct Sd as [[(_ & _ & _ & S4) _] Sd].
  split; auto. split.
  - replace (element_terminator (element_type e el)) with (element_terminator el).
    2:{ unfold element_type. destruct (e_bo e); auto; destruct (dt_byte_order el) as [[]|]; auto;
          destruct (is_composite el); auto; destruct el; reflexivity. }
    apply everywhere_here in Sd. destruct el; try discriminate. cbn [element_terminator].
    destruct Sd as [(_ & _ & _ & S5) _]. destruct k; [congruence| |];
      (intros Q; inversion Q as [Q']; destruct (S5 _ Q') as (b & B & _); discriminate).
  - destruct (sequence_is_linear _ _); [destruct C' as (o & _ & ->); eauto|auto].
Qed.

Lemma len_to_nat {A} (l : list A) : Z.to_nat (len l) = List.length l.
Proof. unfold len. lia. Qed.

Lemma len_app_nonempty {A} (l1 l2 : list A) : l2 <> [] -> len l1 < len (l1 ++ l2).
Proof. intros H. rewrite len_app. destruct l2; [congruence|]. rewrite len_cons. pose proof (len_nonneg l2). lia. Qed.

(** C16 *)
Lemma counted_sequence orc fuel e el m x bs off vals depth :
  extensional orc -> everywhere sound (DElems KSequence e el) ->
  create orc (DElems KSequence e el) None = Ok (Some m) ->
  create orc (element_type e el) None = Ok (Some x) ->
  has_data_size e = false -> e_terminator e = None -> 0 <= off <= len bs ->
  (forall v n, maps orc fuel m bs off vals depth v n ->
     exists k vs, measure orc (e_number e) (e_number_expr e) vals k /\ v = VTuple vs /\ len vs = k /\
       elements orc fuel x bs depth off vs (off + n)) /\
  (forall k vs n, measure orc (e_number e) (e_number_expr e) vals k -> len vs = k ->
     elements orc fuel x bs depth off vs (off + n) ->
     depth <= 10 -> (Z.to_nat k < fuel)%nat ->
     maps orc fuel m bs off vals depth (VTuple vs) n).
Proof.
  intros X Sd C Cx D T Ho. destruct (seq_parts _ _ _ _ _ X Sd C Cx) as (K & T1 & T2 & [(op & ->)|Em]).
  - pose proof (linear_seq_layout orc fuel e el _ _ _ op x bs off vals depth C Cx Sd ltac:(lia)) as LL.
    assert (DS : e_data_size e = None /\ e_data_size_expr e = None).
    { unfold has_data_size in D. destruct (e_data_size e), (e_data_size_expr e); try discriminate; auto. }
    destruct DS as [DS DX].
    assert (EX : e_number_expr e = None).
    { apply linear_created in C. destruct C as (_ & _ & L & _). unfold sequence_is_linear in L.
      rewrite DX, T in L. destruct (e_number_expr e); auto. destruct (is_composite _); discriminate. }
    assert (CNT : forall b, linear_count e b = match e_number e with Some k => k | None => 0 end)
      by (intros b; unfold linear_count; now rewrite DS).
    pose proof Sd as [[(_ & _ & Sd4 & _) _] _].
    split.
    + intros v n M. apply LL in M. destruct M as (b & vs & B & S & L & LP & LV & -> & E).
      rewrite CNT in LV. destruct (e_number e) as [k|] eqn:N; [|lia]. exists k, vs.
      split; [left; specialize (Sd4 _ eq_refl); repeat split; auto; lia|]. split; auto. split; auto.
      unfold elems_byte_size in S. rewrite DS, N in S. cbn [truthy_Z] in S.
      destruct (Z.eqb_spec k 0); [lia|]. destruct (Z.eqb_spec b 0); [discriminate|].
      inversion S. replace (off + b * k) with (off + len vs * b) by (rewrite LV; lia). exact E.
    + intros k vs n M LV E Hd Hf. apply LL.
      assert (NK : e_number e = Some k /\ 0 < k).
      { destruct M as [(M1 & M2 & _)|[_ (y & Q & _)]]; [|congruence]. split; auto. }
      destruct NK as [NK KP].
      assert (XP : exists b, get_byte_size el = Some b /\ 0 < b /\ n = k * b /\ off + n <= len bs).
      { apply linear_created in C. destruct C as (_ & _ & L & Ce & O).
        assert (IP : is_prim (element_type e el) = true).
        { assert (IC : is_composite (element_type e el) = false) by (unfold sequence_is_linear in L; destruct (is_composite _); auto; discriminate).
          unfold sequence_op in O. apply bind_ok in O. destruct O as (en & En & _).
          clear -IC Cx En. destruct (element_type e el); try discriminate; auto; cbn [create] in Cx; inversion Cx; subst; discriminate. }
        destruct (prim_created orc _ _ IP Cx) as (pop & b0 & Ex & B0 & PO). inversion Ex; subst x.
        destruct vs as [|v vs]; [cbn in LV; lia|].
        destruct (prim_code (element_type e el)) as [c|] eqn:PC.
        - rewrite (prim_op_some orc _ b0 c PC) in PO. inversion PO; subst pop.
          destruct (get_byte_size el) as [b|] eqn:B.
          + assert (b = csize c) by (apply (prim_size (element_type e el)); auto; now rewrite element_type_size).
            subst b. pose proof (csize_pos c). apply prim_elements in E; [|now rewrite element_type_size|lia].
            destruct E as (E1 & [E2|E2] & _); [discriminate|]. exists (csize c). repeat split; auto; nia.
          + exfalso. inversion E as [|? ? ? ? ? _ (cx & MX & _) _]; subst. cbn [mapbs] in MX. unfold map_prim in MX.
            rewrite element_type_size, B in MX. discriminate.
        - unfold prim_op in PO. rewrite PC in PO. inversion PO; subst pop. apply prim_none_elements in E. discriminate. }
      destruct XP as (b & B & BP & -> & L). exists b, vs. split; auto. split.
      { unfold elems_byte_size. rewrite DS, NK. cbn [truthy_Z]. destruct (Z.eqb_spec k 0); [lia|]. destruct (Z.eqb_spec b 0); [lia|]. f_equal; lia. }
      split; auto. split; [lia|]. split; [rewrite CNT, NK; auto|]. split; auto. rewrite LV. exact E.
  - subst m. pose proof (bounds_counted orc e (element_type e el) vals D T) as BC.
    pose proof (contained_nonneg _ _ K) as NN.
    split.
    + intros v n M. pose proof (seq_maps_deep _ _ _ _ _ _ _ _ _ _ _ _ M) as Hd.
      destruct (seq_maps_bounds _ _ _ _ _ _ _ _ _ _ _ _ M) as (r & B). apply BC in B. destruct B as (k & MS & ->).
      assert (B : fst (seq_bounds orc e (element_type e el) (Some (ctx_new vals))) = Ok (Some k, None, None)) by (apply BC; eauto).
      apply (sequence_layout orc fuel x bs depth (Some k) None None off e (element_type e el) None vals X ltac:(lia) NN ltac:(discriminate) B Hd) in M.
      destruct M as (vs & -> & [W _] & A & _). cbn in A. exists k, vs. auto.
    + intros k vs n MS LV E Hd Hf.
      assert (B : fst (seq_bounds orc e (element_type e el) (Some (ctx_new vals))) = Ok (Some k, None, None)) by (apply BC; eauto).
      apply (sequence_layout orc fuel x bs depth (Some k) None None off e (element_type e el) None vals X ltac:(lia) NN ltac:(discriminate) B Hd).
      exists vs. split; auto. split; [|split].
      * split; auto. intros before after n' -> NE _ [Q|[(s & Q & _)|(t & Q & _)]]; try discriminate.
        inversion Q. pose proof (len_app_nonempty before after NE). lia.
      * exact LV.
      * left. rewrite <- LV, len_to_nat in Hf. exact Hf.
Qed.


(** The walk of a terminated sequence. *)
Lemma walk_terminated orc fuel x bs depth t off vs n :
  walk orc fuel x bs depth None None (Some t) off vs n <->
  elements orc fuel x bs depth off vs (off + n) /\
  forall before w after, vs = before ++ w :: after -> after <> [] -> py_eq w t = false.
Proof.
  split; intros [E W]; split; auto.
  - intros before w after -> NE. destruct (py_eq w t) eqn:Q; auto. exfalso.
    replace (before ++ w :: after) with ((before ++ [w]) ++ after) in E by (rewrite <- app_assoc; auto).
    pose proof (elements_prefix _ _ _ _ _ _ _ _ _ E) as (e1 & E1 & _).
    apply (W (before ++ [w]) after (e1 - off)); auto.
    + rewrite <- app_assoc. reflexivity.
    + replace (off + (e1 - off)) with e1 by lia. exact E1.
    + right. right. exists t. split; auto. split; [destruct before; discriminate|]. rewrite last_snoc. exact Q.
  - intros before after n' -> NE _ [Q|[(s & Q & _)|(t' & Q & NB & L)]]; try discriminate.
    inversion Q; subst t'. destruct (exists_last NB) as (b' & w & ->). rewrite last_snoc in L.
    rewrite (W b' w after) in L; [discriminate| |auto]. rewrite <- app_assoc. reflexivity.
Qed.

(** C17 *)
Lemma terminated_sequence orc fuel e el m x t bs off vals depth :
  extensional orc -> everywhere sound (DElems KSequence e el) ->
  create orc (DElems KSequence e el) None = Ok (Some m) ->
  create orc (element_type e el) None = Ok (Some x) ->
  has_data_size e = false -> e_terminator e = Some t -> 0 <= off <= len bs -> depth <= 10 ->
  (forall v n, maps orc fuel m bs off vals depth v n <->
     exists vs w, v = VTuple (vs ++ [w]) /\ py_eq w t = true /\ Forall (fun u => py_eq u t = false) vs /\
       elements orc fuel x bs depth off (vs ++ [w]) (off + n) /\ (List.length vs < fuel)%nat) /\
  (fails orc fuel m bs off vals depth ByteStreamTooSmallError <->
     exists vs n, Forall (fun u => py_eq u t = false) vs /\ elements orc fuel x bs depth off vs (off + n) /\
       (len bs <= off + n \/ fails orc fuel x bs (off + n) [] (depth + 1) ByteStreamTooSmallError) /\
       (List.length vs < fuel)%nat).
Proof.
  intros X Sd C Cx D T Ho Hd. destruct (seq_parts _ _ _ _ _ X Sd C Cx) as (K & T1 & T2 & [(op & ->)|Em]).
  { apply linear_created in C. destruct C as (_ & _ & L & _). unfold sequence_is_linear in L. rewrite T in L.
    destruct (is_composite _), (e_data_size_expr e); discriminate. }
  subst m. pose proof (contained_nonneg _ _ K) as NN.
  pose proof (bounds_terminated orc e (element_type e el) vals t D T) as B.
  assert (TN : Some t <> Some VNone) by congruence.
  destruct (sequence_layout orc fuel x bs depth None None (Some t) off e (element_type e el) None vals X ltac:(lia) NN TN B Hd) as (L1 & L2 & _).
  assert (SN : forall vs w, (forall before w0 after, vs ++ [w] = before ++ w0 :: after -> after <> [] -> py_eq w0 t = false) <->
             Forall (fun u => py_eq u t = false) vs).
  { intros vs w. rewrite Forall_forall. split.
    - intros H u I. apply in_split in I. destruct I as (a & b & ->). apply (H a u (b ++ [w])).
      + rewrite <- app_assoc. reflexivity.
      + destruct b; discriminate.
    - intros H before w0 after Q NE. apply H. destruct (exists_last NE) as (a' & z & ->).
      replace (before ++ w0 :: a' ++ [z]) with ((before ++ w0 :: a') ++ [z]) in Q by (rewrite <- app_assoc; reflexivity).
      apply app_inj_tail in Q. destruct Q as [-> _]. apply in_or_app. right. now left. }
  split.
  - intros v n. rewrite L1. split.
    + intros (vs & -> & W & A & I). apply walk_terminated in W. destruct W as [E W].
      destruct A as [A|[(s & A & _)|(t' & A & NV & LA)]]; try discriminate. inversion A; subst t'.
      destruct (exists_last NV) as (vs' & w & ->). rewrite last_snoc in LA. exists vs', w.
      split; auto. split; auto. split; [now apply (SN vs' w)|]. split; auto.
      destruct I as [I|[I _]]; rewrite app_length in I; cbn in I; lia.
    + intros (vs & w & -> & Q & F & E & L). exists (vs ++ [w]). split; auto.
      assert (TT : exists t0, Some t = Some t0 /\ vs ++ [w] <> [] /\ py_eq (last (vs ++ [w]) VNone) t0 = true).
      { exists t. split; auto. split; [destruct vs; discriminate|]. now rewrite last_snoc. }
      split; [|split].
      * apply walk_terminated. split; auto. now apply SN.
      * right. right. exact TT.
      * destruct (Nat.eq_dec (List.length (vs ++ [w])) fuel); [right; auto|left]. rewrite app_length in *. cbn in *. lia.
  - rewrite L2. split.
    + intros (vs & n & W & A & I & R). apply walk_terminated in W. destruct W as [E W].
      exists vs, n. split; [|split; [auto|split; auto]].
      * destruct vs as [|v0 vs0] eqn:V; [constructor|]. rewrite <- V in *.
        assert (NV : vs <> []) by congruence. destruct (exists_last NV) as (vs' & w & ->).
        apply Forall_app. split; [now apply (SN vs' w)|]. constructor; [|constructor].
        destruct (py_eq w t) eqn:Q; auto. exfalso. apply A. right. right. exists t. split; auto. split; auto. now rewrite last_snoc.
      * destruct R as [R|R]; auto. contradiction.
    + intros (vs & n & F & E & R & L). exists vs, n.
      assert (NC : ~ complete None None (Some t) vs n).
      { intros [Q|[(s & Q & _)|(t' & Q & NV & LA)]]; try discriminate. inversion Q; subst t'.
        destruct (exists_last NV) as (vs' & w & ->). rewrite last_snoc in LA. apply Forall_app in F. destruct F as [_ F].
        inversion F; congruence. }
      split; [|split; [auto|split; auto]]. apply walk_terminated. split; auto.
      intros before w after -> _. apply Forall_app in F. destruct F as [_ F]. now inversion F.
Qed.

(** C18 *)
Lemma sized_sequence orc fuel e el m x b bs off vals depth v n :
  extensional orc -> everywhere sound (DElems KSequence e el) ->
  create orc (DElems KSequence e el) None = Ok (Some m) ->
  create orc (element_type e el) None = Ok (Some x) ->
  has_data_size e = true -> get_byte_size el = Some b -> 0 <= off <= len bs ->
  maps orc fuel m bs off vals depth v n ->
  exists s vs k, measure orc (e_data_size e) (e_data_size_expr e) vals s /\ v = VTuple vs /\
    len vs = s / b /\ elements orc fuel x bs depth off vs (off + k) /\
    (if sequence_is_linear e (element_type e el) then n = s /\ k = s / b * b else n = k).
Proof.
  intros X Sd C Cx D B Ho M. destruct (seq_parts _ _ _ _ _ X Sd C Cx) as (K & T1 & T2 & [(op & ->)|Em]).
  - pose proof C as C'. apply linear_created in C'. destruct C' as (_ & _ & L & _).
    apply (linear_seq_layout orc fuel e el _ _ _ op x bs off vals depth C Cx Sd ltac:(lia)) in M.
    destruct M as (b' & vs & B' & S & IN & LP & LV & -> & E). assert (b' = b) by congruence. subst b'.
    pose proof Sd as [[(_ & Sd3 & _) _] _].
    assert (DS : exists s, e_data_size e = Some s /\ 0 < s).
    { unfold sequence_is_linear in L. unfold has_data_size in D. destruct (e_data_size e) as [s|]; [eauto|].
      destruct (is_composite _), (e_data_size_expr e); discriminate. }
    destruct DS as (s & DS & SP).
    assert (TS : truthy_Z (e_data_size e) = Some s) by (rewrite DS; cbn; destruct (Z.eqb_spec s 0); [lia|auto]).
    unfold linear_count in LV. unfold elems_byte_size in S. rewrite TS in *. inversion S; subst n.
    exists s, vs, (s / b * b). split; [left; rewrite DS; repeat split; auto; lia|]. split; auto. split; auto.
    split; [rewrite <- LV; exact E|]. rewrite L. auto.
  - subst m. pose proof (contained_nonneg _ _ K) as NN. pose proof (seq_maps_deep _ _ _ _ _ _ _ _ _ _ _ _ M) as Hd.
    destruct (seq_maps_bounds _ _ _ _ _ _ _ _ _ _ _ _ M) as (r & Br). pose proof Br as Br'.
    apply (bounds_sized orc e _ vals D) in Br'. destruct Br' as (s & MS & [(b' & B' & NZ & ->)|(t & B' & _)]);
      rewrite element_type_size, B in B'; [|discriminate].
    inversion B'; subst b'.
    apply (sequence_layout orc fuel x bs depth (Some (s / b)) (Some s) None off e (element_type e el) None vals X ltac:(lia) NN ltac:(discriminate) Br Hd) in M.
    destruct M as (vs & -> & [W _] & A & _). cbn in A. exists s, vs, n. repeat split; auto.
    destruct (sequence_is_linear e (element_type e el)) eqn:L; auto.
    exfalso. apply created_elems in C. destruct C as (em & _ & C). rewrite L in C. destruct C as (o & _ & C). discriminate.
Qed.

Lemma sized_sequence_variable orc fuel e el m x bs off vals depth v n :
  extensional orc -> everywhere sound (DElems KSequence e el) ->
  create orc (DElems KSequence e el) None = Ok (Some m) ->
  create orc (element_type e el) None = Ok (Some x) ->
  has_data_size e = true -> get_byte_size el = None -> 0 <= off <= len bs ->
  maps orc fuel m bs off vals depth v n ->
  exists s t vs, measure orc (e_data_size e) (e_data_size_expr e) vals s /\
    element_terminator el = Ok (Some t) /\ v = VTuple vs /\
    elements orc fuel x bs depth off vs (off + n) /\
    (s <= n \/ (vs <> [] /\ py_eq (last vs VNone) t = true)) /\
    forall before after k, vs = before ++ after -> after <> [] ->
      elements orc fuel x bs depth off before (off + k) ->
      k < s /\ (before <> [] -> py_eq (last before VNone) t = false).
Proof.
  intros X Sd C Cx D B Ho M. destruct (seq_parts _ _ _ _ _ X Sd C Cx) as (K & T1 & T2 & [(op & ->)|Em]).
  - apply (linear_seq_layout orc fuel e el _ _ _ op x bs off vals depth C Cx Sd ltac:(lia)) in M.
    destruct M as (b' & vs & B' & _). congruence.
  - subst m. pose proof (contained_nonneg _ _ K) as NN. pose proof (seq_maps_deep _ _ _ _ _ _ _ _ _ _ _ _ M) as Hd.
    destruct (seq_maps_bounds _ _ _ _ _ _ _ _ _ _ _ _ M) as (r & Br). pose proof Br as Br'.
    apply (bounds_sized orc e _ vals D) in Br'. destruct Br' as (s & MS & [(b' & B' & NZ & ->)|(t & B' & ET & ->)]);
      rewrite element_type_size, B in B'; [discriminate|].
    assert (TN : Some t <> Some VNone) by (intros Q; apply T2; rewrite ET, Q; reflexivity).
    apply (sequence_layout orc fuel x bs depth None (Some s) (Some t) off e (element_type e el) None vals X ltac:(lia) NN TN Br Hd) in M.
    destruct M as (vs & -> & [W W'] & A & _). cbn in A. exists s, t, vs. split; auto. split.
    { rewrite <- ET. unfold element_type. destruct (e_bo e); auto; destruct (dt_byte_order el) as [[]|]; auto;
          destruct (is_composite el); auto; destruct el; reflexivity. }
    split; auto. split; auto. split.
    + destruct A as [A|[(s' & A & LS)|(t' & A & NV & LA)]]; [discriminate| |].
      * inversion A; subst. auto.
      * inversion A; subst. auto.
    + intros before after k Q NE E. specialize (W' _ _ _ Q NE E). split.
      * destruct (Z.lt_ge_cases k s); auto. exfalso. apply W'. right. left. exists s. auto.
      * intros NB. destruct (py_eq _ _) eqn:LB; auto. exfalso. apply W'. right. right. exists t. auto.
Qed.
