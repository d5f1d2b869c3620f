(** Struct format strings. *)
From Coq Require Import String Ascii List ZArith NArith Bool Lia DecimalString DecimalZ DecimalPos DecimalFacts Decimal.
From Verif Require Import Base PyVal PyStruct DataTypes ClassFactory DataMaps FormatText SpecFormat.
From Verif Require Import BytesProofs ContainerProofs SpecPrim PrimProofs SpecMap SpecCreate MapProofs
  StructProofs LayoutProofs CreateProofs LinearProofs StreamProofs SeqProofs SteadyProofs.
Import ListNotations.
Open Scope Z_scope.
Arguments Z.pow : simpl never.
Arguments Z.mul : simpl never.
Arguments Z.div : simpl never.
Arguments Z.modulo : simpl never.

Definition total (l : list (Z * fcode)) : Z := op_size (mkOp Little l).

Lemma total_size en l : op_size (mkOp en l) = total l.
Proof. reflexivity. Qed.

Lemma total_cons n c l : total ((n, c) :: l) = n * Z.of_nat (code_size c) + total l.
Proof. reflexivity. Qed.

Lemma total_app l l' : total (l ++ l') = total l + total l'.
Proof. induction l as [|[n c] l IH]; [reflexivity|].
  change (((n, c) :: l) ++ l') with ((n, c) :: (l ++ l')). rewrite (total_cons n c (l ++ l')), (total_cons n c l), IH. lia. Qed.

(** ** Digits *)

Lemma items_code c s count : char_digit (code_char c) = None /\
  format_items (String (code_char c) s) count =
  option_map (cons (match count with Some n => n | None => 1 end, c)) (format_items s None).
Proof. destruct c; split; try reflexivity; cbn; destruct (format_items s None); reflexivity. Qed.

Lemma items_digits u : forall s p, 
  format_items (String.append (NilEmpty.string_of_uint u) s) (Some (Z.pos p)) =
  format_items s (Some (Z.pos (Pos.of_uint_acc u p))).
Proof.
  induction u; intros s p; cbn [NilEmpty.string_of_uint String.append Pos.of_uint_acc format_items]; [reflexivity|..];
    (match goal with |- context [char_digit ?c] => let x := eval compute in (char_digit c) in change (char_digit c) with x end;
     cbn match; rewrite <- IHu; f_equal; f_equal; lia).
Qed.

Lemma items_uint u : forall s, u <> Nil -> 
  exists z, format_items (String.append (NilEmpty.string_of_uint u) s) None = format_items s (Some z) /\
            z = Z.of_N (Pos.of_uint u).
Proof.
  assert (G : forall u s, format_items (String.append (NilEmpty.string_of_uint u) s) (Some 0) =
             format_items s (Some (Z.of_N (Pos.of_uint u)))).
  { clear. induction u; intros s; cbn [NilEmpty.string_of_uint String.append Pos.of_uint format_items]; [reflexivity|..];
    (match goal with |- context [char_digit ?c] => let x := eval compute in (char_digit c) in change (char_digit c) with x end;
     cbn match).
    1: exact (IHu s).
    all: cbn [Z.of_N]; rewrite <- items_digits; reflexivity. }
  intros s N. destruct u; [congruence|..];
    cbn [NilEmpty.string_of_uint String.append Pos.of_uint format_items];
    (match goal with |- context [char_digit ?c] => let x := eval compute in (char_digit c) in change (char_digit c) with x end;
     cbn match); eexists; (split; [|reflexivity]).
  1: exact (G u s).
  all: cbn [Z.of_N]; rewrite <- items_digits; reflexivity.
Qed.

Lemma items_decimal n s : 0 <= n -> format_items (String.append (decimal_text n) s) None = format_items s (Some n).
Proof.
  intros N. unfold decimal_text. destruct n as [|p|p]; [reflexivity| |lia].
  cbn [Z.to_int NilZero.string_of_int].
  assert (U : Pos.to_uint p <> Nil) by (apply Unsigned.to_uint_nonnil).
  unfold NilZero.string_of_uint. 
  replace (match Pos.to_uint p with Nil => "0" | _ => NilEmpty.string_of_uint (Pos.to_uint p) end)%string
    with (NilEmpty.string_of_uint (Pos.to_uint p)) by (destruct (Pos.to_uint p); congruence).
  destruct (items_uint (Pos.to_uint p) s U) as (z & -> & ->). f_equal. f_equal.
  rewrite Unsigned.of_to. reflexivity.
Qed.

Lemma items_negative p s : format_items (String.append (decimal_text (Z.neg p)) s) None = None.
Proof. reflexivity. Qed.

Lemma compile_known orc bo s l : format_items s None = Some l ->
  compile_format (o_host orc) (String (order_char bo) s) =
  (if total l <=? 2 ^ 63 - 1 then Some (mkOp (resolve orc bo) l) else None).
Proof. intros F. unfold compile_format. destruct bo; cbn [order_char resolve]; rewrite F; reflexivity. Qed.

Lemma compile_unknown orc bo s : format_items s None = None ->
  compile_format (o_host orc) (String (order_char bo) s) = None.
Proof. intros F. unfold compile_format. destruct bo; cbn [order_char]; rewrite F; reflexivity. Qed.

(** ** Operations *)

Definition asked (m : dmap) : Prop :=
  match m with
  | MSequence _ _ _ _ _ | MStream _ _ _ | MString _ _ _ | MStructure _ _ _ _ _ _ => False
  | _ => True
  end.

Definition code_text (c : fcode) : string := String (code_char c) EmptyString.

Lemma asked_text m : asked m ->
  (exists c, map_tokens m = Ok (Some [(1, c)]) /\ format_text m = Ok (Some (code_text c))) \/
  (map_tokens m = Ok None /\ format_text m = Ok None) \/
  (map_tokens m = Raise AttributeError /\ format_text m = Raise AttributeError).
Proof.
  destruct m; intros []; cbn [map_tokens format_text]; auto.
  destruct (prim_code d); cbn; eauto.
Qed.

Lemma simple_asked orc d ov m : is_composite d = false -> create orc d ov = Ok (Some m) -> asked m.
Proof.
  destruct d; try discriminate; cbn [create]; intros _ C.
  1: destruct false_value, true_value; try discriminate.
  all: try (apply bind_ok in C; destruct C as (o & _ & C)); inversion C; exact I.
Qed.

Lemma make_op_some en t o : make_op en t = Ok o ->
  o = mkOp en t /\ forallb (fun '(n, _) => 0 <=? n) t = true /\ total t <= 2 ^ 63 - 1.
Proof.
  unfold make_op. rewrite total_size. destruct (forallb _ t); [|discriminate]. cbn [andb].
  destruct (Z.leb_spec (total t) (2 ^ 63 - 1)); [|discriminate]. intros E. inversion E. auto.
Qed.

Lemma option_iff {A} (x y : option A) (b : A) : x = y -> x = Some b <-> y = Some b.
Proof. intros ->. tauto. Qed.

Lemma struct_text attrs : Forall (fun a => on_opt asked (snd a)) attrs ->
  forall t, struct_tokens attrs = Ok t ->
  match t with
  | None => (fix go (l : list (string * option dmap)) : res (option string) :=
             match l with
             | [] => Ok (Some EmptyString)
             | (_, None) :: _ => Ok None
             | (_, Some x) :: r =>
                 let* f := format_text x in
                 match f with
                 | None => Ok None
                 | Some f =>
                     let* g := go r in
                     Ok (option_map (String.append f) g)
                 end
             end) attrs = Ok None
  | Some t => exists s, (fix go (l : list (string * option dmap)) : res (option string) :=
             match l with
             | [] => Ok (Some EmptyString)
             | (_, None) :: _ => Ok None
             | (_, Some x) :: r =>
                 let* f := format_text x in
                 match f with
                 | None => Ok None
                 | Some f =>
                     let* g := go r in
                     Ok (option_map (String.append f) g)
                 end
             end) attrs = Ok (Some s) /\ format_items s None = Some t /\ 
         forallb (fun '(n, _) => 0 <=? n) t = true /\ (attrs <> [] -> t <> [])
  end.
Proof.
  induction 1 as [|[nm [x|]] attrs A F IH]; intros t T; cbn [struct_tokens] in T.
  - inversion T. exists EmptyString. repeat split; auto.
  - cbn [snd on_opt] in A. destruct (asked_text x A) as [(c & TK & FT)|[(TK & FT)|(TK & FT)]]; rewrite TK in T; cbn [bind] in T.
    + apply bind_ok in T. destruct T as (u & U & T). specialize (IH _ U). rewrite FT. cbn [bind].
      destruct u as [u|]; inversion T; subst.
      * destruct IH as (s & G & FI & NN & _). rewrite G. cbn [bind option_map]. exists (String.append (code_text c) s).
        split; auto. split; [|split; [exact NN|intros _; discriminate]].
        cbn [code_text String.append]. rewrite (proj2 (items_code c s None)), FI. reflexivity.
      * rewrite IH. reflexivity.
    + inversion T; subst. rewrite FT. reflexivity.
    + discriminate.
  - inversion T; subst. reflexivity.
Qed.

Lemma created_sequence orc d lin e ed em o : create orc d None = Ok (Some (MSequence lin e ed em o)) ->
  exists e' el, d = DElems KSequence e' el.
Proof.
  intros C. destruct d; cbn [create] in C; try discriminate C.
  - destruct false_value, true_value; try discriminate C; apply bind_ok in C; destruct C as (? & ? & C); discriminate C.
  - apply bind_ok in C; destruct C as (? & ? & C); discriminate C.
  - apply bind_ok in C; destruct C as (? & ? & C); discriminate C.
  - apply bind_ok in C; destruct C as (? & ? & C); discriminate C.
  - destruct k; [eauto|..]; repeat (apply bind_ok in C; destruct C as (? & ? & C)); destruct (is_composite _); discriminate C.
  - apply bind_ok in C. destruct C as (s & S & C). apply create_structure_inv in S.
    destruct S as (attrs & _ & _ & _ & _ & [(_ & op & _ & ->)|(_ & ->)]); discriminate C.
  - repeat (apply bind_ok in C; destruct C as (? & ? & C)). destruct members; [discriminate C|].
    apply bind_ok in C. destruct C as (? & ? & C). discriminate C.
Qed.

Lemma created_struct orc d lin d0 cls ms attrs o : create orc d None = Ok (Some (MStructure lin d0 cls ms attrs o)) ->
  exists mt bo ms, d = DStructure mt bo ms.
Proof.
  intros C. destruct d; cbn [create] in C; try discriminate C.
  - destruct false_value, true_value; try discriminate C; apply bind_ok in C; destruct C as (? & ? & C); discriminate C.
  - apply bind_ok in C; destruct C as (? & ? & C); discriminate C.
  - apply bind_ok in C; destruct C as (? & ? & C); discriminate C.
  - apply bind_ok in C; destruct C as (? & ? & C); discriminate C.
  - repeat (apply bind_ok in C; destruct C as (? & ? & C)). destruct k.
    + destruct (sequence_is_linear _ _); [apply bind_ok in C; destruct C as (? & ? & C)|]; discriminate C.
    + destruct (is_composite _); discriminate C.
    + destruct (is_composite _); discriminate C.
  - eauto.
  - repeat (apply bind_ok in C; destruct C as (? & ? & C)). destruct members; [discriminate C|].
    apply bind_ok in C. destruct C as (? & ? & C). discriminate C.
Qed.

Lemma asked_order m : asked m ->
  (exists bo, byte_order_text m = Ok (Some (String (order_char bo) EmptyString)) /\
              forall orc, map_endian orc m = Ok (resolve orc bo)) \/
  (exists e, byte_order_text m = Raise e /\ forall orc, map_endian orc m = Raise e).
Proof.
  destruct m; intros []; cbn; eauto; destruct (dt_byte_order d); eauto.
Qed.

Lemma linear_simple ms : forall last, check_linear last ms = Ok true ->
  Forall (fun m => is_composite (type_of m) = false) ms.
Proof.
  induction ms as [|m ms IH]; intros last L; constructor; cbn in L.
  - destruct (is_composite m) eqn:E; [discriminate|]. destruct m; cbn in *; auto. apply orb_false_iff in E. tauto.
  - destruct (is_composite m || is_padding m); [discriminate|]. destruct (dt_byte_order m); [|discriminate].
    destruct (_ && _); [discriminate|]. eauto.
Qed.

(** C55 *)
Lemma operation_text orc d m op : create orc d None = Ok (Some m) -> unpacks m ->
  operation m = Some op <->
  exists o s, byte_order_text m = Ok (Some o) /\ format_text m = Ok (Some s) /\
    compile_format (o_host orc) (String.append o s) = Some op.
Proof.
  intros C U.
  assert (K : forall o, byte_order_text m = Ok (Some o) ->
     (operation m = Some op <-> exists s, format_text m = Ok (Some s) /\
        compile_format (o_host orc) (String.append o s) = Some op) ->
     operation m = Some op <->
     exists o s, byte_order_text m = Ok (Some o) /\ format_text m = Ok (Some s) /\
       compile_format (o_host orc) (String.append o s) = Some op).
  { intros o B [F G]. split.
    - intros X. destruct (F X) as (s & Y). exists o, s. tauto.
    - intros (o' & s & B' & Y). apply G. exists s. rewrite B in B'. inversion B'; subst. exact Y. }
  assert (S : forall bo s l, format_text m = Ok (Some s) -> format_items s None = Some l ->
     operation m = (if total l <=? 2 ^ 63 - 1 then Some (mkOp (resolve orc bo) l) else None) ->
     (operation m = Some op <-> exists s, format_text m = Ok (Some s) /\
        compile_format (o_host orc) (String.append (String (order_char bo) EmptyString) s) = Some op)).
  { intros bo s l F FI O. cbn [String.append]. rewrite O, <- (compile_known orc bo s l FI). split.
    - intros X. exists s. auto.
    - intros (s' & F' & X). rewrite F in F'. inversion F'; subst. exact X. }
  assert (N : forall o, format_text m = Ok None -> operation m = None ->
     (operation m = Some op <-> exists s, format_text m = Ok (Some s) /\
        compile_format (o_host orc) (String.append o s) = Some op)).
  { intros o F O. rewrite O, F. split; [discriminate|]. intros (s & X & _). discriminate. }
  destruct m as [p o|p|p|lin e ed em o|e ed em|e ed em|lin d0 cls ms attrs o|p|p|p i b df maps]; try contradiction; [|destruct lin; [|contradiction]|destruct lin; [|contradiction]].
  - pose proof (created_prim _ _ _ C) as [-> PO]. 
    destruct (dt_byte_order d) as [bo|] eqn:B.
    2:{ exfalso. destruct d; try discriminate B; try discriminate C; cbn in C;
          repeat (apply bind_ok in C; destruct C as (? & ? & C)); try discriminate C. }
    apply (K (String (order_char bo) EmptyString)); [cbn; now rewrite B|].
    unfold prim_op in PO. destruct (prim_code d) as [c|] eqn:PC.
    + apply bind_ok in PO. destruct PO as (o' & O & PO). inversion PO; subst o. apply make_op_some in O. destruct O as (-> & _ & LE).
      apply (S bo (code_text c) [(1, c)]).
      * cbn. now rewrite PC.
      * unfold code_text. now rewrite (proj2 (items_code c EmptyString None)).
      * apply Z.leb_le in LE. rewrite LE. reflexivity.
    + inversion PO; subst. apply N; cbn; now rewrite ?PC.
  - destruct (created_sequence _ _ _ _ _ _ _ C) as (e' & el & ->).
    apply create_elems in C. destruct C as (eov & em' & EO & Ce & _ & C).
    destruct (sequence_is_linear _ _) eqn:L; [|discriminate C].
    destruct C as (o' & O & C). inversion C; subst e ed em o. cbn [elems_of] in *.
    assert (NC : is_composite (apply_ov eov el) = false).
    { unfold sequence_is_linear in L. apply negb_true_iff in L. repeat (apply orb_false_iff in L; destruct L as [L _]). exact L. }
    unfold sequence_op in O. destruct em' as [x|].
    2:{ inversion O; subst. cbn. split; [discriminate|]. intros (? & ? & X & _). discriminate X. }
    assert (A : asked x). { rewrite create_apply in Ce. eapply simple_asked; eauto. }
    destruct (asked_order x A) as [(bo & BT & ME)|(y & BT & ME)]; rewrite ME in O; [|discriminate]. cbn [bind] in O.
    apply (K (String (order_char bo) EmptyString)); [exact BT|].
    apply bind_ok in O. destruct O as (t & T & O).
    unfold sequence_tokens in T.
    assert (FT : forall n n', (let* f := map_tokens x in
        match truthy_Z n, f with
        | Some n, Some [(_, c)] => Ok (Some [(n, c)])
        | _, _ => Ok None
        end) = Ok t ->
        sequence_count e' (apply_ov eov el) = Ok (Some n') -> truthy_Z n' = truthy_Z n ->
        match t with
        | Some t => exists s, format_text (MSequence true e' (apply_ov eov el) (Some x) o') = Ok (Some s) /\
            (forallb (fun '(n, _) => 0 <=? n) t = true -> format_items s None = Some t)
        | None => format_text (MSequence true e' (apply_ov eov el) (Some x) o') = Ok None
        end).
    { intros n n' Q SC TT. cbn [format_text]. rewrite SC. cbn [bind]. rewrite TT.
      destruct (asked_text x A) as [(c & TK & FX)|[(TK & FX)|(TK & FX)]]; rewrite TK in Q; cbn [bind] in Q; try discriminate Q;
        rewrite FX; cbn [bind].
      - destruct (truthy_Z n) as [k|]; inversion Q; subst; auto. cbn [truthy_str code_text]. eexists. split; [reflexivity|].
        intros NN. cbn [forallb] in NN. rewrite andb_true_r in NN. apply Z.leb_le in NN. rewrite items_decimal by exact NN.
        unfold code_text. now rewrite (proj2 (items_code c EmptyString (Some k))).
      - destruct (truthy_Z n); inversion Q; subst; reflexivity. }
    assert (FT' : match t with
        | Some t => exists s, format_text (MSequence true e' (apply_ov eov el) (Some x) o') = Ok (Some s) /\
            (forallb (fun '(n, _) => 0 <=? n) t = true -> format_items s None = Some t)
        | None => format_text (MSequence true e' (apply_ov eov el) (Some x) o') = Ok None
        end).
    { destruct (truthy_Z (e_data_size e')) as [s|] eqn:DS.
      - destruct (get_byte_size (apply_ov eov el)) as [b|] eqn:GB.
        + destruct (b =? 0) eqn:B0; [discriminate T|].
          apply (FT (Some (s / b)) (Some (s / b)) T); [|reflexivity]. unfold sequence_count. now rewrite DS, GB, B0.
        + inversion T; subst. cbn [format_text]. unfold sequence_count. now rewrite DS, GB.
      - apply (FT (e_number e') (truthy_Z (e_number e')) T).
        + unfold sequence_count. now rewrite DS.
        + destruct (e_number e') as [[]|]; reflexivity. }
    clear FT T. destruct t as [t|].
    + apply bind_ok in O. destruct O as (o & MO & O). inversion O; subst o'. apply make_op_some in MO. destruct MO as (-> & NN & LE).
      destruct FT' as (s & F & FI). apply (S bo s t F (FI NN)). apply Z.leb_le in LE. rewrite LE. reflexivity.
    + inversion O; subst. apply N; auto.
  - destruct (created_struct _ _ _ _ _ _ _ _ C) as (mt & bo & ms' & ->).
    apply created_shape in C. destruct C as (-> & -> & -> & NE & _ & _ & LN & F & CL & SO). cbn [ov_bo ov_name apply_ov] in *.
    apply (K (String (order_char bo) EmptyString)); [reflexivity|].
    assert (AS : Forall (fun a => on_opt asked (snd a)) attrs).
    { apply linear_simple in CL. rewrite Forall_forall in CL. clear - F CL. revert CL.
      assert (G : forall l (a : list (string * option dmap)), Forall2 (fun m0 a => exists m', In m' ms' /\
          dt_name (used_type (m_name mt) bo m') = dt_name (used_type (m_name mt) bo m0) /\
          create orc (used_type (m_name mt) bo m') None = Ok (snd a)) l a ->
          (forall x, In x ms' -> is_composite (type_of x) = false) -> Forall (fun a => on_opt asked (snd a)) a).
      { intros l a H CL. induction H as [|m0 a l attrs' (m' & I & _ & Cm) H IH]; constructor; auto.
        destruct (snd a) as [y|]; cbn; auto. destruct (used_as_ov (m_name mt) bo m') as [ov U]. destruct (U orc) as [U1 _].
        rewrite U1 in Cm. eapply simple_asked; [|exact Cm]. auto. }
      eauto. }
    unfold struct_op in SO. apply bind_ok in SO. destruct SO as (t & T & SO).
    assert (AN : attrs <> []) by (destruct attrs; [destruct ms'; [congruence|discriminate LN]|discriminate]).
    pose proof (struct_text attrs AS t T) as ST. destruct t as [t|].
    + destruct ST as (s & G & FI & NN & TN). specialize (TN AN).
      assert (SO' : (let* o := make_op (resolve orc bo) t in Ok (Some o)) = Ok o) by (destruct t; [congruence|exact SO]).
      apply bind_ok in SO'. destruct SO' as (o' & MO & E). inversion E; subst o. apply make_op_some in MO. destruct MO as (-> & _ & LE).
      apply (S bo s t).
      * cbn [format_text]. destruct attrs; [congruence|exact G].
      * exact FI.
      * apply Z.leb_le in LE. rewrite LE. reflexivity.
    + inversion SO; subst. apply N; [|reflexivity]. cbn [format_text]. destruct attrs; [congruence|exact ST].
Qed.

(** ** Sizes *)

(** The text [s] stands for [l] wherever a format continues after it. *)
Definition stands (s : string) (l : list (Z * fcode)) : Prop :=
  forall r, format_items (String.append s r) None = option_map (List.app l) (format_items r None).

Lemma stands_items s l : stands s l -> format_items s None = Some l.
Proof.
  intros S. specialize (S EmptyString). assert (E : String.append s EmptyString = s) by (clear; induction s; cbn; congruence).
  rewrite E in S. rewrite S. cbn. now rewrite List.app_nil_r.
Qed.

Lemma stands_code c : stands (code_text c) [(1, c)].
Proof. intros r. cbn [code_text String.append]. now rewrite (proj2 (items_code c r None)). Qed.

Lemma append_assoc a b c : String.append (String.append a b) c = String.append a (String.append b c).
Proof. induction a; cbn; congruence. Qed.

Lemma stands_counted n c : 0 <= n -> stands (String.append (decimal_text n) (code_text c)) [(n, c)].
Proof.
  intros N r. rewrite append_assoc, items_decimal by exact N. cbn [code_text String.append].
  now rewrite (proj2 (items_code c r (Some n))).
Qed.

Lemma stands_append s l s' l' : stands s l -> stands s' l' -> stands (String.append s s') (l ++ l').
Proof.
  intros S S' r. rewrite append_assoc, S, S'. destruct (format_items r None); cbn; auto. now rewrite List.app_assoc.
Qed.

Lemma prim_total p c k : prim_code p = Some c -> get_byte_size p = Some k -> k = total [(1, c)].
Proof. intros P S. rewrite (prim_size p c k P S). unfold csize, total, op_size. cbn. lia. Qed.

Lemma text_size orc : forall d ov m s n,
  everywhere sound d -> everywhere simple_elements d -> create orc d ov = Ok (Some m) ->
  format_text m = Ok (Some s) -> get_byte_size d = Some n ->
  exists l, stands s l /\ total l = n.
Proof.
  intros d. induction d as [d IH] using dtype_ind_type. intros ov m s n E Q C T S.
  assert (P : forall d', apply_ov ov d = d' -> forall o, m = MPrim d' o -> exists l, stands s l /\ total l = n).
  { intros d' D o ->. cbn [format_text] in T. destruct (prim_code d') as [c|] eqn:PC; [|discriminate].
    inversion T; subst s. exists [(1, c)]. split; [apply stands_code|]. symmetry. apply (prim_total d'); auto.
    rewrite <- D, apply_ov_size. exact S. }
  destruct d; try discriminate.
  - cbn [create] in C. destruct false_value, true_value; try discriminate;
      (apply bind_ok in C; destruct C as (o & O & C); inversion C; eapply P; eauto).
  - cbn [create] in C. apply bind_ok in C; destruct C as (o & O & C); inversion C; eapply P; eauto.
  - cbn [create] in C. apply bind_ok in C; destruct C as (o & O & C); inversion C; eapply P; eauto.
  - cbn [create] in C. apply bind_ok in C; destruct C as (o & O & C); inversion C; eapply P; eauto.
  - cbn [create] in C. inversion C; subst. discriminate T.
  - clear P. pose proof E as [[(S1 & S2 & S3 & _) _] Ed]. destruct Q as [Q Qd].
    apply create_elems in C. destruct C as (eov & em & O & Ce & _ & C).
    assert (TE : e_data_size (elems_of ov e) = e_data_size e /\ e_number (elems_of ov e) = e_number e)
      by (destruct ov as [[nm b]|]; auto).
    destruct TE as (T2 & T3).
    assert (TS : elems_byte_size (elems_of ov e) = elems_byte_size e) by (unfold elems_byte_size; now rewrite T2, T3).
    cbn [get_byte_size] in S.
    assert (NP : 0 <= n).
    { pose proof (sound_size _ E n S). lia. }
    assert (ST : stream_text (elems_of ov e) (apply_ov eov d) = Some s -> exists l, stands s l /\ total l = n).
    { unfold stream_text. rewrite TS, apply_ov_size, S. destruct (truthy_Z (Some n)) as [k'|] eqn:K; [|discriminate].
      apply truthy_Z_some in K. destruct K as [K _]. inversion K; subst k'. intros X. inversion X; subst.
      exists [(n, CB)]. split; [exact (stands_counted n CB NP)|]. rewrite total_cons. cbn. unfold total, op_size. cbn. lia. }
    destruct k.
    + assert (X : exists lin o, m = MSequence lin (elems_of ov e) (apply_ov eov d) em o).
      { destruct (sequence_is_linear _ _); [destruct C as (o & _ & ->)|subst]; eauto. }
      clear C ST. destruct X as (lin & o & ->). cbn [format_text] in T. destruct em as [x|]; [|discriminate].
      apply bind_ok in T. destruct T as (cn & CN & T). destruct cn as [cn|]; [|discriminate].
      apply bind_ok in T. destruct T as (f & F & T). destruct (truthy_Z cn) as [k|] eqn:K; [|discriminate].
      destruct (truthy_str f) as [g|] eqn:G; [|discriminate]. inversion T; subst s. clear T.
      assert (f = Some g). { destruct f as [[]|]; cbn in G; congruence. } subst f.
      destruct Q as [QP QM].
      assert (XP : exists o, x = MPrim (apply_ov eov d) o).
      { destruct d; try contradiction; cbn [create] in Ce.
        1: destruct false_value, true_value; try discriminate.
        all: apply bind_ok in Ce; destruct Ce as (o' & _ & Ce); inversion Ce; eauto. }
      destruct XP as (o' & ->). cbn [format_text] in F.
      destruct (prim_code (apply_ov eov d)) as [c|] eqn:PC; [|discriminate]. inversion F; subst g.
      apply truthy_Z_some in K. destruct K as [-> K0].
      assert (KS : 0 <= k /\ n = k * Z.of_nat (code_size c)).
      { unfold sequence_count in CN. unfold elems_byte_size in S. rewrite T2, T3 in CN. rewrite apply_ov_size in CN.
        destruct (truthy_Z (e_data_size e)) as [z|] eqn:DS.
        - destruct (get_byte_size d) as [b|] eqn:GB; [|discriminate].
          assert (PB : b = Z.of_nat (code_size c)).
          { apply (prim_size (apply_ov eov d) c b PC). rewrite apply_ov_size. exact GB. }
          destruct (Z.eqb_spec b 0) as [B0|B0]; [discriminate|]. inversion CN; subst k. inversion S; subst z.
          apply truthy_Z_some in DS. destruct DS as [DS _]. specialize (QM _ _ DS eq_refl). specialize (S2 _ DS).
          assert (0 < b) by lia. split; [apply Z.div_pos; lia|]. rewrite <- PB.
          rewrite (Z.div_mod n b) at 1 by lia. lia.
        - destruct (truthy_Z (e_number e)) as [z|] eqn:NU; [|discriminate]. inversion CN; subst z.
          apply truthy_Z_some in NU. destruct NU as [NU _]. specialize (S3 _ NU).
          destruct (truthy_Z (get_byte_size d)) as [b|] eqn:GB; [|discriminate]. apply truthy_Z_some in GB. destruct GB as [GB _].
          assert (PB : b = Z.of_nat (code_size c)).
          { apply (prim_size (apply_ov eov d) c b PC). rewrite apply_ov_size. exact GB. }
          inversion S; subst. split; lia. }
      destruct KS as [K1 ->]. exists [(k, c)]. split; [exact (stands_counted k c K1)|].
      rewrite total_cons. unfold total, op_size. cbn. lia.
    + destruct C as [_ ->]. apply ST. cbn in T. congruence.
    + destruct C as [_ ->]. apply ST. cbn in T. congruence.
  - clear P. rename m0 into mt, members into ms. rewrite create_apply in C.
    set (d := apply_ov ov (DStructure mt bo ms)) in *.
    assert (G : exists mt' bo', d = DStructure mt' bo' ms) by (subst d; destruct ov as [[nm b]|]; cbn; eauto).
    destruct G as (mt' & bo' & G). assert (SZ : get_byte_size d = get_byte_size (DStructure mt bo ms)) by (subst d; apply apply_ov_size).
    clearbody d. subst d. rewrite <- SZ in S. clear SZ ov.
    assert (E' : everywhere sound (DStructure mt' bo' ms)) by exact E.
    assert (X : exists lin d cls ms attrs op, m = MStructure lin d cls ms attrs op).
    { apply created_structure in C. apply create_structure_inv in C.
      destruct C as (attrs & _ & _ & _ & _ & [(_ & op & _ & ->)|(_ & ->)]); eauto 10. }
    destruct X as (lin & d & cls & ms' & attrs & op & ->).
    assert (WN : well_named (DStructure mt' bo' ms)) by (destruct E' as [[_ W] _]; exact W).
    pose proof (structure_own_maps _ _ _ _ _ _ _ _ _ _ C (well_named_distinct _ _ _ WN (m_name mt') bo')) as F.
    cbn [format_text] in T. 
    destruct E as [_ E]. destruct Q as [_ Q]. apply everywhere_list in E. apply everywhere_list in Q.
    clear C E' WN.
    assert (AN : attrs <> []) by (intros ->; discriminate).
    rewrite structure_size in S. destruct ms as [|m0 ms0] eqn:EM; [discriminate|]. rewrite <- EM in *. clear m0 ms0 EM.
    assert (T' : (fix go (l : list (string * option dmap)) : res (option string) :=
             match l with
             | [] => Ok (Some EmptyString)
             | (_, None) :: _ => Ok None
             | (_, Some x) :: r =>
                 let* f := format_text x in
                 match f with
                 | None => Ok None
                 | Some f =>
                     let* g := go r in
                     Ok (option_map (String.append f) g)
                 end
             end) attrs = Ok (Some s)) by (destruct attrs; [congruence|exact T]). clear T AN.
    set (go := fix go (l : list (string * option dmap)) : res (option string) := _) in T'.
    assert (L : forall l a acc s' n', (forall x, In x l -> In x ms) ->
       Forall2 (fun m a => fst a = dt_name m /\ create orc (used_type (m_name mt') bo' m) None = Ok (snd a)) l a ->
       struct_size_loop l acc = Some n' -> go a = Ok (Some s') ->
       exists t, stands s' t /\ acc + total t = n').
    { clear S T' F. intros l a acc s' n' I F. revert acc s' n'.
      induction F as [|x [nm y] l a [_ Cx] F IHF]; intros acc s' n' L G.
      - cbn in L, G. inversion L; inversion G; subst. exists []. split; [|unfold total, op_size; cbn; lia].
        intros r. cbn. destruct (format_items r None); reflexivity.
      - cbn [snd] in Cx. cbn [go] in G. destruct y as [y|]; [|discriminate].
        apply bind_ok in G. destruct G as (f & Ff & G). destruct f as [f|]; [|discriminate].
        apply bind_ok in G. destruct G as (g & Gg & G). destruct g as [g|]; [|discriminate]. inversion G; subst s'. clear G.
        cbn [struct_size_loop] in L.
        assert (Ix : In x ms) by (apply I; now left).
        rewrite Forall_forall in E, Q, IH.
        destruct (used_as_ov (m_name mt') bo' x) as [ov U]. destruct (U orc) as [U1 _]. rewrite U1 in Cx. clear U U1.
        assert (PA : pad_align x = None).
        { destruct x; try reflexivity. cbn in Cx. inversion Cx; subst y. discriminate Ff. }
        rewrite PA in L. cbn [struct_size_step] in L. destruct (get_byte_size x) as [z|] eqn:GX; [|discriminate].
        assert (GT : get_byte_size (type_of x) = Some z).
        { destruct x; cbn in *; auto. destruct (truthy_str condition); [discriminate|auto]. }
        destruct (IH x Ix ov y f z (everywhere_type _ _ (E x Ix)) (everywhere_type _ _ (Q x Ix)) Cx Ff GT) as (t & St & Tt).
        destruct (IHF (fun x H => I x (or_intror H)) _ _ _ L Gg) as (t' & St' & Tt').
        exists (t ++ t'). split; [apply stands_append; auto|]. rewrite total_app. lia. }
    destruct (L ms attrs 0 s n (fun x H => H) F S T') as (t & St & Tt). exists t. split; auto.
Qed.

(** C55 *)
Lemma format_size orc d m o s n :
  everywhere sound d -> everywhere simple_elements d -> create orc d None = Ok (Some m) ->
  byte_order_text m = Ok (Some o) -> format_text m = Ok (Some s) -> get_byte_size d = Some n ->
  n <= 2 ^ 63 - 1 -> calcsize (o_host orc) (String.append o s) = Some n.
Proof.
  intros E Q C B T S N. destruct (text_size orc d None m s n E Q C T S) as (l & St & <-).
  apply stands_items in St.
  assert (BO : exists bo, o = String (order_char bo) EmptyString).
  { clear - B. revert B. induction m using dmap_rect'; cbn [byte_order_text]; intros B; try discriminate;
      try (destruct (dt_byte_order d); [inversion B; eauto|discriminate]).
    all: destruct em; [eauto|discriminate]. }
  destruct BO as (bo & ->). unfold calcsize. cbn [String.append]. rewrite (compile_known orc bo s l St).
  apply Z.leb_le in N. rewrite N. reflexivity.
Qed.
