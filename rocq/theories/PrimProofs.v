(** Proofs about primitive maps and UUID maps. *)
From Coq Require Import String List ZArith NArith Bool Lia.
From Coq Require Import Init.Byte.
From Verif Require Import Base Ieee PyVal PyStruct DataTypes ClassFactory DataMaps.
From Verif Require Import BytesProofs SpecPrim.
Import ListNotations.
Open Scope Z_scope.
Arguments Z.pow : simpl never.
Arguments Z.mul : simpl never.

(** ** Stored numbers *)

Lemma msb_number_app a l : fold_left (fun a b => 256 * a + byteZ b) l a
  = a * 256 ^ len l + fold_left (fun a b => 256 * a + byteZ b) l 0.
Proof.
  revert a; induction l as [|b l IH]; intros a; cbn [fold_left].
  - change (len (@nil byte)) with 0. lia.
  - rewrite IH. rewrite (IH (256 * 0 + byteZ b)). rewrite len_cons.
    pose proof (len_nonneg l). rewrite Z.pow_add_r by lia. lia.
Qed.

Lemma le_val_msb bs : le_val bs = msb_number (rev bs).
Proof.
  induction bs as [|b bs IH]; cbn [le_val rev]; [reflexivity|].
  unfold msb_number in *. rewrite fold_left_app. cbn [fold_left]. lia.
Qed.

Lemma le_val_stored en bs : le_val (reorder en bs) = stored_number en bs.
Proof.
  destruct en; unfold reorder, stored_number; rewrite le_val_msb.
  - now rewrite rev_involutive.
  - reflexivity.
Qed.

Lemma to_signed_spec n v : to_signed n v = twos_complement (Z.of_nat n) v.
Proof.
  unfold to_signed, twos_complement.
  destruct (Z.leb_spec (2 ^ (8 * Z.of_nat n - 1)) v), (Z.ltb_spec v (2 ^ (8 * Z.of_nat n - 1)));
    auto; lia.
Qed.

Definition is_int_code (c : fcode) : bool := match c with Cf | Cd => false | _ => true end.

Lemma unpack1_int en c bs :
  is_int_code c = true -> length bs = code_size c ->
  unpack1 en c bs = VInt (stored_integer (code_signed c) en bs).
Proof.
  intros Hc Hl. unfold unpack1, stored_integer.
  rewrite le_val_stored, to_signed_spec. unfold len. rewrite Hl.
  destruct c; try discriminate; reflexivity.
Qed.

Lemma pow_split n : 0 < n -> 2 ^ (8 * n) = 2 * 2 ^ (8 * n - 1).
Proof. intros. rewrite <- (Z.pow_succ_r 2) by lia. f_equal. lia. Qed.

Lemma stored_integer_range signed en bs n :
  0 < n -> len bs = n -> in_range signed n (stored_integer signed en bs).
Proof.
  intros Hn Hl. unfold in_range, stored_integer, twos_complement.
  rewrite <- le_val_stored, Hl.
  pose proof (le_val_reorder_range en bs (length bs) eq_refl) as H.
  fold (len bs) in H. rewrite Hl in H. rewrite (pow_split n) in * by lia.
  destruct signed; [|lia]. destruct (Z.ltb_spec (le_val (reorder en bs)) (2 ^ (8 * n - 1))); lia.
Qed.

Definition int_range_b (c : fcode) (z : Z) : Prop :=
  in_range (code_signed c) (Z.of_nat (code_size c)) z.

Lemma pack_int_range en c z :
  int_range_b c z ->
  pack_int en c z = Ok (enc_n en (code_size c) (z mod 2 ^ (8 * Z.of_nat (code_size c)))).
Proof.
  unfold int_range_b, in_range, pack_int. intros H.
  pose proof (code_size_pos c) as Hp.
  rewrite (pow_split (Z.of_nat (code_size c))) in * by lia.
  set (h := 2 ^ (8 * Z.of_nat (code_size c) - 1)) in *.
  rewrite (Z.mul_comm 2), Z.div_mul by lia.
  destruct (code_signed c).
  - destruct (Z.leb_spec (- h) z), (Z.leb_spec z (h - 1)); try lia. reflexivity.
  - destruct (Z.leb_spec 0 z), (Z.leb_spec z (h * 2 - 1)); try lia. reflexivity.
Qed.

Lemma pack_int_out en c z : ~ int_range_b c z -> pack_int en c z = Raise IOError.
Proof.
  unfold int_range_b, in_range, pack_int. intros H.
  pose proof (code_size_pos c) as Hp.
  rewrite (pow_split (Z.of_nat (code_size c))) in * by lia.
  set (h := 2 ^ (8 * Z.of_nat (code_size c) - 1)) in *.
  rewrite (Z.mul_comm 2), Z.div_mul by lia.
  destruct (code_signed c).
  - destruct (Z.leb_spec (- h) z), (Z.leb_spec z (h - 1)); try lia; reflexivity.
  - destruct (Z.leb_spec 0 z), (Z.leb_spec z (h * 2 - 1)); try lia; reflexivity.
Qed.

Lemma int_range_dec c z : {int_range_b c z} + {~ int_range_b c z}.
Proof.
  unfold int_range_b, in_range. destruct (code_signed c).
  - destruct (Z_le_dec (- 2 ^ (8 * Z.of_nat (code_size c) - 1)) z),
      (Z_lt_dec z (2 ^ (8 * Z.of_nat (code_size c) - 1))); (left; lia) || (right; lia).
  - destruct (Z_le_dec 0 z),
      (Z_lt_dec z (2 ^ (8 * Z.of_nat (code_size c)))); (left; lia) || (right; lia).
Qed.

(** Encoding then reading. *)
Lemma stored_enc en c z :
  int_range_b c z ->
  stored_integer (code_signed c) en
    (enc_n en (code_size c) (z mod 2 ^ (8 * Z.of_nat (code_size c)))) = z.
Proof.
  unfold int_range_b, in_range, stored_integer. intros H.
  pose proof (code_size_pos c) as Hp.
  rewrite <- le_val_stored, le_val_dec_enc, Z.mod_mod by (apply Z.pow_nonzero; lia).
  unfold len. rewrite enc_n_length. unfold twos_complement.
  rewrite (pow_split (Z.of_nat (code_size c))) in * by lia.
  set (h := 2 ^ (8 * Z.of_nat (code_size c) - 1)) in *.
  assert (0 < h) by (apply Z.pow_pos_nonneg; lia).
  destruct (code_signed c); [|apply Z.mod_small; lia].
  destruct (Z.leb_spec 0 z).
  - rewrite Z.mod_small by lia. destruct (Z.ltb_spec z h); lia.
  - assert (E : z mod (2 * h) = z + 2 * h).
    { symmetry. apply (Z.mod_unique_pos _ _ (-1)); lia. }
    rewrite E. destruct (Z.ltb_spec (z + 2 * h) h); lia.
Qed.

(** Reading then encoding. *)
Lemma enc_stored en c bs :
  length bs = code_size c ->
  enc_n en (code_size c)
    (stored_integer (code_signed c) en bs mod 2 ^ (8 * Z.of_nat (code_size c))) = bs.
Proof.
  intros Hl. apply enc_dec; [exact Hl|].
  unfold stored_integer. rewrite <- le_val_stored.
  pose proof (le_val_reorder_range en bs _ Hl) as H. unfold len. rewrite Hl.
  unfold twos_complement. destruct (code_signed c); [|apply Z.mod_small; lia].
  destruct (Z.ltb_spec (le_val (reorder en bs)) (2 ^ (8 * Z.of_nat (code_size c) - 1))).
  - apply Z.mod_small; lia.
  - symmetry. apply (Z.mod_unique_pos _ _ (-1)); lia.
Qed.

Lemma stored_integer_in_range en c bs :
  length bs = code_size c -> int_range_b c (stored_integer (code_signed c) en bs).
Proof.
  intros Hl. unfold int_range_b. apply stored_integer_range.
  - pose proof (code_size_pos c); lia.
  - unfold len. now rewrite Hl.
Qed.

(** ** Windows *)

Lemma len_window {A} (l : list A) off n :
  0 <= off -> 0 <= n -> off + n <= len l -> len (window l off n) = n.
Proof.
  intros. unfold window. rewrite len_firstn, len_skipn. lia.
Qed.

Lemma length_window {A} (l : list A) off n :
  0 <= off -> 0 <= n -> off + n <= len l -> length (window l off n) = Z.to_nat n.
Proof. intros. pose proof (len_window l off n ltac:(lia) ltac:(lia) ltac:(lia)). unfold len in *. lia. Qed.

Lemma window_app {A} (pre b post : list A) :
  window (pre ++ b ++ post) (len pre) (len b) = b.
Proof.
  unfold window, len. rewrite !Nat2Z.id.
  rewrite skipn_app, skipn_all, Nat.sub_diag. cbn [skipn app].
  rewrite firstn_app, firstn_all, Nat.sub_diag. cbn [firstn]. apply app_nil_r.
Qed.

Lemma window_app' {A} (pre b post : list A) n :
  len b = n -> window (pre ++ b ++ post) (len pre) n = b.
Proof. intros <-. apply window_app. Qed.

Lemma slice_window {A} (l : list A) off n :
  0 <= off -> 0 <= n -> slice l off (off + n) = window l off n.
Proof. intros. unfold window. now apply slice_nonneg. Qed.

(** ** Created primitive maps *)

Definition op1 (en : endian) (c : fcode) : structop := mkOp en [(1, c)].

Lemma make_op1 en c : make_op en [(1, c)] = Ok (op1 en c).
Proof. unfold make_op, op1, op_size. destruct c; reflexivity. Qed.

Lemma resolve_order orc bo : resolve orc bo = order_on (o_host orc) bo.
Proof. destruct bo; reflexivity. Qed.

Lemma prim_op_some orc d bo c :
  prim_code d = Some c -> prim_op orc d bo = Ok (Some (op1 (order_on (o_host orc) bo) c)).
Proof. intros H. unfold prim_op. rewrite H, make_op1, resolve_order. reflexivity. Qed.

Lemma read_op1 en c bs :
  read_from (op1 en c) bs =
  if len bs <? Z.of_nat (code_size c) then Raise IOError
  else Ok [unpack1 en c (firstn (code_size c) bs)].
Proof.
  unfold read_from, op1, op_size, op_codes. cbn [op_tokens fold_right flat_map op_endian].
  replace (1 * Z.of_nat (code_size c) + 0) with (Z.of_nat (code_size c)) by lia.
  change (Z.to_nat 1) with 1%nat. cbn [repeat app unpack_codes]. reflexivity.
Qed.

Lemma write_op1 en c v :
  write_to (op1 en c) [v] = pack1 en c v.
Proof.
  unfold write_to, op1, op_codes. cbn [op_tokens flat_map op_endian].
  change (Z.to_nat 1) with 1%nat. cbn [repeat app pack_codes].
  destruct (pack1 en c v); cbn [bind]; auto. now rewrite app_nil_r.
Qed.

(** Mapping with a primitive map, in full. *)
Lemma map_prim_spec d c en n bs off cx depth :
  get_byte_size d = Some n -> Z.of_nat (code_size c) = n -> 0 <= off ->
  map_prim d (Some (op1 en c)) bs off cx depth =
  if len bs - off <? n then (Raise ByteStreamTooSmallError, cx)
  else match map_value d (unpack1 en c (window bs off n)) with
       | Ok v => (Ok v, option_map (set_sizes (Some n) (Some n)) cx)
       | Raise _ => (Raise MappingError, option_map (set_sizes None (Some n)) cx)
       | OutOfFuel => (OutOfFuel, option_map (set_sizes None (Some n)) cx)
       end.
Proof.
  intros Hs Hn Ho. unfold map_prim. rewrite Hs.
  destruct (Z.ltb_spec (len bs - off) n); [reflexivity|].
  rewrite read_op1, slice_from_nonneg by lia.
  rewrite len_skipn. destruct (Z.ltb_spec (Z.max 0 (len bs - Z.of_nat (Z.to_nat off))) (Z.of_nat (code_size c))); [lia|].
  cbn [bind]. unfold window.
  replace (Z.to_nat n) with (code_size c) by lia.
  destruct (map_value d _); auto.
  destruct cx as [[]|]; reflexivity.
Qed.

Lemma map_value_fuel d v : map_value d v <> OutOfFuel.
Proof.
  destruct d, v; cbn; try discriminate.
  - unfold boolean_map_value.
    destruct false_value as [a|], true_value as [b|];
      repeat match goal with |- context [if ?x then _ else _] => destruct x end; discriminate.
  - destruct ((0 <=? z) && (z <=? 1114111)); discriminate.
Qed.

Lemma sized_byte_size f n : sized f n -> fixed_byte_size f = Some n.
Proof. intros [H1 H2]. unfold fixed_byte_size. rewrite H2. cbn. exact H1. Qed.

(** ** Integers *)

Definition int_code (n : Z) (u : bool) : fcode :=
  match n with 1 => if u then CB else Cb | 2 => if u then CH else Ch
             | 4 => if u then CI else Ci | _ => if u then CQ else Cq end.

Lemma int_code_size n u : In n [1; 2; 4; 8] -> Z.of_nat (code_size (int_code n u)) = n.
Proof. cbn. intros [<-|[<-|[<-|[<-|[]]]]]; destruct u; reflexivity. Qed.

Lemma int_code_signed n u : In n [1; 2; 4; 8] -> code_signed (int_code n u) = negb u.
Proof. cbn. intros [<-|[<-|[<-|[<-|[]]]]]; destruct u; reflexivity. Qed.

Lemma int_code_int n u : In n [1; 2; 4; 8] -> is_int_code (int_code n u) = true.
Proof. cbn. intros [<-|[<-|[<-|[<-|[]]]]]; destruct u; reflexivity. Qed.

Lemma int_prim_code f u n :
  In n [1; 2; 4; 8] -> sized f n -> prim_code (DInteger f u) = Some (int_code n u).
Proof.
  intros Hn [H _]. cbn [prim_code]. rewrite H.
  cbn in Hn. destruct Hn as [<-|[<-|[<-|[<-|[]]]]]; destruct u; reflexivity.
Qed.

Lemma create_integer orc f u n :
  In n [1; 2; 4; 8] -> sized f n ->
  create orc (DInteger f u) None =
  Ok (Some (MPrim (DInteger f u) (Some (op1 (order_on (o_host orc) (f_bo f)) (int_code n u))))).
Proof.
  intros Hn Hs. cbn [create ov_bo]. rewrite (prim_op_some _ _ _ _ (int_prim_code f u n Hn Hs)).
  reflexivity.
Qed.

Lemma in_sizes_pos n : In n [1; 2; 4; 8] -> 0 < n.
Proof. cbn; lia. Qed.

Lemma map_integer orc fuel f u n bs off c depth :
  In n [1; 2; 4; 8] -> sized f n -> 0 <= off -> off + n <= len bs ->
  map_prim (DInteger f u) (Some (op1 (order_on (o_host orc) (f_bo f)) (int_code n u))) bs off c depth
  = mapbs orc fuel (MPrim (DInteger f u) (Some (op1 (order_on (o_host orc) (f_bo f)) (int_code n u)))) bs off c depth
  /\ mapbs orc fuel (MPrim (DInteger f u) (Some (op1 (order_on (o_host orc) (f_bo f)) (int_code n u)))) bs off c depth
  = (Ok (VInt (stored_integer (negb u) (order_on (o_host orc) (f_bo f)) (window bs off n))),
     option_map (set_sizes (Some n) (Some n)) c).
Proof.
  intros Hn Hs Ho Hl. split; [reflexivity|]. cbn [mapbs].
  pose proof (in_sizes_pos n Hn).
  rewrite (map_prim_spec _ _ _ n) by first [exact (sized_byte_size _ _ Hs) | now apply int_code_size | assumption].
  destruct (Z.ltb_spec (len bs - off) n); [lia|].
  rewrite unpack1_int.
  - cbn [map_value]. now rewrite int_code_signed.
  - now apply int_code_int.
  - rewrite length_window by lia. pose proof (int_code_size n u Hn). lia.
Qed.

Lemma integer_map_value orc f u n :
  In n [1; 2; 4; 8] -> sized f n ->
  exists m, create orc (DInteger f u) None = Ok (Some m) /\
    forall fuel bs off c depth, 0 <= off -> off + n <= len bs ->
      fst (mapbs orc fuel m bs off c depth) =
      Ok (VInt (stored_integer (negb u) (order_on (o_host orc) (f_bo f)) (window bs off n))).
Proof.
  intros Hn Hs. eexists. split; [exact (create_integer _ _ _ _ Hn Hs)|].
  intros. destruct (map_integer orc fuel f u n bs off c depth) as [_ ->]; auto.
Qed.

Definition is_bytes_of (n : Z) (r : res pyval) (b : bytes) : Prop :=
  r = Ok (VBytes b) /\ len b = n.

Lemma fold_integer orc f u n v c :
  In n [1; 2; 4; 8] -> sized f n ->
  fst (foldbs orc (MPrim (DInteger f u) (Some (op1 (order_on (o_host orc) (f_bo f)) (int_code n u)))) v c)
  = match as_integer v with
    | Some z =>
        if int_range_dec (int_code n u) z
        then Ok (VBytes (enc_n (order_on (o_host orc) (f_bo f)) (code_size (int_code n u))
                           (z mod 2 ^ (8 * Z.of_nat (code_size (int_code n u))))))
        else Raise FoldingError
    | None => Raise FoldingError
    end.
Proof.
  intros Hn Hs. cbn [foldbs fst]. unfold fold_prim. cbn [fold_value bind fst].
  rewrite write_op1. unfold pack1.
  pose proof (int_code_int n u Hn) as Hc.
  destruct (int_code n u) eqn:Ec; try discriminate; rewrite <- Ec in *;
  destruct v; cbn [as_integer]; try reflexivity;
  match goal with |- context [int_range_dec ?c ?z] => destruct (int_range_dec c z) end;
  first [rewrite pack_int_range by assumption | rewrite pack_int_out by assumption]; reflexivity.
Qed.

Lemma in_range_code n u z :
  In n [1; 2; 4; 8] -> int_range_b (int_code n u) z <-> in_range (negb u) n z.
Proof.
  intros Hn. unfold int_range_b. now rewrite int_code_signed, int_code_size by assumption.
Qed.

Lemma integer_round_trip orc f u n :
  In n [1; 2; 4; 8] -> sized f n ->
  exists m, create orc (DInteger f u) None = Ok (Some m) /\
    (forall z c, in_range (negb u) n z ->
       exists b, fst (foldbs orc m (VInt z) c) = Ok (VBytes b) /\ len b = n /\
         forall fuel pre post c' depth,
           fst (mapbs orc fuel m (pre ++ b ++ post) (len pre) c' depth) = Ok (VInt z)) /\
    (forall fuel bs off c depth c', 0 <= off -> off + n <= len bs ->
       exists v, fst (mapbs orc fuel m bs off c depth) = Ok v /\
         fst (foldbs orc m v c') = Ok (VBytes (window bs off n))).
Proof.
  intros Hn Hs. pose proof (in_sizes_pos n Hn) as Hp.
  pose proof (int_code_size n u Hn) as Hcs.
  eexists. split; [exact (create_integer _ _ _ _ Hn Hs)|]. split.
  - intros z c Hz. apply in_range_code in Hz; [|assumption].
    rewrite (fold_integer _ _ _ n) by assumption. cbn [as_integer].
    destruct (int_range_dec (int_code n u) z); [|contradiction].
    set (b := enc_n _ _ _). exists b. split; [reflexivity|].
    assert (Hb : len b = n) by (unfold b, len; rewrite enc_n_length; lia).
    split; [exact Hb|]. intros.
    destruct (map_integer orc fuel f u n (pre ++ b ++ post) (len pre) c' depth) as [_ ->]; auto.
    + apply len_nonneg.
    + rewrite !len_app. pose proof (len_nonneg post). lia.
    + cbn [fst]. rewrite (window_app' pre b post n Hb). unfold b.
      rewrite <- (int_code_signed n u) by assumption. now rewrite stored_enc.
  - intros. destruct (map_integer orc fuel f u n bs off c depth) as [_ ->]; auto.
    eexists. split; [reflexivity|].
    rewrite (fold_integer _ _ _ n) by assumption. cbn [as_integer].
    assert (Hw : length (window bs off n) = code_size (int_code n u))
      by (rewrite length_window by lia; lia).
    rewrite <- (int_code_signed n u) by assumption.
    destruct (int_range_dec _ _) as [|Hx].
    + now rewrite enc_stored.
    + exfalso. apply Hx. now apply stored_integer_in_range.
Qed.

Lemma integer_fold_exact orc f u n :
  In n [1; 2; 4; 8] -> sized f n ->
  exists m, create orc (DInteger f u) None = Ok (Some m) /\
    forall v c,
      ((exists z, as_integer v = Some z /\ in_range (negb u) n z) ->
         exists b z, fst (foldbs orc m v c) = Ok (VBytes b) /\ len b = n /\
           as_integer v = Some z /\
           stored_integer (negb u) (order_on (o_host orc) (f_bo f)) b = z) /\
      (~ (exists z, as_integer v = Some z /\ in_range (negb u) n z) ->
         fst (foldbs orc m v c) = Raise FoldingError).
Proof.
  intros Hn Hs. pose proof (int_code_size n u Hn) as Hcs.
  eexists. split; [exact (create_integer _ _ _ _ Hn Hs)|]. intros v c.
  rewrite (fold_integer _ _ _ n) by assumption. split.
  - intros (z & Hz & Hr). rewrite Hz. apply in_range_code in Hr; [|assumption].
    destruct (int_range_dec (int_code n u) z); [|contradiction].
    eexists _, z. split; [reflexivity|]. split; [unfold len; rewrite enc_n_length; lia|].
    split; [reflexivity|].
    rewrite <- (int_code_signed n u) by assumption. now rewrite stored_enc.
  - intros H. destruct (as_integer v) as [z|]; [|reflexivity].
    destruct (int_range_dec (int_code n u) z) as [Hr|]; [|reflexivity].
    exfalso. apply H. exists z. split; [reflexivity|]. now apply in_range_code in Hr.
Qed.

(** ** Booleans *)

Definition bool_code (n : Z) : fcode := match n with 1 => CB | 2 => CH | _ => CI end.

Lemma bool_code_facts n : In n [1; 2; 4] ->
  Z.of_nat (code_size (bool_code n)) = n /\ code_signed (bool_code n) = false
  /\ is_int_code (bool_code n) = true.
Proof. cbn. intros [<-|[<-|[<-|[]]]]; repeat split. Qed.

Lemma create_boolean orc f fv tv n :
  In n [1; 2; 4] -> sized f n -> (fv <> None \/ tv <> None) ->
  create orc (DBoolean f fv tv) None =
  Ok (Some (MPrim (DBoolean f fv tv) (Some (op1 (order_on (o_host orc) (f_bo f)) (bool_code n))))).
Proof.
  intros Hn [Hs _] H.
  assert (Hc : prim_code (DBoolean f fv tv) = Some (bool_code n)).
  { cbn [prim_code]. rewrite Hs. cbn in Hn. destruct Hn as [<-|[<-|[<-|[]]]]; reflexivity. }
  cbn [create ov_bo apply_ov]. rewrite (prim_op_some _ _ _ _ Hc). cbn [bind].
  destruct fv, tv; try reflexivity. destruct H; congruence.
Qed.

Lemma map_boolean orc fuel f fv tv n bs off c depth :
  In n [1; 2; 4] -> sized f n -> 0 <= off -> off + n <= len bs ->
  fst (mapbs orc fuel (MPrim (DBoolean f fv tv)
         (Some (op1 (order_on (o_host orc) (f_bo f)) (bool_code n)))) bs off c depth)
  = match boolean_map_value fv tv (stored_number (order_on (o_host orc) (f_bo f)) (window bs off n)) with
    | Ok v => Ok v | Raise _ => Raise MappingError | OutOfFuel => OutOfFuel end.
Proof.
  intros Hn Hs Ho Hl. cbn [mapbs].
  destruct (bool_code_facts n Hn) as (H1 & H2 & H3).
  assert (0 < n) by (cbn in Hn; lia).
  rewrite (map_prim_spec _ _ _ n) by first [exact (sized_byte_size _ _ Hs) | assumption].
  destruct (Z.ltb_spec (len bs - off) n); [lia|].
  rewrite unpack1_int by (auto; rewrite length_window by lia; lia).
  cbn [map_value]. unfold stored_integer. rewrite H2.
  destruct (boolean_map_value _ _ _); reflexivity.
Qed.

Lemma boolean_map_value_spec fv tv z :
  (fv <> None \/ tv <> None) ->
  (boolean_map_value fv tv z = Ok (VBool false) <-> stands_for_false fv tv z) /\
  (boolean_map_value fv tv z = Ok (VBool true) <-> stands_for_true fv tv z) /\
  (boolean_map_value fv tv z = Raise ValueError <->
     ~ stands_for_false fv tv z /\ ~ stands_for_true fv tv z) /\
  (boolean_map_value fv tv z = Ok (VBool false) \/ boolean_map_value fv tv z = Ok (VBool true)
   \/ boolean_map_value fv tv z = Raise ValueError).
Proof.
  intros H. unfold boolean_map_value, stands_for_false, stands_for_true.
  destruct fv as [a|], tv as [b|]; try (destruct H; congruence);
    repeat match goal with |- context [?x =? ?y] => destruct (Z.eqb_spec x y); subst end;
    repeat split; intros; try congruence; try tauto;
    repeat match goal with
    | H : _ /\ _ |- _ => destruct H
    | H : _ \/ _ |- _ => destruct H
    end; try congruence; try (left; congruence); try (right; split; congruence);
    try (split; [congruence|]); try (left; congruence); try (right; split; congruence);
    try (intros [?|[? ?]]; congruence); try (intros [? [?|[? ?]]]; congruence);
    try (exfalso; match goal with H : ~ _ |- _ => apply H end;
         solve [left; congruence | right; split; congruence
               | split; [congruence | left; congruence]
               | split; [congruence | right; split; congruence]]);
    try tauto.
Qed.

Lemma fold_boolean orc f fv tv n v c :
  In n [1; 2; 4] -> sized f n ->
  fst (foldbs orc (MPrim (DBoolean f fv tv)
         (Some (op1 (order_on (o_host orc) (f_bo f)) (bool_code n)))) v c)
  = match v with
    | VBool b =>
        match (if b then tv else fv) with
        | Some z =>
          if int_range_dec (bool_code n) z
          then Ok (VBytes (enc_n (order_on (o_host orc) (f_bo f)) (code_size (bool_code n))
                           (z mod 2 ^ (8 * Z.of_nat (code_size (bool_code n))))))
          else Raise FoldingError
        | None => Raise FoldingError
        end
    | _ => Raise FoldingError
    end.
Proof.
  intros Hn Hs. cbn [foldbs fst]. unfold fold_prim. cbn [fold_value bind fst].
  destruct (bool_code_facts n Hn) as (H1 & H2 & H3).
  destruct v; try reflexivity.
  assert (E : match VBool b, fv, tv with
              | VBool false, Some z, _ => Ok (VInt z)
              | VBool true, _, Some z => Ok (VInt z)
              | _, _, _ => Raise ValueError
              end = match (if b then tv else fv) with Some z => Ok (VInt z) | None => Raise ValueError end)
    by (destruct b, fv, tv; reflexivity).
  cbv beta iota in E. rewrite E.
  destruct (if b then tv else fv) as [z|]; [|reflexivity]. cbn [bind].
  rewrite write_op1. unfold pack1.
  destruct (bool_code n) eqn:Ec; try discriminate; rewrite <- Ec in *;
  destruct (int_range_dec _ _);
  first [rewrite pack_int_range by assumption | rewrite pack_int_out by assumption]; reflexivity.
Qed.

Lemma boolean_behaviour orc f fv tv n :
  In n [1; 2; 4] -> sized f n -> (fv <> None \/ tv <> None) ->
  exists m, create orc (DBoolean f fv tv) None = Ok (Some m) /\
    (forall fuel bs off c depth, 0 <= off -> off + n <= len bs ->
       let z := stored_number (order_on (o_host orc) (f_bo f)) (window bs off n) in
       let r := fst (mapbs orc fuel m bs off c depth) in
       (r = Ok (VBool false) <-> stands_for_false fv tv z) /\
       (r = Ok (VBool true) <-> stands_for_true fv tv z) /\
       (r = Raise MappingError <-> ~ stands_for_false fv tv z /\ ~ stands_for_true fv tv z) /\
       (r = Ok (VBool false) \/ r = Ok (VBool true) \/ r = Raise MappingError)) /\
    (forall v c,
       match v with
       | VBool b =>
           match (if b then tv else fv) with
           | Some z =>
               (in_range false n z -> exists w, fst (foldbs orc m v c) = Ok (VBytes w) /\ len w = n /\
                  stored_number (order_on (o_host orc) (f_bo f)) w = z) /\
               (~ in_range false n z -> fst (foldbs orc m v c) = Raise FoldingError)
           | None => fst (foldbs orc m v c) = Raise FoldingError
           end
       | _ => fst (foldbs orc m v c) = Raise FoldingError
       end) /\
    (fv <> tv ->
     forall b w c, fst (foldbs orc m (VBool b) c) = Ok (VBytes w) ->
       forall fuel pre post c' depth,
         fst (mapbs orc fuel m (pre ++ w ++ post) (len pre) c' depth) = Ok (VBool b)).
Proof.
  intros Hn Hs Hd. destruct (bool_code_facts n Hn) as (H1 & H2 & H3).
  assert (Hp : 0 < n) by (cbn in Hn; lia).
  assert (Hr : forall z, int_range_b (bool_code n) z <-> in_range false n z).
  { intros. unfold int_range_b. now rewrite H1, H2. }
  assert (Hw : forall z, int_range_b (bool_code n) z ->
     stored_number (order_on (o_host orc) (f_bo f))
      (enc_n (order_on (o_host orc) (f_bo f)) (code_size (bool_code n))
        (z mod 2 ^ (8 * Z.of_nat (code_size (bool_code n))))) = z).
  { intros z Hz. pose proof (stored_enc (order_on (o_host orc) (f_bo f)) (bool_code n) z Hz) as E.
    rewrite H2 in E. exact E. }
  assert (Hlw : forall z, len (enc_n (order_on (o_host orc) (f_bo f)) (code_size (bool_code n)) z) = n).
  { intros. unfold len. rewrite enc_n_length. lia. }
  eexists. split; [exact (create_boolean _ _ _ _ _ Hn Hs Hd)|]. split; [|split].
  - intros fuel bs off c depth Ho Hl z r. subst z r. rewrite map_boolean by assumption.
    set (z := stored_number _ _).
    destruct (boolean_map_value_spec fv tv z Hd) as (A & B & C & D).
    destruct D as [D|[D|D]]; rewrite D in *; split; [|split; [|split]| |split; [|split]| |split; [|split]];
      try (split; intros X; try discriminate; first [apply A; congruence | apply B; congruence
          | apply C; congruence | apply A in X; congruence | apply B in X; congruence
          | apply C in X; congruence | tauto]); try tauto; try (split; [reflexivity|]; tauto).
  - intros v c. rewrite (fold_boolean _ _ _ _ n) by assumption.
    destruct v; try reflexivity. destruct (if b then tv else fv) as [z|]; [|reflexivity].
    split; intros Hz; destruct (int_range_dec (bool_code n) z) as [Hx|Hx]; try reflexivity.
    + eexists. split; [reflexivity|]. auto.
    + exfalso. apply Hx. now apply Hr.
    + exfalso. apply Hz. now apply Hr.
  - intros Hne b w c. rewrite (fold_boolean _ _ _ _ n) by assumption.
    destruct (if b then tv else fv) as [z|] eqn:Ez; [|discriminate].
    destruct (int_range_dec (bool_code n) z) as [Hx|Hx]; [|discriminate].
    intros [= <-] fuel pre post c' depth.
    rewrite (map_boolean _ _ _ _ _ n); auto using len_nonneg.
    + rewrite window_app', Hw by auto. unfold boolean_map_value.
      destruct b; subst.
      * destruct fv as [a|]; [destruct (Z.eqb_spec a z); [congruence|]|]; rewrite Z.eqb_refl; reflexivity.
      * rewrite Z.eqb_refl. reflexivity.
    + rewrite !len_app, Hlw. pose proof (len_nonneg post). lia.
Qed.

(** ** Characters *)

Definition char_code (n : Z) : fcode := match n with 1 => Cb | 2 => Ch | _ => Ci end.

Lemma char_code_facts n : In n [1; 2; 4] ->
  Z.of_nat (code_size (char_code n)) = n /\ code_signed (char_code n) = true
  /\ is_int_code (char_code n) = true.
Proof. cbn. intros [<-|[<-|[<-|[]]]]; repeat split. Qed.

Lemma create_character orc f n :
  In n [1; 2; 4] -> sized f n ->
  create orc (DCharacter f) None =
  Ok (Some (MPrim (DCharacter f) (Some (op1 (order_on (o_host orc) (f_bo f)) (char_code n))))).
Proof.
  intros Hn [Hs _].
  assert (Hc : prim_code (DCharacter f) = Some (char_code n)).
  { cbn [prim_code]. rewrite Hs. cbn in Hn. destruct Hn as [<-|[<-|[<-|[]]]]; reflexivity. }
  cbn [create ov_bo apply_ov]. now rewrite (prim_op_some _ _ _ _ Hc).
Qed.

Lemma map_character orc fuel f n bs off c depth :
  In n [1; 2; 4] -> sized f n -> 0 <= off -> off + n <= len bs ->
  let z := stored_integer true (order_on (o_host orc) (f_bo f)) (window bs off n) in
  fst (mapbs orc fuel (MPrim (DCharacter f)
         (Some (op1 (order_on (o_host orc) (f_bo f)) (char_code n)))) bs off c depth)
  = if (0 <=? z) && (z <=? 1114111) then Ok (VStr [z]) else Raise MappingError.
Proof.
  intros Hn Hs Ho Hl z. cbn [mapbs].
  destruct (char_code_facts n Hn) as (H1 & H2 & H3).
  assert (0 < n) by (cbn in Hn; lia).
  rewrite (map_prim_spec _ _ _ n) by first [exact (sized_byte_size _ _ Hs) | assumption].
  destruct (Z.ltb_spec (len bs - off) n); [lia|].
  rewrite unpack1_int by (auto; rewrite length_window by lia; lia).
  cbn [map_value]. rewrite H2. fold z.
  destruct ((0 <=? z) && (z <=? 1114111)); reflexivity.
Qed.

Lemma character_behaviour orc f n :
  In n [1; 2; 4] -> sized f n ->
  exists m, create orc (DCharacter f) None = Ok (Some m) /\
    (forall fuel bs off c depth, 0 <= off -> off + n <= len bs ->
       let z := stored_integer true (order_on (o_host orc) (f_bo f)) (window bs off n) in
       (code_point z -> fst (mapbs orc fuel m bs off c depth) = Ok (VStr [z])) /\
       (~ code_point z -> fst (mapbs orc fuel m bs off c depth) = Raise MappingError)) /\
    (forall z b c, code_point z -> fst (foldbs orc m (VStr [z]) c) = Ok b ->
       exists w, b = VBytes w /\ len w = n /\
       forall fuel pre post c' depth,
         fst (mapbs orc fuel m (pre ++ w ++ post) (len pre) c' depth) = Ok (VStr [z])) /\
    (forall z c, code_point z ->
       (in_range true n z <-> exists b, fst (foldbs orc m (VStr [z]) c) = Ok b)) /\
    (n = 1 -> forall fuel bs off c depth x, 0 <= off -> nth_error bs (Z.to_nat off) = Some x ->
       127 < byteZ x -> fst (mapbs orc fuel m bs off c depth) = Raise MappingError).
Proof.
  intros Hn Hs. destruct (char_code_facts n Hn) as (H1 & H2 & H3).
  assert (Hp : 0 < n) by (cbn in Hn; lia).
  assert (Hf : forall z c, fst (foldbs orc (MPrim (DCharacter f)
         (Some (op1 (order_on (o_host orc) (f_bo f)) (char_code n)))) (VStr [z]) c) =
       if int_range_dec (char_code n) z
       then Ok (VBytes (enc_n (order_on (o_host orc) (f_bo f)) (code_size (char_code n))
                          (z mod 2 ^ (8 * Z.of_nat (code_size (char_code n))))))
       else Raise FoldingError).
  { intros. cbn [foldbs fst]. unfold fold_prim. cbn [fold_value bind fst].
    rewrite write_op1. unfold pack1.
    destruct (char_code n) eqn:Ec; try discriminate; rewrite <- Ec in *;
    destruct (int_range_dec _ _);
    first [rewrite pack_int_range by assumption | rewrite pack_int_out by assumption]; reflexivity. }
  assert (Hlw : forall z, len (enc_n (order_on (o_host orc) (f_bo f)) (code_size (char_code n)) z) = n).
  { intros. unfold len. rewrite enc_n_length. lia. }
  eexists. split; [exact (create_character _ _ _ Hn Hs)|]. split; [|split; [|split]].
  - intros. subst z. rewrite (map_character _ _ _ n) by assumption.
    set (z := stored_integer _ _ _). unfold code_point.
    destruct (Z.leb_spec 0 z), (Z.leb_spec z 1114111); cbn [andb]; split; intros; auto; lia.
  - intros z b c Hz. rewrite Hf. destruct (int_range_dec (char_code n) z); [|discriminate].
    intros [= <-]. eexists. split; [reflexivity|]. split; [auto|]. intros.
    rewrite (map_character _ _ _ n); auto using len_nonneg.
    + rewrite window_app' by auto. pose proof (stored_enc (order_on (o_host orc) (f_bo f)) (char_code n) z i) as E.
      rewrite H2 in E. rewrite E. unfold code_point in Hz.
      destruct (Z.leb_spec 0 z), (Z.leb_spec z 1114111); cbn [andb]; auto; lia.
    + rewrite !len_app, Hlw. pose proof (len_nonneg post). lia.
  - intros z c Hz. rewrite Hf. unfold int_range_b in *.
    destruct (int_range_dec (char_code n) z) as [Hx|Hx]; unfold int_range_b in Hx; rewrite H1, H2 in Hx.
    + split; eauto.
    + split; [contradiction|]. intros [b Hb]. discriminate.
  - intros -> fuel bs off c depth x Ho Hx Hx'.
    assert (Hl : off + 1 <= len bs).
    { assert (nth_error bs (Z.to_nat off) <> None) as Hy by congruence.
      apply nth_error_Some in Hy. unfold len. lia. }
    rewrite (map_character _ _ _ 1); auto.
    assert (E : window bs off 1 = [x]).
    { unfold window. change (Z.to_nat 1) with 1%nat.
      clear -Hx. revert bs Hx. induction (Z.to_nat off); intros [|y bs] H; cbn in *; try discriminate; auto.
      congruence. }
    rewrite E.
    assert (Ez : stored_integer true (order_on (o_host orc) (f_bo f)) [x] = byteZ x - 256).
    { pose proof (byteZ_range x). unfold stored_integer.
      assert (Es : stored_number (order_on (o_host orc) (f_bo f)) [x] = byteZ x)
        by (destruct (order_on (o_host orc) (f_bo f)); unfold stored_number, msb_number; cbn [rev app fold_left]; lia).
      rewrite Es. unfold twos_complement, len. cbn [length].
      change (2 ^ (8 * Z.of_nat 1 - 1)) with 128. change (2 ^ (8 * Z.of_nat 1)) with 256.
      destruct (Z.ltb_spec (byteZ x) 128); lia. }
    rewrite Ez. pose proof (byteZ_range x).
    destruct (Z.leb_spec 0 (byteZ x - 256)); [lia|]. reflexivity.
Qed.

(** ** UUIDs *)

Lemma uuid_swap_spec b : length b = 16%nat -> swap_fields b = Some (uuid_swap b).
Proof.
  intros H. do 16 (destruct b as [|? b]; [discriminate|]). destruct b; [|discriminate]. reflexivity.
Qed.

Lemma uuid_swap_involutive b : length b = 16%nat -> uuid_swap (uuid_swap b) = b.
Proof.
  intros H. do 16 (destruct b as [|? b]; [discriminate|]). destruct b; [|discriminate]. reflexivity.
Qed.

Lemma uuid_swap_length b : length b = 16%nat -> length (uuid_swap b) = 16%nat.
Proof.
  intros H. do 16 (destruct b as [|? b]; [discriminate|]). destruct b; [|discriminate]. reflexivity.
Qed.

Lemma map_uuid_spec f bs off c depth :
  sized f 16 -> 0 <= off -> off + 16 <= len bs ->
  fst (map_uuid (DUUID f) bs off c depth) =
  match f_bo f with
  | BOBig => Ok (VUUID (window bs off 16))
  | BOLittle => Ok (VUUID (uuid_swap (window bs off 16)))
  | BONative => Ok VNone
  end.
Proof.
  intros Hs Ho Hl. unfold map_uuid. cbn [get_byte_size]. rewrite (sized_byte_size f 16 Hs).
  destruct (Z.ltb_spec (len bs - off) 16); [lia|].
  rewrite slice_window by lia. rewrite len_window by lia. rewrite Z.eqb_refl.
  cbn [dt_byte_order]. destruct (f_bo f); reflexivity.
Qed.

Lemma uuid_behaviour orc f :
  sized f 16 ->
  exists m, create orc (DUUID f) None = Ok (Some m) /\
    (forall fuel bs off c depth, 0 <= off -> off + 16 <= len bs ->
       match f_bo f with
       | BOBig => fst (mapbs orc fuel m bs off c depth) = Ok (VUUID (window bs off 16))
       | BOLittle => exists u, swap_fields (window bs off 16) = Some u /\
           fst (mapbs orc fuel m bs off c depth) = Ok (VUUID u)
       | BONative => fst (mapbs orc fuel m bs off c depth) = Ok VNone
       end) /\
    (forall u c, len u = 16 ->
       match f_bo f with
       | BONative => fst (foldbs orc m (VUUID u) c) = Ok VNone
       | _ => exists b, fst (foldbs orc m (VUUID u) c) = Ok (VBytes b) /\ len b = 16 /\
           forall fuel pre post c' depth,
             fst (mapbs orc fuel m (pre ++ b ++ post) (len pre) c' depth) = Ok (VUUID u)
       end) /\
    (f_bo f <> BONative ->
     forall fuel bs off c depth c' v, 0 <= off -> off + 16 <= len bs ->
       fst (mapbs orc fuel m bs off c depth) = Ok v ->
       fst (foldbs orc m v c') = Ok (VBytes (window bs off 16))).
Proof.
  intros Hs. eexists. split; [reflexivity|]. cbn [mapbs foldbs apply_ov]. split; [|split].
  - intros. rewrite map_uuid_spec by assumption. destruct (f_bo f); auto.
    eexists. split; [|reflexivity]. apply uuid_swap_spec.
    now rewrite length_window by lia.
  - intros u c Hu. assert (Hu' : length u = 16%nat) by (unfold len in Hu; lia).
    unfold fold_uuid. cbn [dt_byte_order fst].
    assert (Hm : forall b pre post c' depth, len b = 16 ->
       fst (map_uuid (DUUID f) (pre ++ b ++ post) (len pre) c' depth) =
       match f_bo f with BOBig => Ok (VUUID b) | BOLittle => Ok (VUUID (uuid_swap b)) | BONative => Ok VNone end).
    { intros b pre post c' depth Hb. rewrite map_uuid_spec; auto using len_nonneg.
      - rewrite window_app' by exact Hb. reflexivity.
      - rewrite !len_app. pose proof (len_nonneg post). lia. }
    destruct (f_bo f) eqn:Eb; [reflexivity| |].
    + exists u. split; [reflexivity|]. split; [exact Hu|]. intros. now rewrite Hm.
    + exists (uuid_swap u). split; [reflexivity|].
      assert (len (uuid_swap u) = 16) by (unfold len; now rewrite uuid_swap_length).
      split; [assumption|]. intros. rewrite Hm by assumption. now rewrite uuid_swap_involutive.
  - intros Hb fuel bs off c depth c' v Ho Hl. rewrite map_uuid_spec by assumption.
    unfold fold_uuid. cbn [dt_byte_order fst].
    destruct (f_bo f); [congruence| |]; intros [= <-].
    + reflexivity.
    + rewrite uuid_swap_involutive; [reflexivity|]. now rewrite length_window by lia.
Qed.
