(** Lemmas about bytes, slices, and the integer codec of [struct]. *)
From Coq Require Import String List ZArith NArith Bool Lia.
From Coq Require Import Init.Byte Strings.Byte.
From Verif Require Import Base Ieee PyVal PyStruct.
Import ListNotations.
Open Scope Z_scope.

Lemma len_nonneg {A} (l : list A) : 0 <= len l.
Proof. unfold len; lia. Qed.

Lemma len_nil {A} : len (@nil A) = 0.
Proof. reflexivity. Qed.

Lemma len_cons {A} (a : A) l : len (a :: l) = 1 + len l.
Proof. unfold len; cbn [length]; lia. Qed.

Lemma len_app {A} (l1 l2 : list A) : len (l1 ++ l2) = len l1 + len l2.
Proof. unfold len; rewrite app_length; lia. Qed.

Lemma len_map {A B} (f : A -> B) l : len (map f l) = len l.
Proof. unfold len; now rewrite map_length. Qed.

Lemma len_rev {A} (l : list A) : len (rev l) = len l.
Proof. unfold len; now rewrite rev_length. Qed.

Lemma len_skipn {A} n (l : list A) : len (skipn n l) = Z.max 0 (len l - Z.of_nat n).
Proof. unfold len; rewrite skipn_length; lia. Qed.

Lemma len_firstn {A} n (l : list A) : len (firstn n l) = Z.min (Z.of_nat n) (len l).
Proof. unfold len; rewrite firstn_length; lia. Qed.

(** ** Bytes *)

Lemma byteZ_range b : 0 <= byteZ b < 256.
Proof.
  unfold byteZ. pose proof (Byte.to_N_bounded b). lia.
Qed.

Lemma byteZ_Zbyte z : byteZ (Zbyte z) = z mod 256.
Proof.
  unfold Zbyte, byteZ.
  pose proof (Z.mod_pos_bound z 256 ltac:(lia)) as H.
  destruct (Byte.of_N (Z.to_N (z mod 256))) eqn:E.
  - apply Byte.to_of_N in E. rewrite E. lia.
  - apply Byte.of_N_None_iff in E. lia.
Qed.

Lemma Zbyte_byteZ b : Zbyte (byteZ b) = b.
Proof.
  unfold Zbyte, byteZ.
  rewrite Z.mod_small by (pose proof (Byte.to_N_bounded b); lia).
  rewrite N2Z.id, Byte.of_to_N. reflexivity.
Qed.

Lemma Zbyte_plus z b : Zbyte (byteZ b + 256 * z) = b.
Proof.
  unfold Zbyte. replace ((byteZ b + 256 * z) mod 256) with (byteZ b mod 256).
  - fold (Zbyte (byteZ b)). apply Zbyte_byteZ.
  - rewrite Z.add_mod, (Z.mul_comm 256), Z.mod_mul by lia.
    rewrite Z.add_0_r, Z.mod_mod by lia. reflexivity.
Qed.

Lemma byteZ_inj a b : byteZ a = byteZ b -> a = b.
Proof. intros H. rewrite <- (Zbyte_byteZ a), <- (Zbyte_byteZ b). now rewrite H. Qed.

Lemma byte_eqb_eq a b : byte_eqb a b = true <-> a = b.
Proof. unfold byte_eqb. apply Byte.byte_dec_bl || idtac.
  split; [apply Byte.byte_dec_bl | apply Byte.byte_dec_lb].
Qed.

Lemma list_eqb_eq {A} (eqb : A -> A -> bool) :
  (forall a b, eqb a b = true <-> a = b) ->
  forall l1 l2, list_eqb eqb l1 l2 = true <-> l1 = l2.
Proof.
  intros H. induction l1 as [|a l1 IH]; destruct l2 as [|b l2]; cbn; try (split; congruence).
  rewrite andb_true_iff, H, IH. split; [intros [-> ->]; reflexivity | intros [= -> ->]; auto].
Qed.

Lemma bytes_eqb_eq a b : bytes_eqb a b = true <-> a = b.
Proof. apply list_eqb_eq, byte_eqb_eq. Qed.

(** ** Slices at non-negative bounds *)

Lemma slice_from_nonneg {A} (l : list A) a :
  0 <= a -> slice_from l a = skipn (Z.to_nat a) l.
Proof.
  intros H. unfold slice_from, norm_index.
  destruct (Z.ltb_spec a 0); [lia|].
  destruct (Z.leb_spec a (len l)).
  - now rewrite Z.min_l by lia.
  - rewrite Z.min_r by lia. unfold len. rewrite Nat2Z.id, !skipn_all2; auto.
    unfold len in *; lia.
Qed.

Lemma slice_nonneg {A} (l : list A) a n :
  0 <= a -> 0 <= n ->
  slice l a (a + n) = firstn (Z.to_nat n) (skipn (Z.to_nat a) l).
Proof.
  intros Ha Hn. unfold slice, norm_index.
  destruct (Z.ltb_spec a 0); [lia|]. destruct (Z.ltb_spec (a + n) 0); [lia|].
  pose proof (len_nonneg l) as Hl.
  destruct (Z.leb_spec a (len l)).
  - rewrite (Z.min_l a) by lia.
    destruct (Z.leb_spec (a + n) (len l)).
    + rewrite Z.min_l by lia. do 2 f_equal. lia.
    + rewrite Z.min_r by lia. rewrite !firstn_all2; auto.
      * rewrite skipn_length. unfold len in *. lia.
      * rewrite skipn_length. unfold len in *. lia.
  - rewrite !Z.min_r by lia.
    rewrite (skipn_all2 (n := Z.to_nat a)) by (unfold len in *; lia).
    rewrite (skipn_all2 (n := Z.to_nat (len l))) by (unfold len in *; lia).
    now rewrite !firstn_nil.
Qed.

Lemma slice_prefix {A} (l : list A) n :
  0 <= n -> slice l 0 n = firstn (Z.to_nat n) l.
Proof. intros. pose proof (slice_nonneg l 0 n). cbn [Z.add] in H0. rewrite H0 by lia. reflexivity. Qed.

Lemma is_empty_slice_from {A} (l : list A) a :
  0 <= a -> is_empty (slice_from l a) = (len l <=? a).
Proof.
  intros H. rewrite slice_from_nonneg by lia.
  destruct (Z.leb_spec (len l) a).
  - rewrite skipn_all2 by (unfold len in *; lia). reflexivity.
  - destruct (skipn (Z.to_nat a) l) eqn:E; [|reflexivity].
    apply (f_equal (@length A)) in E. rewrite skipn_length in E. cbn in E.
    unfold len in *. lia.
Qed.

(** ** Little-endian numbers *)

Lemma le_val_range bs : 0 <= le_val bs < 256 ^ len bs.
Proof.
  induction bs as [|b bs IH]; cbn [le_val].
  - change (len (@nil byte)) with 0. lia.
  - rewrite len_cons. pose proof (byteZ_range b). pose proof (len_nonneg bs).
    rewrite Z.pow_add_r by lia. lia.
Qed.

Lemma le_enc_length n z : length (le_enc n z) = n.
Proof. revert z; induction n; intros; cbn [le_enc length]; auto. Qed.

Lemma le_val_enc n z : le_val (le_enc n z) = z mod 256 ^ Z.of_nat n.
Proof.
  revert z; induction n as [|n IH]; intros z; cbn [le_enc le_val].
  - now rewrite Z.mod_1_r.
  - rewrite byteZ_Zbyte, IH, Nat2Z.inj_succ, Z.pow_succ_r by lia.
    rewrite Z.rem_mul_r by lia. reflexivity.
Qed.

Lemma le_enc_val bs : le_enc (length bs) (le_val bs) = bs.
Proof.
  induction bs as [|b bs IH]; cbn [le_val length le_enc]; [reflexivity|].
  rewrite Zbyte_plus. f_equal.
  replace ((byteZ b + 256 * le_val bs) / 256) with (le_val bs); [exact IH|].
  pose proof (byteZ_range b). apply (Z.div_unique _ _ _ (byteZ b)); lia.
Qed.

Lemma reorder_involutive en bs : reorder en (reorder en bs) = bs.
Proof. destruct en; unfold reorder; [apply rev_involutive | reflexivity]. Qed.

Lemma reorder_length en bs : length (reorder en bs) = length bs.
Proof. destruct en; unfold reorder; [apply rev_length | reflexivity]. Qed.

Lemma len_reorder en bs : len (reorder en bs) = len bs.
Proof. unfold len. now rewrite reorder_length. Qed.

Lemma enc_n_length en n z : length (enc_n en n z) = n.
Proof. unfold enc_n. now rewrite reorder_length, le_enc_length. Qed.

Lemma pow256 n : 256 ^ Z.of_nat n = 2 ^ (8 * Z.of_nat n).
Proof. now rewrite Z.pow_mul_r by lia. Qed.

Lemma le_val_reorder_range en bs n :
  length bs = n -> 0 <= le_val (reorder en bs) < 2 ^ (8 * Z.of_nat n).
Proof.
  intros <-. pose proof (le_val_range (reorder en bs)) as H.
  rewrite len_reorder in H. unfold len in H. now rewrite pow256 in H.
Qed.

Lemma le_val_dec_enc en n z :
  le_val (reorder en (enc_n en n z)) = z mod 2 ^ (8 * Z.of_nat n).
Proof. unfold enc_n. rewrite reorder_involutive, le_val_enc, pow256. reflexivity. Qed.

Lemma enc_dec en n bs z :
  length bs = n -> z mod 2 ^ (8 * Z.of_nat n) = le_val (reorder en bs) ->
  enc_n en n (z mod 2 ^ (8 * Z.of_nat n)) = bs.
Proof.
  intros Hl ->. unfold enc_n.
  rewrite <- Hl, <- (reorder_length en bs), le_enc_val. apply reorder_involutive.
Qed.

(** ** Struct operations *)

Lemma code_size_pos c : (0 < code_size c)%nat.
Proof. destruct c; cbn; lia. Qed.

Lemma unpack_codes_length en cs bs : length (unpack_codes en cs bs) = length cs.
Proof. revert bs; induction cs; intros; cbn; auto. Qed.
