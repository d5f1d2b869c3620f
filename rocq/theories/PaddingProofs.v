(** Padding. *)
From Coq Require Import String List ZArith Bool Lia.
From Verif Require Import Base PyVal PyStruct DataTypes ClassFactory DataMaps.
From Verif Require Import BytesProofs ContainerProofs SpecPrim PrimProofs SpecMap.
Import ListNotations.
Open Scope Z_scope.

Lemma padding_aligns a off : 0 < a -> aligns a off (padding_size a off) /\ padding_size a off < a.
Proof.
  intros Ha. unfold aligns, padding_size.
  pose proof (Z.mod_pos_bound off a Ha). pose proof (Z.div_mod off a ltac:(lia)) as DM.
  set (q := off / a) in *. set (r := off mod a) in *.
  destruct (Z.ltb_spec 0 r).
  - split; [|lia]. split; [lia|]. split.
    + replace (off + (a - r)) with ((q + 1) * a) by lia. apply Z.mod_mul. lia.
    + intros k Hk. replace (off + k) with (r + k + q * a) by lia.
      rewrite Z.mod_add by lia. rewrite Z.mod_small by lia. lia.
  - split; [|lia]. split; [lia|]. split; [|intros; lia].
    replace (off + r) with (q * a) by lia. apply Z.mod_mul. lia.
Qed.

Lemma aligns_unique a off n k : aligns a off n -> aligns a off k -> n = k.
Proof.
  intros (N & M & L) (N' & M' & L'). destruct (Z.lt_trichotomy n k) as [H|[H|H]]; auto.
  - exfalso. apply (L' n); auto.
  - exfalso. apply (L k); auto.
Qed.

Lemma padding_mapping orc fuel mt bo a bs off vals depth : 0 < a -> 0 <= off ->
  exists m, create orc (DPadding mt bo (Some a)) None = Ok (Some m) /\
  (forall v n, maps orc fuel m bs off vals depth v n <->
     aligns a off n /\ off + n <= len bs /\ v = VBytes (window bs off n)) /\
  (fails orc fuel m bs off vals depth ByteStreamTooSmallError <->
     exists n, aligns a off n /\ len bs < off + n) /\
  (forall e, fails orc fuel m bs off vals depth e -> e = ByteStreamTooSmallError) /\
  (forall n, aligns a off n -> n < a /\ (off mod a = 0 <-> n = 0)).
Proof.
  intros Ha Ho. eexists. split; [reflexivity|].
  destruct (padding_aligns a off Ha) as [A B].
  unfold maps, fails. cbn [mapbs apply_ov map_padding].
  destruct (Z.eqb_spec a 0); [lia|].
  split; [|split; [|split]].
  - intros v n'. destruct (Z.ltb_spec (len bs - off) (padding_size a off)).
    + split; [intros (c & E & _); discriminate|]. intros (A' & L & _).
      rewrite (aligns_unique _ _ _ _ A' A) in L. lia.
    + split.
      * intros (c & E & S). inversion E; subst. cbn in S. inversion S; subst.
        split; auto. split; [lia|]. f_equal. destruct A. now apply slice_window.
      * intros (A' & L & ->). rewrite (aligns_unique _ _ _ _ A' A). rewrite slice_window by (destruct A; lia).
        eexists. split; reflexivity.
  - destruct (Z.ltb_spec (len bs - off) (padding_size a off)); cbn [fst].
    + split; auto. intros _. exists (padding_size a off). split; auto. lia.
    + split; [discriminate|]. intros (k & A' & L). rewrite (aligns_unique _ _ _ _ A' A) in L. lia.
  - intros e. destruct (_ <? _); cbn [fst]; congruence.
  - intros k A'. rewrite (aligns_unique _ _ _ _ A' A). split; auto.
    destruct A as (A1 & A2 & A3). split.
    + intros H. destruct (Z.eq_dec (padding_size a off) 0); auto. exfalso. apply (A3 0); [lia|].
      now rewrite Z.add_0_r.
    + intros H. rewrite H, Z.add_0_r in A2. auto.
Qed.
