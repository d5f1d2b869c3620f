(** Proofs about truncated byte streams. *)
From Coq Require Import String List ZArith Bool Lia.
From Verif Require Import Base PyVal DataTypes DataMaps SpecMap SpecCreate BytesProofs MapProofs StructProofs UseProofs WindowProofs FuelProofs.
Import ListNotations.
Open Scope Z_scope.

(** C53 *)
Lemma truncated orc fuel d m bs off vals depth v n k :
  extensional orc -> everywhere sound d -> create orc d None = Ok (Some m) ->
  maps orc fuel m bs off vals depth v n -> 0 <= off <= k -> k <= len bs -> k < off + n ->
  (forall v', fst (mapbs orc fuel m (firstn (Z.to_nat k) bs) off (Some (ctx_new vals)) depth) <> Ok v') /\
  (forall e, fails orc fuel m (firstn (Z.to_nat k) bs) off vals depth e -> e = ByteStreamTooSmallError) /\
  (all_maps (takes_space orc) m -> (Z.to_nat (k - off) < fuel)%nat ->
   fails orc fuel m (firstn (Z.to_nat k) bs) off vals depth ByteStreamTooSmallError).
Proof.
  intros X E C M Ho Hl Hk. set (b := firstn (Z.to_nat k) bs). set (s := skipn (Z.to_nat k) bs).
  assert (Eb : b ++ s = bs) by apply firstn_skipn.
  assert (Lb : len b = k). { unfold b, len in *. rewrite firstn_length. lia. }
  destruct (mapping_monotone orc fuel d m b s off vals depth X E C ltac:(lia)) as [A B]. rewrite Eb in A, B.
  assert (P1 : forall v', fst (mapbs orc fuel m b off (Some (ctx_new vals)) depth) <> Ok v').
  { intros v' R. destruct (mapbs orc fuel m b off (Some (ctx_new vals)) depth) as [r c'] eqn:Q. cbn in R. subst r.
    destruct (context_independence orc X vals (Some (ctx_new vals)) (usable_new _ _) fuel m b off depth) as [_ U].
    destruct (U _ _ Q) as [_ U']. destruct U' as (x & n' & _ & _ & _ & M'); [discriminate|].
    destruct (mapping_footprint orc fuel d m b off vals depth v' n' X E C ltac:(lia) M') as (r & N & L & _).
    apply A in M'. destruct (maps_det _ _ _ _ _ _ _ _ _ _ _ M M') as [_ <-]. lia. }
  assert (P2 : forall e, fails orc fuel m b off vals depth e -> e = ByteStreamTooSmallError).
  { intros e F. destruct e; auto; (apply B in F; [|discriminate]; apply maps_fst in M; unfold fails in F; congruence). }
  split; [exact P1|]. split; [exact P2|]. intros T F.
  destruct (mapping_terminates orc fuel d m b off vals depth X E C T ltac:(lia) ltac:(rewrite Lb; auto)) as [N _].
  unfold fails in *. destruct (fst (mapbs orc fuel m b off (Some (ctx_new vals)) depth)) as [v'|e|] eqn:R.
  - now destruct (P1 v').
  - now rewrite (P2 e).
  - congruence.
Qed.
