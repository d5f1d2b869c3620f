(** C77: what the requested size of a context says after mapping. *)
From Coq Require Import String Ascii List ZArith Bool Lia.
From Verif Require Import Base PyVal PyStruct DataTypes ClassFactory DataMaps Expr Demo DemoProofs SpecPrim SpecMap SpecRequest RequestProofs RequestWitness.
Import ListNotations.
Open Scope string_scope.
Open Scope list_scope.
Open Scope Z_scope.

(** C77. Padding, sequences and structures read in one go, and streams and strings of a known size that fail because the stream is too small leave the number of bytes that they need: more than there are, and with as many bytes the size is never again the problem. *)
Theorem C77_needed : forall orc fuel m x depth off bs x',
  in_one_piece m -> c_state x = st_empty ->
  mapbs orc fuel m bs off (Some x) depth = (Raise ByteStreamTooSmallError, Some x') ->
  exists n, c_requested_size x' = Some n /\ len bs - off < n /\
    forall bs', n <= len bs' - off ->
      fst (mapbs orc fuel m bs' off (Some x) depth) <> Raise ByteStreamTooSmallError /\
      forall v y, mapbs orc fuel m bs' off (Some x) depth = (Ok v, Some y) -> c_byte_size y = Some n.
Proof. exact RequestProofs.needed_size. Qed.
Print Assumptions C77_needed.

Example C77_example_needed :
  exists x' n,
    mapbs demo 20 (the_map d_body) (bs [1; 2; 3]) 1 (Some fresh_ctx) 0 = (Raise ByteStreamTooSmallError, Some x') /\
    c_requested_size x' = Some n /\ 2 < n /\
    forall bs', n <= len bs' - 1 -> fst (mapbs demo 20 (the_map d_body) bs' 1 (Some fresh_ctx) 0) <> Raise ByteStreamTooSmallError.
Proof.
  destruct body_too_small as [x' E]. exists x'.
  destruct (C77_needed demo 20%nat (the_map d_body) fresh_ctx 0 1 (bs [1; 2; 3]) x' body_piece eq_refl E) as (n & A & B & C).
  exists n. split; [exact E|]. split; [exact A|]. split; [exact B|]. intros bs' L. exact (proj1 (C bs' L)).
Qed.

(** C77. After success the requested size is the number of bytes of the value. *)
Theorem C77_mapped : forall orc fuel m x depth off bs v x',
  single m \/ in_one_piece m -> c_state x = st_empty ->
  mapbs orc fuel m bs off (Some x) depth = (Ok v, Some x') -> c_requested_size x' = c_byte_size x'.
Proof. exact RequestProofs.mapped_size. Qed.
Print Assumptions C77_mapped.

Example C77_example_mapped :
  exists v x', mapbs demo 20 (the_map d_pair) (bs [1; 2; 3; 4; 5; 6; 7]) 1 (Some fresh_ctx) 0 = (Ok v, Some x') /\
    c_requested_size x' = c_byte_size x'.
Proof.
  do 2 eexists. split; [vm_compute; reflexivity|].
  apply (C77_mapped demo 20%nat (the_map d_pair) fresh_ctx 0 1 (bs [1; 2; 3; 4; 5; 6; 7])
    (VStruct "pair" [("a", VInt 84148994); ("b", VInt 1798)])).
  - right. exact pair_piece.
  - reflexivity.
  - vm_compute. reflexivity.
Qed.

(** C77. Maps that look for a terminator know no such number: the requested size is None, whatever it was before. *)
Theorem C77_searched : forall orc fuel m x depth off bs x',
  searching m -> c_state x = st_empty ->
  snd (mapbs orc fuel m bs off (Some x) depth) = Some x' -> c_requested_size x' = None.
Proof. exact RequestProofs.searched_size. Qed.
Print Assumptions C77_searched.

Example C77_example_searched :
  exists x', snd (mapbs demo 20 (the_map d_line) (bs [65; 66]) 0 (Some (set_sizes (Some 3) (Some 3) fresh_ctx)) 0) = Some x' /\
    c_requested_size x' = None.
Proof.
  eexists. split; [vm_compute; reflexivity|].
  eapply (C77_searched demo 20%nat (the_map d_line) (set_sizes (Some 3) (Some 3) fresh_ctx) 0 0 (bs [65; 66])).
  - exact line_searching.
  - reflexivity.
  - vm_compute. reflexivity.
Qed.

(** C77. Numbers and UUIDs that do not fit leave the context as it was. *)
Theorem C77_unasked : forall orc fuel m c depth off bs c',
  single m -> mapbs orc fuel m bs off c depth = (Raise ByteStreamTooSmallError, c') -> c' = c.
Proof. exact RequestProofs.unasked_size. Qed.
Print Assumptions C77_unasked.

Example C77_example_unasked :
  mapbs demo 0 (the_map d_uint32) (bs [1; 2]) 0 (Some fresh_ctx) 0 = (Raise ByteStreamTooSmallError, Some fresh_ctx).
Proof.
  assert (E : exists x', mapbs demo 0 (the_map d_uint32) (bs [1; 2]) 0 (Some fresh_ctx) 0 = (Raise ByteStreamTooSmallError, x')).
  { eexists. vm_compute. reflexivity. }
  destruct E as [x' E]. rewrite E. f_equal.
  apply (C77_unasked demo 0%nat (the_map d_uint32) (Some fresh_ctx) 0 0 (bs [1; 2]) x').
  - vm_compute. exact I.
  - exact E.
Qed.

(** C77. All others keep the requested size that the context has, whatever comes out. *)
Theorem C77_kept : forall orc fuel m x depth off bs x',
  piecemeal m -> snd (mapbs orc fuel m bs off (Some x) depth) = Some x' -> c_requested_size x' = c_requested_size x.
Proof. exact RequestProofs.kept_size. Qed.
Print Assumptions C77_kept.

Example C77_example_kept :
  exists x', snd (mapbs demo 20 (the_map d_mixed) (bs [3; 1]) 0 (Some (set_sizes (Some 7) (Some 7) fresh_ctx)) 0) = Some x' /\
    c_requested_size x' = Some 7.
Proof.
  eexists. split; [vm_compute; reflexivity|].
  eapply (C77_kept demo 20%nat (the_map d_mixed) (set_sizes (Some 7) (Some 7) fresh_ctx) 0 0 (bs [3; 1])).
  - exact mixed_piecemeal.
  - vm_compute. reflexivity.
Qed.

(** C77. It is not so that whatever does not fit says how much it needs: a number does not. *)
Theorem C77_number_refuted : exists orc m b off x',
    single m /\
    mapbs orc 0 m b off (Some (ctx_new [])) 0 = (Raise ByteStreamTooSmallError, Some x') /\
    ~ exists n, c_requested_size x' = Some n.
Proof. exact RequestWitness.number_asks_refuted. Qed.
Print Assumptions C77_number_refuted.

(** C77. Nor does a structure read member by member that would fit if more bytes followed. *)
Theorem C77_member_refuted : exists orc d m b off x',
    create orc d None = Ok (Some m) /\
    mapbs orc 20 m b off (Some (ctx_new [])) 0 = (Raise ByteStreamTooSmallError, Some x') /\
    c_requested_size x' = None /\
    exists b' v x'', mapbs orc 20 m (b ++ b') off (Some (ctx_new [])) 0 = (Ok v, Some x'').
Proof. exact RequestWitness.member_asks_refuted. Qed.
Print Assumptions C77_member_refuted.
