(** Streams too small for a stream of a given size, a structure read in one go, a number,
    and a structure read member by member. *)
From Coq Require Import String List ZArith Bool Lia.
From Verif Require Import Base PyVal PyStruct DataTypes ClassFactory DataMaps Expr Demo DemoProofs.
From Verif Require Import SpecPrim SpecMap SpecRequest RequestProofs.
Import ListNotations.
Open Scope string_scope.
Open Scope list_scope.
Open Scope Z_scope.

Definition d_pair : dtype := DStructure (meta_of "pair") BOLittle [member "a" d_uint32; member "b" d_uint16].
Definition d_body : dtype := DElems KStream (elems_size_expr "body_stream" d_uint8 "scale * 4") d_uint8.
Definition d_line : dtype := DElems KStream (elems_term "line" d_char (VBytes (bs [0]))) d_char.
Definition d_mixed : dtype :=
  DStructure (meta_of "mixed") BOLittle
    [member "size" d_uint8; member "body" (DElems KStream (elems_size_expr "body_stream" d_uint8 "mixed.size") d_uint8)].
Definition fresh_ctx : ctx := ctx_new [("scale", VInt 2)].

Lemma pair_piece : in_one_piece (the_map d_pair).
Proof. vm_compute. exact I. Qed.
Lemma body_piece : in_one_piece (the_map d_body).
Proof.
  assert (E : exists m, m = the_map d_body) by eauto. destruct E as [m E]. rewrite <- E. vm_compute in E. subst m.
  intros U. vm_compute in U. destruct U. discriminate.
Qed.
Lemma line_searching : searching (the_map d_line).
Proof.
  assert (E : exists m, m = the_map d_line) by eauto. destruct E as [m E]. rewrite <- E. vm_compute in E. subst m.
  vm_compute. split; [reflexivity|]. left. reflexivity.
Qed.
Lemma mixed_piecemeal : piecemeal (the_map d_mixed).
Proof. vm_compute. tauto. Qed.

Lemma body_too_small : exists x', mapbs demo 20 (the_map d_body) (bs [1; 2; 3]) 1 (Some fresh_ctx) 0 = (Raise ByteStreamTooSmallError, Some x').
Proof. eexists. vm_compute. reflexivity. Qed.

(** A number needs as many bytes as its size says, but the context does not say so. *)
Lemma number_asks_refuted :
  exists orc m b off x',
    single m /\
    mapbs orc 0 m b off (Some (ctx_new [])) 0 = (Raise ByteStreamTooSmallError, Some x') /\
    ~ exists n, c_requested_size x' = Some n.
Proof.
  exists demo, (the_map d_uint32), (bs [1; 2]), 0, (ctx_new []).
  split; [vm_compute; exact I|]. split; [vm_compute; reflexivity|]. intros [n H]. discriminate.
Qed.

(** Nor for a structure of which one member does not fit. *)
Lemma member_asks_refuted :
  exists orc d m b off x',
    create orc d None = Ok (Some m) /\
    mapbs orc 20 m b off (Some (ctx_new [])) 0 = (Raise ByteStreamTooSmallError, Some x') /\
    c_requested_size x' = None /\
    exists b' v x'', mapbs orc 20 m (b ++ b') off (Some (ctx_new [])) 0 = (Ok v, Some x'').
Proof.
  exists demo, d_mixed, (the_map d_mixed), (bs [3; 1]), 0. eexists.
  split; [vm_compute; reflexivity|]. split; [vm_compute; reflexivity|]. split; [vm_compute; reflexivity|].
  exists (bs [2; 3]). do 2 eexists. vm_compute. reflexivity.
Qed.
