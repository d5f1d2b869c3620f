(** Streams that lack bytes and streams that are wrong. *)
From Coq Require Import String Ascii List ZArith Bool Lia.
From Verif Require Import Base PyVal PyStruct DataTypes ClassFactory DataMaps SpecPrim SpecMap SpecCreate SpecReads SpecShort
  MapProofs CreateProofs SteadyProofs SeqResumeProofs ReadsProofs ShortProofs FuelProofs WindowProofs FixedProofs SizeProofs Demo DemoProofs ReadsWitness.
Import ListNotations.
Open Scope Z_scope.

Lemma shape_space : all_maps (takes_space demo) (the_map d_shape).
Proof.
  assert (T : takes demo (the_map d_point) 4).
  { apply (exact_takes demo extensional_demo d_point None); try (vm_compute; reflexivity).
    - apply fine_sound; vm_compute; reflexivity.
    - vm_compute; tauto. }
  assert (E : exists m, m = the_map d_shape) by eauto. destruct E as [m E]. rewrite <- E. vm_compute in E. subst m.
  assert (E : exists m, m = the_map d_point) by eauto. destruct E as [m E]. rewrite <- E in T. vm_compute in E. subst m.
  cbn [all_maps takes_space]. repeat match goal with |- _ /\ _ => split | |- True => exact I end.
  intros fuel b off vals depth v n O M. apply T in M; lia.
Qed.

Lemma shape_tame : tame d_shape (the_map d_shape).
Proof.
  assert (E : exists m, m = the_map d_shape) by eauto. destruct E as [m E]. rewrite <- E. vm_compute in E. subst m.
  split; [|left; exact I]. intros _. now apply constructible_spec.
Qed.

(** The second point is cut off. *)
Definition shape_cut : bytes := bs [2; 1; 0; 2; 0; 3; 0; 4].

Lemma shape_lacks : lacks demo shape_cut d_shape 0 [].
Proof.
  apply (short_lacks demo d_shape (the_map d_shape) shape_cut 0 [] 0 extensional_demo shape_regular shape_created).
  - vm_compute. split; discriminate.
  - vm_compute. discriminate.
  - exists 20%nat. vm_compute. reflexivity.
Qed.

(** The name is no text in UTF-8. *)
Definition shape_wrong : bytes := bs [0; 200; 0].

(** A kind that must be 1 or 2 before a number of two bytes: read in one go, and
    member by member because of the stream at the end. *)
Definition d_kind : list dtype := [member_in "kind" [VInt 1; VInt 2] d_uint8; member "number" d_uint16].
Definition d_tight : dtype := DStructure (meta_of "tight") BOLittle d_kind.
Definition d_loose : dtype :=
  DStructure (meta_of "loose") BOLittle (d_kind ++ [member "data" (DElems KStream (elems_size "data" d_uint8 2) d_uint8)]).

Lemma kinds_regular : everywhere regular d_tight /\ everywhere regular d_loose.
Proof. split; apply regular_check; vm_compute; reflexivity. Qed.

Lemma tight_lacks : lacks demo (bs [7; 0]) d_tight 0 [].
Proof. eapply LackBytes; [|reflexivity|reflexivity]. cbn. repeat split; auto; intros; inversion H; auto; repeat split; auto; intros; inversion H0; auto. Qed.

Lemma loose_not_lacks : ~ lacks demo (bs [7; 0]) d_loose 0 [].
Proof.
  intros L. apply (short_lacks demo d_loose (the_map d_loose) (bs [7; 0]) 0 [] 0 extensional_demo (proj2 kinds_regular)) in L.
  - destruct L as (fuel & L). vm_compute in L. discriminate.
  - vm_compute. reflexivity.
  - vm_compute. split; discriminate.
  - vm_compute. discriminate.
Qed.
