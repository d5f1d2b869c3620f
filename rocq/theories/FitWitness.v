(** A value that fits, and values that do not fit and are folded all the same. *)
From Coq Require Import String List ZArith Bool Lia.
From Verif Require Import Base PyVal PyStruct DataTypes ClassFactory DataMaps Expr Codec Demo SpecPrim SpecMap SpecCreate SpecReads
  SpecFold SpecFits CreateProofs SteadyProofs FoldProofs ReadsProofs FitProofs DemoProofs ReadsWitness.
Import ListNotations.
Open Scope Z_scope.
Open Scope string_scope.
Open Scope list_scope.

(** A packet: a length, a flag, a checksum if the flag is set, padding and as many
    bytes as the length says. *)
Definition d_packet : dtype :=
  DStructure (meta_of "packet") BOBig
    [member "size" d_uint8;
     member_in "flag" [VInt 0; VInt 1] d_uint8;
     member_if "sum" "packet.flag == 1" (DInteger (fixed_of "sum" BONative 2) false);
     DPadding (meta_of "pad") BOBig (Some 2);
     member "data" (DElems KStream (elems_size_expr "data" d_uint8 "packet.size") d_uint8)].
Definition packet_value : pyval :=
  VStruct "packet" [("size", VInt 3); ("flag", VInt 1); ("sum", VInt (-2)); ("pad", VBytes (bs [9]));
    ("data", VBytes (bs [65; 66; 67]))].

Lemma packet_regular : everywhere regular d_packet.
Proof. apply regular_check; vm_compute; reflexivity. Qed.

Lemma packet_created : create demo d_packet None = Ok (Some (the_map d_packet)).
Proof. vm_compute. reflexivity. Qed.

Lemma packet_folds_back : folds_back demo d_packet.
Proof. cbn. tauto. Qed.

(** The packet fits at offset 5: two bytes, two of the checksum, one of padding. *)
Lemma packet_fits : fits demo d_packet 5 [] packet_value 8.
Proof.
  assert (F := FitStructure demo (meta_of "packet") BOBig
    [member "size" d_uint8;
     member_in "flag" [VInt 0; VInt 1] d_uint8;
     member_if "sum" "packet.flag == 1" (DInteger (fixed_of "sum" BONative 2) false);
     DPadding (meta_of "pad") BOBig (Some 2);
     member "data" (DElems KStream (elems_size_expr "data" d_uint8 "packet.size") d_uint8)]
    [Some (VInt 3, 1); Some (VInt 1, 1); Some (VInt (-2), 2); Some (VBytes (bs [9]), 1); Some (VBytes (bs [65; 66; 67]), 3)]
    5 []).
  apply F. clear F. cbn [m_name meta_of].
  apply FitPresent; [reflexivity| |exact I|].
  { apply FitInteger; [cbn; tauto|split; reflexivity|vm_compute; split; congruence]. }
  apply FitPresent; [reflexivity| | |].
  { apply FitInteger; [cbn; tauto|split; reflexivity|vm_compute; split; congruence]. }
  { exists (VInt 1). split; [cbn; tauto|reflexivity]. }
  apply FitPresent; [vm_compute; reflexivity| |exact I|].
  { apply FitInteger; [cbn; tauto|split; reflexivity|vm_compute; split; congruence]. }
  apply FitPresent; [reflexivity| |exact I|].
  { apply (FitPadding demo _ _ 2 (bs [9])); [lia|]. split; [vm_compute; congruence|]. split; [reflexivity|].
    intros k K. assert (k = 0) by (change (len (bs [9])) with 1 in K; lia). subst k. vm_compute. discriminate. }
  apply FitPresent; [reflexivity| |exact I|].
  { apply (FitStream demo _ _ (bs [65; 66; 67])).
    - intros [H _]. discriminate.
    - left. split; [reflexivity|]. right. split; [left; reflexivity|]. exists "packet.size".
      split; [reflexivity|]. split; [discriminate|]. left. split; [vm_compute; reflexivity|vm_compute; discriminate]. }
  apply FitNoMember.
Qed.

Lemma packet_agrees : sizes_agree demo d_packet [] [] packet_value.
Proof.
  cbn [sizes_agree d_packet member member_if member_in]. repeat split; auto.
  intros _. intros n. apply same_size. intros x [Hx|Hx]; inversion Hx. vm_compute. reflexivity.
Qed.

(** *** Values that do not fit *)

(** No byte stream maps to a value that does not fit. *)
Lemma never_mapped d m v : everywhere regular d -> folds_back demo d -> create demo d None = Ok (Some m) ->
  (forall off vals n, ~ fits demo d off vals v n) ->
  forall fuel b off vals depth n, 0 <= off <= len b -> ~ maps demo fuel m b off vals depth v n.
Proof.
  intros E FB C N fuel b off vals depth n Ho M. apply (mapping_reads demo fuel d) in M; auto using extensional_demo.
  apply (N off vals n). apply (reads_fit demo b); auto; [lia|]. apply sound_known, regular_sound, E.
Qed.


Lemma fits_structure orc mt bo ms off vals v n : fits orc (DStructure mt bo ms) off vals v n ->
  exists rs, fits_members orc (m_name mt) bo (map dt_name ms) vals [] ms off rs /\
    v = VStruct (m_name mt) (combine (map dt_name ms) (map value_of rs)).
Proof. intros F. inversion F; subst. eauto. Qed.

(** Nothing is written for a member that is None. *)
Lemma missing_refuted :
  exists d m v b, everywhere regular d /\ folds_back demo d /\ create demo d None = Ok (Some m) /\
    fst (foldbs demo m v None) = Ok (VBytes b) /\
    forall fuel b off vals depth n, 0 <= off <= len b -> ~ maps demo fuel m b off vals depth v n.
Proof.
  set (d := DStructure (meta_of "pair") BOLittle
    [member "a" d_uint8; member "b" (DElems KStream (elems_size "b" d_uint8 2) d_uint8)]).
  exists d, (the_map d), (VStruct "pair" [("a", VNone); ("b", VBytes (bs [65; 66]))]), (bs [65; 66]).
  assert (R : everywhere regular d) by (apply regular_check; vm_compute; reflexivity).
  assert (F : folds_back demo d) by (cbn; tauto).
  assert (C : create demo d None = Ok (Some (the_map d))) by (vm_compute; reflexivity).
  split; [exact R|]. split; [exact F|]. split; [exact C|]. split; [vm_compute; reflexivity|].
  apply (never_mapped d); auto. intros off vals n H. apply fits_structure in H. destruct H as (rs & M & V).
  inversion M; subst.
  - inversion V; subst. match goal with M : fits _ (used_type _ _ _) _ _ _ _ |- _ => inversion M end.
  - match goal with M : condition_is _ _ _ false |- _ => discriminate M end.
Qed.

(** Unsupported values are written. *)
Lemma unsupported_refuted :
  exists d m v b, everywhere regular d /\ folds_back demo d /\ create demo d None = Ok (Some m) /\
    fst (foldbs demo m v None) = Ok (VBytes b) /\
    forall fuel b off vals depth n, 0 <= off <= len b -> ~ maps demo fuel m b off vals depth v n.
Proof.
  set (d := DStructure (meta_of "pair") BOLittle [member_in "a" [VInt 1] d_uint8; member "b" d_uint8]).
  exists d, (the_map d), (VStruct "pair" [("a", VInt 2); ("b", VInt 3)]), (bs [2; 3]).
  assert (R : everywhere regular d) by (apply regular_check; vm_compute; reflexivity).
  assert (F : folds_back demo d) by (cbn; tauto).
  assert (C : create demo d None = Ok (Some (the_map d))) by (vm_compute; reflexivity).
  split; [exact R|]. split; [exact F|]. split; [exact C|]. split; [vm_compute; reflexivity|].
  apply (never_mapped d); auto. intros off vals n H. apply fits_structure in H. destruct H as (rs & M & V).
  inversion M; subst.
  - inversion V; subst. match goal with M : allowed _ _ |- _ => destruct M as (x & [<-|[]] & Q); discriminate Q end.
  - match goal with M : condition_is _ _ _ false |- _ => discriminate M end.
Qed.

(** Members are written although their condition is false. *)
Lemma condition_refuted :
  exists d m v b, everywhere regular d /\ folds_back demo d /\ create demo d None = Ok (Some m) /\
    fst (foldbs demo m v None) = Ok (VBytes b) /\
    forall fuel b off vals depth n, 0 <= off <= len b -> ~ maps demo fuel m b off vals depth v n.
Proof.
  set (d := DStructure (meta_of "pair") BOLittle [member_if "a" "1 > 2" d_uint8; member "b" d_uint8]).
  exists d, (the_map d), (VStruct "pair" [("a", VInt 2); ("b", VInt 3)]), (bs [2; 3]).
  assert (R : everywhere regular d) by (apply regular_check; vm_compute; reflexivity).
  assert (F : folds_back demo d) by (cbn; tauto).
  assert (C : create demo d None = Ok (Some (the_map d))) by (vm_compute; reflexivity).
  split; [exact R|]. split; [exact F|]. split; [exact C|]. split; [vm_compute; reflexivity|].
  apply (never_mapped d); auto. intros off vals n H. apply fits_structure in H. destruct H as (rs & M & V).
  inversion M; subst.
  - match goal with M : condition_is _ _ _ true |- _ => discriminate M end.
  - discriminate V.
Qed.
