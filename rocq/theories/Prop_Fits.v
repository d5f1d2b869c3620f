(** Writing values that fit their definition. *)
From Coq Require Import String Ascii List ZArith Bool Lia.
From Verif Require Import Base Ieee PyVal PyStruct DataTypes ClassFactory DataMaps SpecPrim Demo SpecMap SpecCreate DemoProofs SpecReads SpecFold SpecFits FitProofs ReadsWitness FitWitness.
Import ListNotations.
Open Scope string_scope.
Open Scope list_scope.
Open Scope Z_scope.

(** C54. A value that fits is folded to as many bytes as it takes, and wherever these bytes are put at the offset the value is mapped from them. *)
Theorem C54_fits_folds : forall orc d m off vals v n,
  extensional orc -> everywhere regular d -> folds_back orc d -> create orc d None = Ok (Some m) ->
  levels d <= 11 -> 0 <= off -> fits orc d off vals v n ->
  (everywhere no_single d \/ no_nan v) ->
  forall c, clean c -> sizes_agree orc d vals (ctx_values c) v ->
  exists b, fst (foldbs orc m v c) = Ok (VBytes b) /\ len b = n /\
    forall pre post, len pre = off -> exists fuel, maps orc fuel m (pre ++ b ++ post) off vals 0 v n.
Proof. exact FitProofs.fits_folds. Qed.
Print Assumptions C54_fits_folds.

Example C54_example_folds :
  everywhere regular d_packet /\ folds_back demo d_packet /\ create demo d_packet None = Ok (Some (the_map d_packet)) /\
  levels d_packet <= 11 /\ fits demo d_packet 5 [] packet_value 8 /\ no_nan packet_value /\
  sizes_agree demo d_packet [] [] packet_value /\
  fst (foldbs demo (the_map d_packet) packet_value None) = Ok (VBytes (bs [3; 1; 255; 254; 9; 65; 66; 67])).
Proof.
  split; [exact packet_regular|]. split; [exact packet_folds_back|]. split; [exact packet_created|].
  split; [vm_compute; discriminate|]. split; [exact packet_fits|]. split; [cbn; tauto|].
  split; [exact packet_agrees|]. vm_compute. reflexivity.
Qed.

(** C54. The values that fit are the values that mapping can give. *)
Theorem C54_fits_iff : forall orc d m off vals v n,
  extensional orc -> everywhere regular d -> folds_back orc d -> create orc d None = Ok (Some m) ->
  levels d <= 11 -> 0 <= off ->
  (fits orc d off vals v n <->
   exists fuel bs, off <= len bs /\ maps orc fuel m bs off vals 0 v n).
Proof. exact FitProofs.fits_iff. Qed.
Print Assumptions C54_fits_iff.

Example C54_example_iff : exists fuel b, 5 <= len b /\ maps demo fuel (the_map d_packet) b 5 [] 0 packet_value 8.
Proof.
  apply (C54_fits_iff demo d_packet); auto using extensional_demo, packet_regular, packet_folds_back, packet_created, packet_fits; vm_compute; discriminate.
Qed.

(** C54. A value that does not fit need not be rejected: nothing is written for a member that is None. *)
Theorem C54_missing_refuted : exists d m v b, everywhere regular d /\ folds_back demo d /\ create demo d None = Ok (Some m) /\
    fst (foldbs demo m v None) = Ok (VBytes b) /\
    forall fuel b off vals depth n, 0 <= off <= len b -> ~ maps demo fuel m b off vals depth v n.
Proof. exact FitWitness.missing_refuted. Qed.
Print Assumptions C54_missing_refuted.

(** C54. Unsupported values are written. *)
Theorem C54_unsupported_refuted : exists d m v b, everywhere regular d /\ folds_back demo d /\ create demo d None = Ok (Some m) /\
    fst (foldbs demo m v None) = Ok (VBytes b) /\
    forall fuel b off vals depth n, 0 <= off <= len b -> ~ maps demo fuel m b off vals depth v n.
Proof. exact FitWitness.unsupported_refuted. Qed.
Print Assumptions C54_unsupported_refuted.

(** C54. Members are written although their condition is false. *)
Theorem C54_condition_refuted : exists d m v b, everywhere regular d /\ folds_back demo d /\ create demo d None = Ok (Some m) /\
    fst (foldbs demo m v None) = Ok (VBytes b) /\
    forall fuel b off vals depth n, 0 <= off <= len b -> ~ maps demo fuel m b off vals depth v n.
Proof. exact FitWitness.condition_refuted. Qed.
Print Assumptions C54_condition_refuted.
