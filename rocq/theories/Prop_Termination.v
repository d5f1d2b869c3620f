(** Termination of mapping. *)
From Coq Require Import String Ascii List ZArith Bool Lia.
From Verif Require Import Base Ieee PyVal PyStruct DataTypes ClassFactory DataMaps SpecPrim Demo SpecMap SpecCreate DemoProofs SizeProofs FuelProofs DivergeProofs.
Import ListNotations.
Open Scope string_scope.
Open Scope list_scope.
Open Scope Z_scope.

(** C26. Mapping ends after at most as many iterations of each loop as bytes remain, plus one. *)
Theorem C26_terminates : forall orc fuel d m bs off vals depth,
  extensional orc -> everywhere sound d -> create orc d None = Ok (Some m) -> all_maps (takes_space orc) m ->
  0 <= off <= len bs -> (Z.to_nat (len bs - off) < fuel)%nat ->
  fst (mapbs orc fuel m bs off (Some (ctx_new vals)) depth) <> OutOfFuel /\
  forall fuel', (fuel <= fuel')%nat ->
    mapbs orc fuel' m bs off (Some (ctx_new vals)) depth = mapbs orc fuel m bs off (Some (ctx_new vals)) depth.
Proof. exact FuelProofs.mapping_terminates. Qed.
Print Assumptions C26_terminates.

Definition t_pair : dtype := DStructure (meta_of "pair") BOLittle [member "a" d_uint8; member "b" d_uint16].
Definition t_pairs : dtype := DElems KSequence (elems_term "pairs" t_pair (VInt 0)) t_pair.

Example C26_example :
  everywhere sound t_pairs /\ create demo t_pairs None = Ok (Some (the_map t_pairs)) /\
  all_maps (takes_space demo) (the_map t_pairs) /\
  fst (mapbs demo 8 (the_map t_pairs) (bs [1; 2; 0; 3; 4; 0; 9]) 0 (Some (ctx_new [])) 0) = Raise ByteStreamTooSmallError.
Proof.
  split; [apply fine_sound; vm_compute; reflexivity|]. split; [vm_compute; reflexivity|].
  split; [|vm_compute; reflexivity].
  assert (T : takes demo (the_map t_pair) 3).
  { apply (exact_takes demo extensional_demo t_pair None); try (vm_compute; reflexivity).
    - apply fine_sound; vm_compute; reflexivity.
    - vm_compute; tauto. }
  assert (E : exists m, m = the_map t_pairs) by eauto. destruct E as [m E]. rewrite <- E. vm_compute in E. subst m.
  assert (E : exists m, m = the_map t_pair) by eauto. destruct E as [m E]. rewrite <- E in T. vm_compute in E. subst m.
  cbn [all_maps takes_space]. split; [|tauto].
  intros fuel b off vals depth v n O M. apply T in M; lia.
Qed.

(** C26. The number of iterations allowed has no influence on the outcome of a mapping that ends. *)
Theorem C26_fuel : forall orc m fuel fuel' bs off c depth r,
  mapbs orc fuel m bs off c depth = r -> fst r <> OutOfFuel -> (fuel <= fuel')%nat ->
  mapbs orc fuel' m bs off c depth = r.
Proof. exact FuelProofs.fuel_irrelevant. Qed.
Print Assumptions C26_fuel.

(** C26. A sequence whose elements consume nothing can be mapped forever. *)
Theorem C26_endless_refuted : exists d m b, everywhere sound d /\ create demo d None = Ok (Some m) /\
    forall fuel, fst (mapbs demo fuel m b 0 (Some (ctx_new [])) 0) = OutOfFuel.
Proof. exact DivergeProofs.endless_refuted. Qed.
Print Assumptions C26_endless_refuted.
