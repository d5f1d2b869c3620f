(** C64: different bytes never map to the same value. *)
From Coq Require Import String Ascii List ZArith Bool Lia.
From Verif Require Import Base PyVal PyStruct DataTypes ClassFactory DataMaps Demo DemoProofs SpecPrim SpecMap SpecCreate SpecReads SpecFold SpecTell ReadsWitness TellProofs TellWitness.
Import ListNotations.
Open Scope string_scope.
Open Scope list_scope.
Open Scope Z_scope.

(** C64. Two streams that map at an offset to the same value have the same bytes there, as many as the value takes. *)
Theorem C64_tells : forall orc d m fuel fuel' bs bs' off vals depth depth' v n n',
  extensional orc -> everywhere regular d -> everywhere (telling orc) d ->
  create orc d None = Ok (Some m) -> 0 <= off <= len bs -> off <= len bs' ->
  maps orc fuel m bs off vals depth v n -> maps orc fuel' m bs' off vals depth' v n' ->
  everywhere no_single d \/ no_nan v ->
  n = n' /\ window bs off n = window bs' off n.
Proof. exact TellProofs.maps_tell. Qed.
Print Assumptions C64_tells.

Example C64_example :
  extensional demo /\ everywhere regular d_shape /\ everywhere (telling demo) d_shape /\
  create demo d_shape None = Ok (Some (the_map d_shape)) /\ everywhere no_single d_shape /\
  maps demo 20 (the_map d_shape) shape_bytes 0 [] 0 shape_value 12 /\
  maps demo 20 (the_map d_shape) (shape_bytes ++ bs [7; 8]) 0 [] 0 shape_value 12.
Proof.
  split; [exact extensional_demo|]. split; [exact shape_regular|]. split; [exact shape_telling|]. split; [exact shape_created|].
  split; [cbn; tauto|]. split; eexists; split; vm_compute; reflexivity.
Qed.

(** C64. A boolean without a true value, which is what a definition file gives by default, has many bytes for True. *)
Theorem C64_boolean_refuted : exists f m bs bs' v n, let d := DBoolean f (Some 0) None in
  everywhere regular d /\ create demo d None = Ok (Some m) /\
  maps demo 10 m bs 0 [] 0 v n /\ maps demo 10 m bs' 0 [] 0 v n /\ window bs 0 n <> window bs' 0 n.
Proof. exact TellWitness.tell_boolean_refuted. Qed.
Print Assumptions C64_boolean_refuted.

(** C64. A string with a size and a terminator drops what comes after the terminator. *)
Theorem C64_string_refuted : exists e el m bs bs' v n, let d := DElems KString e el in
  faithful demo (e_encoding e) /\ e_terminator e <> None /\ e_data_size e <> None /\
  everywhere regular d /\ create demo d None = Ok (Some m) /\
  maps demo 10 m bs 0 [] 0 v n /\ maps demo 10 m bs' 0 [] 0 v n /\ window bs 0 n <> window bs' 0 n.
Proof. exact TellWitness.tell_string_refuted. Qed.
Print Assumptions C64_string_refuted.

(** C64. A UUID of native byte order is mapped to None, whatever its bytes. *)
Theorem C64_uuid_refuted : exists f m bs bs' v n, let d := DUUID f in f_bo f = BONative /\
  everywhere regular d /\ create demo d None = Ok (Some m) /\
  maps demo 10 m bs 0 [] 0 v n /\ maps demo 10 m bs' 0 [] 0 v n /\ window bs 0 n <> window bs' 0 n.
Proof. exact TellWitness.tell_uuid_refuted. Qed.
Print Assumptions C64_uuid_refuted.

(** C64. Singles that are not numbers: a signalling one is mapped to the same double as a quiet one. *)
Theorem C64_nan_refuted : exists f m bs bs' v n, let d := DFloat f in f_size f = Some 4 /\
  everywhere regular d /\ create demo d None = Ok (Some m) /\
  maps demo 10 m bs 0 [] 0 v n /\ maps demo 10 m bs' 0 [] 0 v n /\ window bs 0 n <> window bs' 0 n.
Proof. exact TellWitness.tell_nan_refuted. Qed.
Print Assumptions C64_nan_refuted.
