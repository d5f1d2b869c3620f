(** What maps and does not fold back. *)
From Coq Require Import String List ZArith Bool Lia.
From Verif Require Import Base PyVal PyStruct DataTypes ClassFactory DataMaps Expr Codec Demo SpecPrim SpecMap SpecCreate SpecFold DemoProofs.
Import ListNotations.
Open Scope Z_scope.
Open Scope string_scope.
Open Scope list_scope.

Definition a_single : dtype :=
  DStructure (meta_of "singles") BOLittle [member "a" (DFloat (fixed_of "float32" BOLittle 4))].

Lemma signalling_refuted :
  exists d m b v n, everywhere sound d /\ folds_back demo d /\ create demo d None = Ok (Some m) /\
    maps demo 9 m b 0 [] 0 v n /\
    exists b', fst (foldbs demo m v None) = Ok (VBytes b') /\ b' <> window b 0 n.
Proof.
  exists a_single, (the_map a_single), (bs [1; 0; 128; 127]). do 2 eexists.
  split; [apply fine_sound; vm_compute; reflexivity|]. split; [cbn; tauto|]. split; [vm_compute; reflexivity|].
  split; [eexists; split; vm_compute; reflexivity|].
  eexists. split; [vm_compute; reflexivity|]. vm_compute. discriminate.
Qed.

(** A stream in a nested structure, sized by a member of the enclosing one. *)
Definition an_inner : dtype :=
  DStructure (meta_of "inner") BOLittle
    [member "data" (DElems KStream (elems_size_expr "data" d_uint8 "outer.n") d_uint8)].
Definition an_outer : dtype :=
  DStructure (meta_of "outer") BOLittle [member "n" d_uint8; member "sub" an_inner].

Lemma enclosing_refuted :
  exists d m b v n, everywhere sound d /\ folds_back demo d /\ everywhere no_single d /\
    create demo d None = Ok (Some m) /\ maps demo 9 m b 0 [] 0 v n /\
    fst (foldbs demo m v None) = Raise MappingError.
Proof.
  exists an_outer, (the_map an_outer), (bs [2; 65; 66]). do 2 eexists.
  split; [apply fine_sound; vm_compute; reflexivity|]. split; [cbn; tauto|]. split; [cbn; tauto|].
  split; [vm_compute; reflexivity|].
  split; [eexists; split; vm_compute; reflexivity|]. vm_compute. reflexivity.
Qed.

(** A stream in a structure, sized by a value of the caller. *)
Definition a_called : dtype :=
  DStructure (meta_of "called") BOLittle
    [member "data" (DElems KStream (elems_size_expr "data" d_uint8 "size") d_uint8)].

Lemma caller_refuted :
  exists d m b vals v n, everywhere sound d /\ folds_back demo d /\ everywhere no_single d /\
    create demo d None = Ok (Some m) /\ maps demo 9 m b 0 vals 0 v n /\
    fst (foldbs demo m v (Some (ctx_new vals))) = Raise MappingError.
Proof.
  exists a_called, (the_map a_called), (bs [65; 66]), [("size", VInt 2)]. do 2 eexists.
  split; [apply fine_sound; vm_compute; reflexivity|]. split; [cbn; tauto|]. split; [cbn; tauto|].
  split; [vm_compute; reflexivity|].
  split; [eexists; split; vm_compute; reflexivity|]. vm_compute. reflexivity.
Qed.
