(** Struct format strings. *)
From Coq Require Import String Ascii List ZArith Bool Lia.
From Verif Require Import Base Ieee PyVal PyStruct DataTypes ClassFactory DataMaps SpecPrim Demo SpecMap SpecCreate DemoProofs FormatText SpecFormat FormatTextProofs FormatWitness DemoProofs.
Import ListNotations.
Open Scope string_scope.
Open Scope list_scope.
Open Scope Z_scope.

(** C55. The struct object that a map reads with is the one that struct compiles from the byte order and format strings that the map reports. *)
Theorem C55_operation : forall orc d m op,
  create orc d None = Ok (Some m) -> unpacks m ->
  operation m = Some op <->
  exists o s, byte_order_text m = Ok (Some o) /\ format_text m = Ok (Some s) /\
    compile_format (o_host orc) (String.append o s) = Some op.
Proof. exact FormatTextProofs.operation_text. Qed.
Print Assumptions C55_operation.

Example C55_example :
  create demo f_pair None = Ok (Some (the_map f_pair)) /\
  byte_order_text (the_map f_pair) = Ok (Some "<"%string) /\ format_text (the_map f_pair) = Ok (Some "IH"%string) /\
  operation (the_map f_pair) = Some (mkOp Little [(1, CI); (1, CH)]) /\
  compile_format Little "<IH"%string = Some (mkOp Little [(1, CI); (1, CH)]).
Proof.
  split; [vm_compute; reflexivity|]. split; [vm_compute; reflexivity|]. split; [vm_compute; reflexivity|].
  split; [vm_compute; reflexivity|]. vm_compute; reflexivity.
Qed.

(** C55. The size that struct calculates for the reported format is the byte size of the definition, if the elements of sequences are not made up of other types. *)
Theorem C55_size : forall orc d m o s n,
  everywhere sound d -> everywhere simple_elements d -> create orc d None = Ok (Some m) ->
  byte_order_text m = Ok (Some o) -> format_text m = Ok (Some s) -> get_byte_size d = Some n ->
  n <= 2 ^ 63 - 1 -> calcsize (o_host orc) (String.append o s) = Some n.
Proof. exact FormatTextProofs.format_size. Qed.
Print Assumptions C55_size.

Definition f_record : dtype :=
  DStructure (meta_of "record") BOLittle
    [member "kind" d_uint8; member "pair" f_pair; member "four" f_stream;
     member "many" (DElems KSequence (elems_number "many" d_uint32 12) d_uint32)].

Example C55_example_size :
  everywhere sound f_record /\ everywhere simple_elements f_record /\
  create demo f_record None = Ok (Some (the_map f_record)) /\
  format_text (the_map f_record) = Ok (Some "BIH4B12I"%string) /\ get_byte_size f_record = Some 59 /\
  calcsize Little "<BIH4B12I"%string = Some 59.
Proof.
  split; [apply fine_sound; vm_compute; reflexivity|].
  split. { cbn. repeat split; auto; discriminate. }
  split; [vm_compute; reflexivity|]. split; [vm_compute; reflexivity|]. split; [vm_compute; reflexivity|]. vm_compute; reflexivity.
Qed.

(** C55. Sequences of structures: the count applies to the first member only. *)
Theorem C55_structures_refuted : exists d m o s n k, everywhere sound d /\ create demo d None = Ok (Some m) /\
    byte_order_text m = Ok (Some o) /\ format_text m = Ok (Some s) /\ get_byte_size d = Some n /\
    calcsize Little (String.append o s) = Some k /\ k < n.
Proof. exact FormatWitness.structures_format_refuted. Qed.
Print Assumptions C55_structures_refuted.

(** C55. Sequences of streams: the two counts run together. *)
Theorem C55_streams_refuted : exists d m o s n k, everywhere sound d /\ create demo d None = Ok (Some m) /\
    byte_order_text m = Ok (Some o) /\ format_text m = Ok (Some s) /\ get_byte_size d = Some n /\
    calcsize Little (String.append o s) = Some k /\ n < k.
Proof. exact FormatWitness.streams_format_refuted. Qed.
Print Assumptions C55_streams_refuted.

(** C55. A format is reported for structures with conditional members, which have no fixed size. *)
Theorem C55_condition_refuted : exists d m o s k v n, everywhere sound d /\ everywhere simple_elements d /\ create demo d None = Ok (Some m) /\
    byte_order_text m = Ok (Some o) /\ format_text m = Ok (Some s) /\ get_byte_size d = None /\
    calcsize Little (String.append o s) = Some k /\
    SpecMap.maps demo 9 m (bs [0]) 0 [] 0 v n /\ n < k.
Proof. exact FormatWitness.condition_format_refuted. Qed.
Print Assumptions C55_condition_refuted.

(** C55. A format is reported for structures with members of different byte orders. *)
Theorem C55_order_refuted : exists d m o s op v n x, everywhere sound d /\ everywhere simple_elements d /\ create demo d None = Ok (Some m) /\
    byte_order_text m = Ok (Some o) /\ format_text m = Ok (Some s) /\
    compile_format Little (String.append o s) = Some op /\
    SpecMap.maps demo 9 m (bs [9; 8; 7; 6; 0; 0; 0; 1]) 0 [] 0 (VStruct "s" [("t", VBytes (bs [9; 8; 7; 6])); ("x", v)]) n /\
    read_from op (bs [9; 8; 7; 6; 0; 0; 0; 1]) = Ok [VInt 9; VInt 8; VInt 7; VInt 6; x] /\ v <> x.
Proof. exact FormatWitness.order_format_refuted. Qed.
Print Assumptions C55_order_refuted.
