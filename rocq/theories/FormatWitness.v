(** Maps whose struct format string does not describe their bytes. *)
From Coq Require Import String List ZArith Bool Lia.
From Verif Require Import Base PyVal PyStruct DataTypes ClassFactory DataMaps FormatText Expr Codec Demo SpecPrim SpecMap SpecCreate SpecFormat MapProofs DemoProofs.
Import ListNotations.
Open Scope Z_scope.
Open Scope string_scope.
Open Scope list_scope.

(** Three structures of six bytes: '3IH' is fourteen bytes. *)
Definition f_pair : dtype := DStructure (meta_of "pair") BOLittle [member "a" d_uint32; member "b" d_uint16].
Definition f_pairs : dtype := DElems KSequence (elems_number "pairs" f_pair 3) f_pair.

Lemma structures_format_refuted :
  exists d m o s n k, everywhere sound d /\ create demo d None = Ok (Some m) /\
    byte_order_text m = Ok (Some o) /\ format_text m = Ok (Some s) /\ get_byte_size d = Some n /\
    calcsize Little (String.append o s) = Some k /\ k < n.
Proof.
  exists f_pairs, (the_map f_pairs), "<"%string, "3IH"%string, 18, 14.
  split; [apply fine_sound; vm_compute; reflexivity|]. split; [vm_compute; reflexivity|].
  split; [vm_compute; reflexivity|]. split; [vm_compute; reflexivity|]. split; [vm_compute; reflexivity|].
  split; [vm_compute; reflexivity|]. lia.
Qed.

(** Three streams of four bytes: '34B' is thirty-four bytes. *)
Definition f_stream : dtype := DElems KStream (elems_size "four" d_uint8 4) d_uint8.
Definition f_streams : dtype := DElems KSequence (elems_number "fours" f_stream 3) f_stream.

Lemma streams_format_refuted :
  exists d m o s n k, everywhere sound d /\ create demo d None = Ok (Some m) /\
    byte_order_text m = Ok (Some o) /\ format_text m = Ok (Some s) /\ get_byte_size d = Some n /\
    calcsize Little (String.append o s) = Some k /\ n < k.
Proof.
  exists f_streams, (the_map f_streams), "<"%string, "34B"%string, 12, 34.
  split; [apply fine_sound; vm_compute; reflexivity|]. split; [vm_compute; reflexivity|].
  split; [vm_compute; reflexivity|]. split; [vm_compute; reflexivity|]. split; [vm_compute; reflexivity|].
  split; [vm_compute; reflexivity|]. lia.
Qed.

(** A conditional member is part of the format, whether it is there or not. *)
Definition f_cond : dtype :=
  DStructure (meta_of "s") BOLittle [member "n" d_uint8; member_if "x" "s.n == 1" d_uint32].

Lemma condition_format_refuted :
  exists d m o s k v n, everywhere sound d /\ everywhere simple_elements d /\ create demo d None = Ok (Some m) /\
    byte_order_text m = Ok (Some o) /\ format_text m = Ok (Some s) /\ get_byte_size d = None /\
    calcsize Little (String.append o s) = Some k /\
    SpecMap.maps demo 9 m (bs [0]) 0 [] 0 v n /\ n < k.
Proof.
  exists f_cond, (the_map f_cond), "<"%string, "BI"%string, 5. do 2 eexists.
  split; [apply fine_sound; vm_compute; reflexivity|]. split; [cbn; tauto|]. split; [vm_compute; reflexivity|].
  split; [vm_compute; reflexivity|]. split; [vm_compute; reflexivity|]. split; [vm_compute; reflexivity|].
  split; [vm_compute; reflexivity|]. split; [eexists; split; [vm_compute; reflexivity|vm_compute; reflexivity]|]. reflexivity.
Qed.

(** A member of the other byte order is not read with the byte order that is
    reported. *)
Definition f_orders : dtype :=
  DStructure (meta_of "s") BOLittle [member "t" f_stream; member "x" d_int32be].

Lemma order_format_refuted :
  exists d m o s op v n x, everywhere sound d /\ everywhere simple_elements d /\ create demo d None = Ok (Some m) /\
    byte_order_text m = Ok (Some o) /\ format_text m = Ok (Some s) /\
    compile_format Little (String.append o s) = Some op /\
    SpecMap.maps demo 9 m (bs [9; 8; 7; 6; 0; 0; 0; 1]) 0 [] 0 (VStruct "s" [("t", VBytes (bs [9; 8; 7; 6])); ("x", v)]) n /\
    read_from op (bs [9; 8; 7; 6; 0; 0; 0; 1]) = Ok [VInt 9; VInt 8; VInt 7; VInt 6; x] /\ v <> x.
Proof.
  exists f_orders, (the_map f_orders), "<"%string, "4Bi"%string, (mkOp Little [(4, CB); (1, Ci)]), (VInt 1), 8, (VInt 16777216).
  split; [apply fine_sound; vm_compute; reflexivity|]. split; [cbn; tauto|]. split; [vm_compute; reflexivity|].
  split; [vm_compute; reflexivity|]. split; [vm_compute; reflexivity|]. split; [vm_compute; reflexivity|].
  split; [eexists; split; [vm_compute; reflexivity|vm_compute; reflexivity]|].
  split; [vm_compute; reflexivity|]. discriminate.
Qed.
