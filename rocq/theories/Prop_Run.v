(** C86: a sequence of integers and a stream of them take the same bytes. *)
From Coq Require Import String Ascii List ZArith Bool Lia.
From Verif Require Import Base PyVal PyStruct DataTypes ClassFactory DataMaps Expr Demo SpecPrim SpecMap SpecCreate SpecReads SpecViews RunProofs RunWitness DemoProofs ReadsWitness.
Import ListNotations.
Open Scope string_scope.
Open Scope list_scope.
Open Scope Z_scope.

(** C86. The sequence is mapped exactly if the stream is; its numbers are in the bytes of the stream one after another. *)
Theorem C86_stream : forall orc e f u n mq ms bs off vals depth v k,
  extensional orc -> everywhere regular (DElems KSequence e (DInteger f u)) ->
  In n [1; 2; 4; 8] -> sized f n -> e_terminator e = None -> (e_data_size_expr e = None \/ n = 1) ->
  create orc (DElems KSequence e (DInteger f u)) None = Ok (Some mq) ->
  create orc (DElems KStream e (DInteger f u)) None = Ok (Some ms) ->
  0 <= off <= len bs -> depth <= 10 ->
  ((exists fuel, SpecMap.maps orc fuel mq bs off vals depth v k) <->
   exists w vs, v = VTuple vs /\
     made_of (negb u) (order_on (o_host orc) (inherited (e_bo e) (f_bo f))) n w vs /\
     exists fuel, SpecMap.maps orc fuel ms bs off vals depth (VBytes w) k).
Proof. exact RunProofs.sequence_as_stream. Qed.
Print Assumptions C86_stream.

Example C86_example :
  let f := fixed_of "int16" BONative 2 in
  let e := mkElems (meta_of "t") BOBig None None (Some "int16") None None (Some "n * 2") "utf8" in
  let b := bs [9; 1; 2; 255; 254; 7] in
  everywhere regular (DElems KSequence e (DInteger f false)) /\ sized f 2 /\ e_terminator e = None /\
  made_of true (order_on (o_host demo) (inherited BOBig BONative)) 2 (bs [1; 2; 255; 254]) [VInt 258; VInt (-2)] /\
  SpecMap.maps demo 9 (the_map (DElems KSequence e (DInteger f false))) b 1 [("n", VInt 1)] 0 (VTuple [VInt 258; VInt (-2)]) 4 /\
  SpecMap.maps demo 9 (the_map (DElems KStream e (DInteger f false))) b 1 [("n", VInt 1)] 0 (VBytes (bs [1; 2; 255; 254])) 4.
Proof.
  cbn zeta. split; [apply regular_check; vm_compute; reflexivity|]. split; [vm_compute; auto|]. split; [reflexivity|].
  split; [exact (made_of_number true Big 2 (bs [1; 2]) (bs [255; 254]) [VInt (-2)] eq_refl
                  (made_of_number true Big 2 (bs [255; 254]) [] [] eq_refl (made_of_nothing true Big 2)))|].
  split; eexists; split; vm_compute; reflexivity.
Qed.

(** C86. With a data size that is no multiple of the size of the integers the stream takes more bytes than the sequence. *)
Theorem C86_leftover_refuted : exists e f mq ms bs vals v k w k',
  everywhere regular (DElems KSequence e (DInteger f true)) /\ sized f 2 /\ e_terminator e = None /\
  create demo (DElems KSequence e (DInteger f true)) None = Ok (Some mq) /\
  create demo (DElems KStream e (DInteger f true)) None = Ok (Some ms) /\
  SpecMap.maps demo 9 mq bs 0 vals 0 v k /\ SpecMap.maps demo 9 ms bs 0 vals 0 w k' /\ k <> k'.
Proof. exact RunWitness.leftover_refuted. Qed.
Print Assumptions C86_leftover_refuted.
