(** A data size that is no multiple of the size of the elements. *)
From Coq Require Import String List ZArith Bool Lia.
From Verif Require Import Base Ieee PyVal PyStruct DataTypes ClassFactory DataMaps Expr Demo.
From Verif Require Import SpecPrim SpecMap SpecCreate SpecReads SpecViews DemoProofs ReadsWitness.
Import ListNotations.
Open Scope string_scope.
Open Scope list_scope.
Open Scope Z_scope.

(** C86: the stream takes the bytes that are left over, the sequence does not. *)
Lemma leftover_refuted : exists e f mq ms bs vals v k w k',
  everywhere regular (DElems KSequence e (DInteger f true)) /\ sized f 2 /\ e_terminator e = None /\
  create demo (DElems KSequence e (DInteger f true)) None = Ok (Some mq) /\
  create demo (DElems KStream e (DInteger f true)) None = Ok (Some ms) /\
  SpecMap.maps demo 9 mq bs 0 vals 0 v k /\ SpecMap.maps demo 9 ms bs 0 vals 0 w k' /\ k <> k'.
Proof.
  exists (elems_size_expr "t" d_uint16 "n"), (fixed_of "uint16" BOLittle 2).
  exists (the_map (DElems KSequence (elems_size_expr "t" d_uint16 "n") d_uint16)),
         (the_map (DElems KStream (elems_size_expr "t" d_uint16 "n") d_uint16)).
  exists (bs [1; 0; 2; 0]), [("n", VInt 3)], (VTuple [VInt 1]), 2, (VBytes (bs [1; 0; 2])), 3.
  split.
  { apply regular_check; vm_compute; reflexivity. }
  split; [vm_compute; auto|]. split; [reflexivity|]. split; [vm_compute; reflexivity|]. split; [vm_compute; reflexivity|].
  split; [eexists; split; vm_compute; reflexivity|]. split; [eexists; split; vm_compute; reflexivity|]. discriminate.
Qed.
