(** Properties of the context that is passed to a map. *)
From Coq Require Import String Ascii List ZArith Bool Lia.
From Verif Require Import Base Ieee PyVal PyStruct DataTypes ClassFactory DataMaps SpecPrim Demo SpecMap SpecCreate DemoProofs UseProofs PrimProofs.
Import ListNotations.
Open Scope string_scope.
Open Scope list_scope.
Open Scope Z_scope.

(** C28. No context, a fresh one, or one left by successful mappings give the same outcome, and success reports the size and leaves no state. *)
Theorem C28_context : forall orc,
  extensional orc -> forall vals c, usable orc vals c ->
  forall fuel m bs off depth,
  fst (mapbs orc fuel m bs off c depth) = fst (mapbs orc fuel m bs off (Some (ctx_new vals)) depth) /\
  (forall v c', mapbs orc fuel m bs off c depth = (Ok v, c') ->
     (c = None -> c' = None) /\
     (c <> None -> exists x n, c' = Some x /\ c_state x = st_empty /\ c_byte_size x = Some n /\
        maps orc fuel m bs off vals depth v n)).
Proof. exact UseProofs.context_independence. Qed.
Print Assumptions C28_context.

Example C28_example :
  let d := DElems KSequence (elems_number_expr "q" d_uint16 "n") d_uint16 in
  let c := snd (mapbs demo 9 (the_map d) (bs [1; 2; 3; 4]) 0 (Some (ctx_new [("n", VInt 2)])) 0) in
  extensional demo /\ usable demo [("n", VInt 2)] c /\
  c <> Some (ctx_new [("n", VInt 2)]) /\
  fst (mapbs demo 9 (the_map d) (bs [1; 2; 3; 4; 5]) 1 c 0) = Ok (VTuple [VInt 770; VInt 1284]).
Proof.
  split; [exact extensional_demo|]. split; [|split; [vm_compute; discriminate|vm_compute; reflexivity]].
  eapply usable_run; [apply usable_new|vm_compute; reflexivity].
Qed.

(** C44. Mapping and size hints leave the values of the caller alone, except for __builtins__ with an expression for the number of elements. *)
Theorem C44_values : forall orc fuel m bs off c depth,
  alters m c (snd (mapbs orc fuel m bs off c depth)) /\ alters m c (snd (hint orc m off c)).
Proof. exact UseProofs.values_kept. Qed.
Print Assumptions C44_values.

Example C44_example :
  let d := DElems KSequence (elems_number_expr "q" d_uint16 "n") d_uint16 in
  option_map c_values (snd (mapbs demo 9 (the_map d) (bs [1; 2; 3; 4]) 0 (Some (ctx_new [("n", VInt 2)])) 0)) =
    Some [("n", VInt 2); ("__builtins__", VBuiltins)] /\
  option_map c_values (snd (hint demo (the_map d) 0 (Some (ctx_new [("n", VInt 2)])))) =
    Some [("n", VInt 2); ("__builtins__", VBuiltins)].
Proof. split; vm_compute; reflexivity. Qed.
