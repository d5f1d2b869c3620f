(** When values are equal. *)
From Coq Require Import String Ascii List ZArith Bool Lia.
From Verif Require Import Base Ieee PyVal SpecEqual EqualProofs.
Import ListNotations.
Open Scope string_scope.
Open Scope list_scope.
Open Scope Z_scope.

(** C47. Two values compare equal exactly if they stand for the same number, whatever their types, or have the same type and content. *)
Theorem C47_equality : forall v w, proper v -> proper w -> (py_eq v w = true <-> equal v w).
Proof. exact EqualProofs.equality. Qed.
Print Assumptions C47_equality.

Example C47_example :
  proper (VTuple [VInt 1; VFloat 4607182418800017408]) /\
  equal (VTuple [VInt 1; VFloat 4607182418800017408]) (VTuple [VBool true; VInt 1]) /\
  py_eq (VTuple [VInt 1; VFloat 4607182418800017408]) (VTuple [VBool true; VInt 1]) = true /\
  py_eq (VInt 9007199254740993) (VFloat 4845873199050653696) = false.
Proof.
  assert (P1 : proper (VTuple [VInt 1; VFloat 4607182418800017408])).
  { apply ProTuple. repeat constructor; cbn; lia. }
  assert (P2 : proper (VTuple [VBool true; VInt 1])).
  { apply ProTuple. repeat constructor. }
  split; [exact P1|]. split; [apply (proj1 (equality _ _ P1 P2)); vm_compute; reflexivity|].
  split; vm_compute; reflexivity.
Qed.
