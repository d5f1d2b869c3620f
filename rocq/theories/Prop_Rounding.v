(** Rounding of numbers given for floats. *)
From Coq Require Import String Ascii List ZArith Bool Lia.
From Verif Require Import Base Ieee PyVal PyStruct DataTypes ClassFactory DataMaps SpecPrim Demo SpecMap SpecCreate DemoProofs SpecPrim SpecReads SpecRound RoundProofs.
Import ListNotations.
Open Scope string_scope.
Open Scope list_scope.
Open Scope Z_scope.

(** C04. A double that is not too large is folded to the single that stands for it: the nearest one, with ties to even, of the same sign; infinities and NaNs stay what they are. *)
Theorem C04_single_rounding : forall orc f,
  sized f 4 ->
  exists m, create orc (DFloat f) None = Ok (Some m) /\
    forall b c, 0 <= b < 2 ^ 64 -> ~ too_large_for_single b ->
      exists w, fst (foldbs orc m (VFloat b) c) = Ok (VBytes w) /\ len w = 4 /\
        forall s, narrowed b s <-> s = stored_number (order_on (o_host orc) (f_bo f)) w.
Proof. exact RoundProofs.single_rounding. Qed.
Print Assumptions C04_single_rounding.

(** 0.1, whose nearest single is 0x3dcccccd, and 2^-150, halfway between 0 and the smallest subnormal. *)
Example C04_example_rounding :
  ~ too_large_for_single 4591870180066957722 /\
  fst (foldbs demo (the_map (DFloat (fixed_of "float32" BOBig 4))) (VFloat 4591870180066957722) None)
    = Ok (VBytes (bs [61; 204; 204; 205])) /\
  fst (foldbs demo (the_map (DFloat (fixed_of "float32" BOBig 4))) (VFloat ((1023 - 150) * 2 ^ 52)) None)
    = Ok (VBytes (bs [0; 0; 0; 0])).
Proof. unfold too_large_for_single. split; [vm_compute; intuition congruence|]. split; vm_compute; reflexivity. Qed.

(** C04. An integer given for a float is folded like the nearest double, with ties to even, and rejected if it is too large for a double. *)
Theorem C04_integer_rounding : forall orc f n,
  In n [4; 8] -> sized f n ->
  exists m, create orc (DFloat f) None = Ok (Some m) /\
    forall z c,
      (too_large_for_double z -> fst (foldbs orc m (VInt z) c) = Raise FoldingError) /\
      (~ too_large_for_double z -> exists w,
         (forall w', nearest_double (integer_number z) w' /\ w' / 2 ^ 63 = (if z <? 0 then 1 else 0) <-> w' = w) /\
         fst (foldbs orc m (VInt z) c) = fst (foldbs orc m (VFloat w) c)).
Proof. exact RoundProofs.integer_rounding. Qed.
Print Assumptions C04_integer_rounding.

Example C04_example_integer :
  fst (foldbs demo (the_map (DFloat (fixed_of "float64" BOBig 8))) (VInt (2 ^ 53 + 1)) None)
    = Ok (VBytes (bs [67; 64; 0; 0; 0; 0; 0; 0])) /\
  fst (foldbs demo (the_map (DFloat (fixed_of "float64" BOBig 8))) (VInt (2 ^ 1024)) None) = Raise FoldingError /\
  too_large_for_double (2 ^ 1024) /\ ~ too_large_for_double (2 ^ 53 + 1).
Proof. split; [vm_compute; reflexivity|]. split; [vm_compute; reflexivity|]. split; vm_compute; intuition congruence. Qed.

(** C04. For a four byte float the result can therefore differ from the single nearest to the integer. *)
Theorem C04_integer_single_refuted : exists d m z w,
  d = DFloat (fixed_of "float32" BOBig 4) /\ create demo d None = Ok (Some m) /\
  fst (foldbs demo m (VInt z) None) = Ok (VBytes w) /\
  ~ nearest_single (integer_number z) (stored_number Big w).
Proof. exact RoundProofs.integer_single_refuted. Qed.
Print Assumptions C04_integer_single_refuted.
