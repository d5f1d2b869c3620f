(** Properties of the primitive types and UUIDs. *)
From Coq Require Import String Ascii List ZArith Bool Lia.
From Verif Require Import Base Ieee PyVal PyStruct DataTypes ClassFactory DataMaps SpecPrim Demo PrimProofs IeeeProofs.
Import ListNotations.
Open Scope string_scope.
Open Scope list_scope.
Open Scope Z_scope.

(** C01. Mapping an integer of 1, 2, 4 or 8 bytes returns the positional value, in two's complement if signed, of the bytes at the offset, in the byte order of the definition. *)
Theorem C01_integer_value : forall orc f u n,
  In n [1; 2; 4; 8] -> sized f n ->
  exists m, create orc (DInteger f u) None = Ok (Some m) /\
    forall fuel bs off c depth, 0 <= off -> off + n <= len bs ->
      fst (mapbs orc fuel m bs off c depth) =
      Ok (VInt (stored_integer (negb u) (order_on (o_host orc) (f_bo f)) (window bs off n))).
Proof. exact PrimProofs.integer_map_value. Qed.
Print Assumptions C01_integer_value.

(** A signed big-endian integer at offset 1: hypotheses and outcome. *)
Example C01_example :
  In 4 [1; 2; 4; 8] /\ sized (fixed_of "int32be" BOBig 4) 4 /\
  0 <= 1 /\ 1 + 4 <= len (bs [7; 255; 255; 255; 254; 9]) /\
  run d_int32be (bs [7; 255; 255; 255; 254; 9]) 1 = (Ok (VInt (-2)), Some 4) /\
  stored_integer true Big (window (bs [7; 255; 255; 255; 254; 9]) 1 4) = -2.
Proof. repeat split; vm_compute; intuition congruence. Qed.

(** C02. Fold then map returns the integer, with any bytes around it; map then fold returns the bytes. *)
Theorem C02_integer_round_trip : forall orc f u n,
  In n [1; 2; 4; 8] -> sized f n ->
  exists m, create orc (DInteger f u) None = Ok (Some m) /\
    (forall z c, in_range (negb u) n z ->
       exists b, fst (foldbs orc m (VInt z) c) = Ok (VBytes b) /\ len b = n /\
         forall fuel pre post c' depth,
           fst (mapbs orc fuel m (pre ++ b ++ post) (len pre) c' depth) = Ok (VInt z)) /\
    (forall fuel bs off c depth c', 0 <= off -> off + n <= len bs ->
       exists v, fst (mapbs orc fuel m bs off c depth) = Ok v /\
         fst (foldbs orc m v c') = Ok (VBytes (window bs off n))).
Proof. exact PrimProofs.integer_round_trip. Qed.
Print Assumptions C02_integer_round_trip.

Example C02_example :
  in_range true 4 (-2) /\
  fst (foldbs demo (the_map d_int32be) (VInt (-2)) None) = Ok (VBytes (bs [255; 255; 255; 254])) /\
  run d_int32be (bs [1; 2] ++ bs [255; 255; 255; 254] ++ bs [3]) 2 = (Ok (VInt (-2)), Some 4).
Proof. repeat split; vm_compute; intuition congruence. Qed.

(** C03. Folding succeeds exactly for integers (bool included) in the range of the type, and the bytes written store the value; any other value raises FoldingError. *)
Theorem C03_integer_fold_exact : forall orc f u n,
  In n [1; 2; 4; 8] -> sized f n ->
  exists m, create orc (DInteger f u) None = Ok (Some m) /\
    forall v c,
      ((exists z, as_integer v = Some z /\ in_range (negb u) n z) ->
         exists b z, fst (foldbs orc m v c) = Ok (VBytes b) /\ len b = n /\
           as_integer v = Some z /\
           stored_integer (negb u) (order_on (o_host orc) (f_bo f)) b = z) /\
      (~ (exists z, as_integer v = Some z /\ in_range (negb u) n z) ->
         fst (foldbs orc m v c) = Raise FoldingError).
Proof. exact PrimProofs.integer_fold_exact. Qed.
Print Assumptions C03_integer_fold_exact.

Example C03_example :
  in_range false 2 65535 /\ ~ in_range false 2 65536 /\
  fst (foldbs demo (the_map d_uint16) (VInt 65535) None) = Ok (VBytes (bs [255; 255])) /\
  fst (foldbs demo (the_map d_uint16) (VInt 65536) None) = Raise FoldingError /\
  fst (foldbs demo (the_map d_uint16) (VStr [49]) None) = Raise FoldingError.
Proof. repeat split; vm_compute; intuition congruence. Qed.

(** C04. Eight byte floats: the bit pattern is carried both ways, NaNs and signed zeros included. *)
Theorem C04_double_bits : forall orc f,
  sized f 8 ->
  exists m, create orc (DFloat f) None = Ok (Some m) /\
    (forall fuel bs off c depth, 0 <= off -> off + 8 <= len bs ->
       fst (mapbs orc fuel m bs off c depth) =
       Ok (VFloat (stored_number (order_on (o_host orc) (f_bo f)) (window bs off 8)))) /\
    (forall b c, 0 <= b < 2 ^ 64 ->
       exists w, fst (foldbs orc m (VFloat b) c) = Ok (VBytes w) /\ len w = 8 /\
       forall fuel pre post c' depth,
         fst (mapbs orc fuel m (pre ++ w ++ post) (len pre) c' depth) = Ok (VFloat b)) /\
    (forall fuel bs off c depth c', 0 <= off -> off + 8 <= len bs ->
       exists v, fst (mapbs orc fuel m bs off c depth) = Ok v /\
         fst (foldbs orc m v c') = Ok (VBytes (window bs off 8))).
Proof. exact IeeeProofs.double_behaviour. Qed.
Print Assumptions C04_double_bits.

(** The pattern of a signalling NaN and of 1.0. *)
Example C04_example_double :
  run (DFloat (fixed_of "float64" BOBig 8)) (bs [127; 240; 0; 0; 0; 0; 0; 1]) 0
    = (Ok (VFloat 9218868437227405313), Some 8) /\
  fst (foldbs demo (the_map (DFloat (fixed_of "float64" BOBig 8))) (VFloat 4607182418800017408) None)
    = Ok (VBytes (bs [63; 240; 0; 0; 0; 0; 0; 0])).
Proof. split; vm_compute; reflexivity. Qed.

(** C04. Four byte floats: map then fold returns the four bytes unless they hold a signalling NaN; folding a double is rejected exactly when it is finite and rounds beyond the largest single. *)
Theorem C04_single_bits : forall orc f,
  sized f 4 ->
  exists m, create orc (DFloat f) None = Ok (Some m) /\
    (forall fuel bs off c depth c', 0 <= off -> off + 4 <= len bs ->
       ~ signalling_single (stored_number (order_on (o_host orc) (f_bo f)) (window bs off 4)) ->
       exists v, fst (mapbs orc fuel m bs off c depth) = Ok v /\
         fst (foldbs orc m v c') = Ok (VBytes (window bs off 4))) /\
    (forall b c, 0 <= b < 2 ^ 64 ->
       (fst (foldbs orc m (VFloat b) c) = Raise FoldingError <-> too_large_for_single b)).
Proof. exact IeeeProofs.single_behaviour. Qed.
Print Assumptions C04_single_bits.

(** 1.5 and the smallest subnormal single; 1e39 is too large. *)
Example C04_example_single :
  ~ signalling_single 1069547520 /\ ~ signalling_single 1 /\
  run (DFloat (fixed_of "float32" BOBig 4)) (bs [63; 192; 0; 0]) 0
    = (Ok (VFloat 4609434218613702656), Some 4) /\
  too_large_for_single 5190325713277999172 /\
  fst (foldbs demo (the_map (DFloat (fixed_of "float32" BOBig 4))) (VFloat 5190325713277999172) None)
    = Raise FoldingError /\
  ~ too_large_for_single 4609434218613702656.
Proof. unfold signalling_single, too_large_for_single. repeat split; vm_compute; intuition congruence. Qed.

(** C05. Which stored numbers map to False, to True or to MappingError; what folding writes; fold then map. *)
Theorem C05_boolean_values : forall orc f fv tv n,
  In n [1; 2; 4] -> sized f n -> (fv <> None \/ tv <> None) ->
  exists m, create orc (DBoolean f fv tv) None = Ok (Some m) /\
    (forall fuel bs off c depth, 0 <= off -> off + n <= len bs ->
       let z := stored_number (order_on (o_host orc) (f_bo f)) (window bs off n) in
       let r := fst (mapbs orc fuel m bs off c depth) in
       (r = Ok (VBool false) <-> stands_for_false fv tv z) /\
       (r = Ok (VBool true) <-> stands_for_true fv tv z) /\
       (r = Raise MappingError <-> ~ stands_for_false fv tv z /\ ~ stands_for_true fv tv z) /\
       (r = Ok (VBool false) \/ r = Ok (VBool true) \/ r = Raise MappingError)) /\
    (forall v c,
       match v with
       | VBool b =>
           match (if b then tv else fv) with
           | Some z =>
               (in_range false n z -> exists w, fst (foldbs orc m v c) = Ok (VBytes w) /\ len w = n /\
                  stored_number (order_on (o_host orc) (f_bo f)) w = z) /\
               (~ in_range false n z -> fst (foldbs orc m v c) = Raise FoldingError)
           | None => fst (foldbs orc m v c) = Raise FoldingError
           end
       | _ => fst (foldbs orc m v c) = Raise FoldingError
       end) /\
    (fv <> tv ->
     forall b w c, fst (foldbs orc m (VBool b) c) = Ok (VBytes w) ->
       forall fuel pre post c' depth,
         fst (mapbs orc fuel m (pre ++ w ++ post) (len pre) c' depth) = Ok (VBool b)).
Proof. exact PrimProofs.boolean_behaviour. Qed.
Print Assumptions C05_boolean_values.

Example C05_example :
  let d := DBoolean (fixed_of "bool32" BOLittle 4) (Some 0) (Some 3) in
  stands_for_true (Some 0) (Some 3) 3 /\ Some 0 <> Some 3 /\
  run d (bs [3; 0; 0; 0]) 0 = (Ok (VBool true), Some 4) /\
  fst (run d (bs [2; 0; 0; 0]) 0) = Raise MappingError /\
  fst (foldbs demo (the_map d) (VBool true) None) = Ok (VBytes (bs [3; 0; 0; 0])).
Proof. unfold stands_for_true. repeat split; try (vm_compute; reflexivity); intuition congruence. Qed.

(** C06. Characters map to the code point stored as a signed number; negative or too large numbers are rejected; fold then map is the identity; in one byte only code points up to 0x7f exist. *)
Theorem C06_character_values : forall orc f n,
  In n [1; 2; 4] -> sized f n ->
  exists m, create orc (DCharacter f) None = Ok (Some m) /\
    (forall fuel bs off c depth, 0 <= off -> off + n <= len bs ->
       let z := stored_integer true (order_on (o_host orc) (f_bo f)) (window bs off n) in
       (code_point z -> fst (mapbs orc fuel m bs off c depth) = Ok (VStr [z])) /\
       (~ code_point z -> fst (mapbs orc fuel m bs off c depth) = Raise MappingError)) /\
    (forall z b c, code_point z -> fst (foldbs orc m (VStr [z]) c) = Ok b ->
       exists w, b = VBytes w /\ len w = n /\
       forall fuel pre post c' depth,
         fst (mapbs orc fuel m (pre ++ w ++ post) (len pre) c' depth) = Ok (VStr [z])) /\
    (forall z c, code_point z ->
       (in_range true n z <-> exists b, fst (foldbs orc m (VStr [z]) c) = Ok b)) /\
    (n = 1 -> forall fuel bs off c depth x, 0 <= off -> nth_error bs (Z.to_nat off) = Some x ->
       127 < byteZ x -> fst (mapbs orc fuel m bs off c depth) = Raise MappingError).
Proof. exact PrimProofs.character_behaviour. Qed.
Print Assumptions C06_character_values.

Example C06_example :
  code_point 65 /\ run d_char (bs [65]) 0 = (Ok (VStr [65]), Some 1) /\
  fst (run d_char (bs [200]) 0) = Raise MappingError /\
  fst (foldbs demo (the_map d_char) (VStr [65]) None) = Ok (VBytes (bs [65])).
Proof. unfold code_point. repeat split; vm_compute; intuition congruence. Qed.

(** C07. Layout and round trips of UUIDs per byte order; None for the native byte order. *)
Theorem C07_uuid : forall orc f,
  sized f 16 ->
  exists m, create orc (DUUID f) None = Ok (Some m) /\
    (forall fuel bs off c depth, 0 <= off -> off + 16 <= len bs ->
       match f_bo f with
       | BOBig => fst (mapbs orc fuel m bs off c depth) = Ok (VUUID (window bs off 16))
       | BOLittle => exists u, swap_fields (window bs off 16) = Some u /\
           fst (mapbs orc fuel m bs off c depth) = Ok (VUUID u)
       | BONative => fst (mapbs orc fuel m bs off c depth) = Ok VNone
       end) /\
    (forall u c, len u = 16 ->
       match f_bo f with
       | BONative => fst (foldbs orc m (VUUID u) c) = Ok VNone
       | _ => exists b, fst (foldbs orc m (VUUID u) c) = Ok (VBytes b) /\ len b = 16 /\
           forall fuel pre post c' depth,
             fst (mapbs orc fuel m (pre ++ b ++ post) (len pre) c' depth) = Ok (VUUID u)
       end) /\
    (f_bo f <> BONative ->
     forall fuel bs off c depth c' v, 0 <= off -> off + 16 <= len bs ->
       fst (mapbs orc fuel m bs off c depth) = Ok v ->
       fst (foldbs orc m v c') = Ok (VBytes (window bs off 16))).
Proof. exact PrimProofs.uuid_behaviour. Qed.
Print Assumptions C07_uuid.

Example C07_example :
  let b := bs [0; 1; 2; 3; 4; 5; 6; 7; 8; 9; 10; 11; 12; 13; 14; 15] in
  let d := DUUID (fixed_of "uuid" BOLittle 16) in
  sized (fixed_of "uuid" BOLittle 16) 16 /\
  run d b 0 = (Ok (VUUID (bs [3; 2; 1; 0; 5; 4; 7; 6; 8; 9; 10; 11; 12; 13; 14; 15])), Some 16) /\
  swap_fields b = Some (bs [3; 2; 1; 0; 5; 4; 7; 6; 8; 9; 10; 11; 12; 13; 14; 15]).
Proof. repeat split; vm_compute; reflexivity. Qed.
