(** C85: numbers of different types in the same bytes agree with each other. *)
From Coq Require Import String Ascii List ZArith Bool Lia.
From Verif Require Import Base PyVal PyStruct DataTypes ClassFactory DataMaps Expr Demo SpecPrim SpecMap SpecCreate SpecReads SpecViews ViewsProofs DemoProofs.
Import ListNotations.
Open Scope string_scope.
Open Scope list_scope.
Open Scope Z_scope.

(** C85. The unsigned integer is mapped exactly if the signed one is, which is its two's complement. *)
Theorem C85_sign : forall orc f f' n m m' bs off vals depth z,
  extensional orc -> In n [1; 2; 4; 8] -> sized f n -> sized f' n -> same_order (o_host orc) f f' ->
  create orc (DInteger f true) None = Ok (Some m) -> create orc (DInteger f' false) None = Ok (Some m') ->
  0 <= off <= len bs -> depth <= 11 ->
  ((exists fuel, SpecMap.maps orc fuel m bs off vals depth (VInt z) n) <->
   0 <= z < 2 ^ (8 * n) /\ exists fuel, SpecMap.maps orc fuel m' bs off vals depth (VInt (twos_complement n z)) n).
Proof. exact ViewsProofs.views_sign. Qed.
Print Assumptions C85_sign.

Example C85_example_sign :
  let f := fixed_of "uint16" BOBig 2 in let f' := fixed_of "int16" BOBig 2 in let b := bs [9; 255; 254] in
  sized f 2 /\ sized f' 2 /\ same_order (o_host demo) f f' /\
  run (DInteger f true) b 1 = (Ok (VInt 65534), Some 2) /\
  run (DInteger f' false) b 1 = (Ok (VInt (-2)), Some 2) /\ twos_complement 2 65534 = -2.
Proof. repeat split; vm_compute; reflexivity. Qed.

(** C85. An integer is made of the two integers of half its size at its place. *)
Theorem C85_halves : forall orc f g h u n m mh ml bs off vals depth z,
  extensional orc -> In n [1; 2; 4] -> sized f (2 * n) -> sized g n -> sized h n ->
  same_order (o_host orc) f g -> same_order (o_host orc) f h ->
  create orc (DInteger f u) None = Ok (Some m) ->
  create orc (DInteger g u) None = Ok (Some mh) -> create orc (DInteger h true) None = Ok (Some ml) ->
  0 <= off -> off + 2 * n <= len bs -> depth <= 11 ->
  let en := order_on (o_host orc) (f_bo f) in
  ((exists fuel, SpecMap.maps orc fuel m bs off vals depth (VInt z) (2 * n)) <->
   exists a b, z = a * 2 ^ (8 * n) + b /\
     (exists fuel, SpecMap.maps orc fuel mh bs (high_half en off n) vals depth (VInt a) n) /\
     (exists fuel, SpecMap.maps orc fuel ml bs (low_half en off n) vals depth (VInt b) n)).
Proof. exact ViewsProofs.views_halves. Qed.
Print Assumptions C85_halves.

Example C85_example_halves :
  let f := fixed_of "int32" BOLittle 4 in let g := fixed_of "int16" BOLittle 2 in let h := fixed_of "uint16" BOLittle 2 in
  let b := bs [9; 1; 128; 254; 255] in
  sized f (2 * 2) /\ sized g 2 /\ sized h 2 /\ same_order (o_host demo) f g /\ same_order (o_host demo) f h /\
  run (DInteger f false) b 1 = (Ok (VInt (-98303)), Some 4) /\
  run (DInteger g false) b (high_half Little 1 2) = (Ok (VInt (-2)), Some 2) /\
  run (DInteger h true) b (low_half Little 1 2) = (Ok (VInt 32769), Some 2) /\
  -98303 = -2 * 2 ^ 16 + 32769.
Proof. repeat split; vm_compute; reflexivity. Qed.

(** C85. A character is mapped exactly if the signed integer at its place is a code point, which is its code. *)
Theorem C85_character : forall orc f f' n m m' bs off vals depth z,
  extensional orc -> In n [1; 2; 4] -> sized f n -> sized f' n -> same_order (o_host orc) f f' ->
  create orc (DCharacter f) None = Ok (Some m) -> create orc (DInteger f' false) None = Ok (Some m') ->
  0 <= off <= len bs -> depth <= 11 ->
  ((exists fuel, SpecMap.maps orc fuel m bs off vals depth (VStr [z]) n) <->
   code_point z /\ exists fuel, SpecMap.maps orc fuel m' bs off vals depth (VInt z) n).
Proof. exact ViewsProofs.views_character. Qed.
Print Assumptions C85_character.

Example C85_example_character :
  run (DCharacter (fixed_of "wchar" BOBig 2)) (bs [32; 172]) 0 = (Ok (VStr [8364]), Some 2) /\
  run (DInteger (fixed_of "int16" BOBig 2) false) (bs [32; 172]) 0 = (Ok (VInt 8364), Some 2) /\ code_point 8364.
Proof. unfold code_point. repeat split; try (vm_compute; reflexivity); lia. Qed.

(** C85. A boolean is mapped exactly if the unsigned integer at its place stands for it. *)
Theorem C85_boolean : forall orc f f' fv tv n m m' bs off vals depth b,
  extensional orc -> In n [1; 2; 4] -> sized f n -> sized f' n -> same_order (o_host orc) f f' ->
  create orc (DBoolean f fv tv) None = Ok (Some m) -> create orc (DInteger f' true) None = Ok (Some m') ->
  0 <= off <= len bs -> depth <= 11 ->
  ((exists fuel, SpecMap.maps orc fuel m bs off vals depth (VBool b) n) <->
   exists z, (if b : bool then stands_for_true fv tv z else stands_for_false fv tv z) /\
     exists fuel, SpecMap.maps orc fuel m' bs off vals depth (VInt z) n).
Proof. exact ViewsProofs.views_boolean. Qed.
Print Assumptions C85_boolean.

Example C85_example_boolean :
  run (DBoolean (fixed_of "bool16" BOBig 2) (Some 0) None) (bs [1; 0]) 0 = (Ok (VBool true), Some 2) /\
  run (DInteger (fixed_of "uint16" BOBig 2) true) (bs [1; 0]) 0 = (Ok (VInt 256), Some 2) /\
  stands_for_true (Some 0) None 256.
Proof. split; [vm_compute; reflexivity|]. split; [vm_compute; reflexivity|]. unfold stands_for_true. intuition congruence. Qed.

(** C85. The bits of a double are the unsigned integer at its place. *)
Theorem C85_double : forall orc f f' m m' bs off vals depth z,
  extensional orc -> sized f 8 -> sized f' 8 -> same_order (o_host orc) f f' ->
  create orc (DFloat f) None = Ok (Some m) -> create orc (DInteger f' true) None = Ok (Some m') ->
  0 <= off <= len bs -> depth <= 11 ->
  ((exists fuel, SpecMap.maps orc fuel m bs off vals depth (VFloat z) 8) <->
   exists fuel, SpecMap.maps orc fuel m' bs off vals depth (VInt z) 8).
Proof. exact ViewsProofs.views_double. Qed.
Print Assumptions C85_double.

Example C85_example_double :
  run (DFloat (fixed_of "float64" BOBig 8)) (bs [63; 248; 0; 0; 0; 0; 0; 0]) 0 = (Ok (VFloat 4609434218613702656), Some 8) /\
  run (DInteger (fixed_of "uint64" BOBig 8) true) (bs [63; 248; 0; 0; 0; 0; 0; 0]) 0 = (Ok (VInt 4609434218613702656), Some 8).
Proof. split; vm_compute; reflexivity. Qed.

(** C85. What is mapped from bytes in one byte order is mapped from the bytes backwards in the other. *)
Theorem C85_mirrored : forall orc d d' m m' bs off vals depth v n,
  extensional orc -> mirrored (o_host orc) d d' -> everywhere regular d ->
  create orc d None = Ok (Some m) -> create orc d' None = Ok (Some m') ->
  0 <= off -> 0 <= n -> off + n <= len bs -> depth <= 11 ->
  ((exists fuel, SpecMap.maps orc fuel m bs off vals depth v n) <->
   exists fuel, SpecMap.maps orc fuel m' (rev bs) (len bs - off - n) vals depth v n).
Proof. exact ViewsProofs.views_mirrored. Qed.
Print Assumptions C85_mirrored.

Example C85_example_mirrored :
  let d := DInteger (fixed_of "int32be" BOBig 4) false in let d' := DInteger (fixed_of "int32le" BOLittle 4) false in
  let b := bs [9; 255; 255; 255; 253; 7; 8] in
  mirrored (o_host demo) d d' /\
  run d b 1 = (Ok (VInt (-3)), Some 4) /\ run d' (rev b) (len b - 1 - 4) = (Ok (VInt (-3)), Some 4).
Proof. repeat split; vm_compute; reflexivity. Qed.
