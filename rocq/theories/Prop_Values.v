(** C62: structure values made by hand. *)
From Coq Require Import String Ascii List ZArith Bool Lia.
From Verif Require Import Base Ieee PyVal PyStruct DataTypes ClassFactory DataMaps SpecPrim Demo SpecMap SpecCreate DemoProofs ClassFactory DataMaps SpecReads SpecFold SpecFits Values SpecValues Demo DemoProofs ValuesProofs ReadsWitness FitWitness.
Import ListNotations.
Open Scope string_scope.
Open Scope list_scope.
Open Scope Z_scope.

(** C62. The values class of a structure takes a value for each member, by position or by name, and None for those left out; it raises TypeError for too many arguments, unknown names and members given twice. *)
Theorem C62_values : forall orc mt bo ms m args kwargs,
  create orc (DStructure mt bo ms) None = Ok (Some m) -> clear_names (m_name mt) (map dt_name ms) ->
  (passable (map dt_name ms) args kwargs ->
   exists attrs, create_values m args kwargs = Ok (VStruct (m_name mt) attrs) /\ map fst attrs = map dt_name ms /\
     forall i n v, nth_error attrs i = Some (n, v) -> passed args kwargs i n v) /\
  (~ passable (map dt_name ms) args kwargs -> create_values m args kwargs = Raise TypeError).
Proof. exact ValuesProofs.values_made. Qed.
Print Assumptions C62_values.

Example C62_example_values :
  passable (map dt_name [member "a" d_uint8; member "b" d_uint16; member "c" d_uint32]) [VInt 1] [("c", VInt 3)] /\
  create_values (the_map (DStructure (meta_of "abc") BOBig [member "a" d_uint8; member "b" d_uint16; member "c" d_uint32])) [VInt 1] [("c", VInt 3)] =
    Ok (VStruct "abc" [("a", VInt 1); ("b", VNone); ("c", VInt 3)]) /\
  create_values (the_map (DStructure (meta_of "abc") BOBig [member "a" d_uint8; member "b" d_uint16; member "c" d_uint32])) [VInt 1] [("a", VInt 3)] =
    Raise TypeError.
Proof.
  split; [split; [cbn; lia|]; constructor; [exists 2%nat; split; [cbn; lia|reflexivity]|constructor]|].
  split; [vm_compute; reflexivity|vm_compute; reflexivity].
Qed.

(** C62. Every structure value that is mapped could have been made with one value for each member. *)
Theorem C62_mapped : forall orc fuel mt bo ms m bs off vals depth v n,
  extensional orc -> create orc (DStructure mt bo ms) None = Ok (Some m) -> maps orc fuel m bs off vals depth v n ->
  exists args, List.length args = List.length ms /\ create_values m args [] = Ok v.
Proof. exact ValuesProofs.values_mapped. Qed.
Print Assumptions C62_mapped.

Example C62_example_mapped :
  create_values (the_map d_packet) [VInt 3; VInt 1; VInt (-2); VBytes (bs [9]); VBytes (bs [65; 66; 67])] [] = Ok packet_value /\
  maps demo 20 (the_map d_packet) (bs [0; 0; 0; 0; 0; 3; 1; 255; 254; 9; 65; 66; 67]) 5 [] 0 packet_value 8.
Proof. split; [vm_compute; reflexivity|]. eexists. split; vm_compute; reflexivity. Qed.

(** C62. Every structure value that fits its definition can be made by hand, is folded and mapped back. *)
Theorem C62_written : forall orc mt bo ms m off vals v n,
  extensional orc -> everywhere regular (DStructure mt bo ms) -> folds_back orc (DStructure mt bo ms) ->
  create orc (DStructure mt bo ms) None = Ok (Some m) ->
  levels (DStructure mt bo ms) <= 11 -> 0 <= off -> fits orc (DStructure mt bo ms) off vals v n ->
  (everywhere no_single (DStructure mt bo ms) \/ no_nan v) ->
  exists args, create_values m args [] = Ok v /\
    forall c, clean c -> sizes_agree orc (DStructure mt bo ms) vals (ctx_values c) v ->
    exists b, fst (foldbs orc m v c) = Ok (VBytes b) /\ len b = n /\
      forall pre post, len pre = off -> exists fuel, maps orc fuel m (pre ++ b ++ post) off vals 0 v n.
Proof. exact ValuesProofs.values_written. Qed.
Print Assumptions C62_written.

Example C62_example_written :
  fits demo d_packet 5 [] packet_value 8 /\ everywhere regular d_packet /\ folds_back demo d_packet /\ no_nan packet_value /\
  create demo d_packet None = Ok (Some (the_map d_packet)) /\
  fst (foldbs demo (the_map d_packet) packet_value None) = Ok (VBytes (bs [3; 1; 255; 254; 9; 65; 66; 67])).
Proof.
  split; [exact packet_fits|]. split; [exact packet_regular|]. split; [exact packet_folds_back|]. split; [cbn; tauto|].
  split; [exact packet_created|]. vm_compute. reflexivity.
Qed.
