(** C78: a definition in the other byte order holds the same values. *)
From Coq Require Import String Ascii List ZArith Bool Lia.
From Verif Require Import Base PyVal PyStruct DataTypes ClassFactory DataMaps Expr Codec Demo SpecPrim SpecMap SpecCreate SpecReads SpecFold SpecWrites SpecMake SpecTurn FoldProofs ReadsProofs TurnProofs DemoProofs TurnWitness.
Import ListNotations.
Open Scope string_scope.
Open Scope list_scope.
Open Scope Z_scope.

(** C78. What a value is folded to in the other byte order: the same bytes with each number the other way around. *)
Theorem C78_folded : forall orc d m m' v c b,
  extensional orc -> everywhere regular d -> create orc d None = Ok (Some m) -> create orc (turned d) None = Ok (Some m') ->
  proper v -> clean c -> fst (foldbs orc m v c) = Ok (VBytes b) ->
  exists b', fst (foldbs orc m' v c) = Ok (VBytes b') /\ mirrored orc d v b b'.
Proof. exact TurnProofs.folded_turned. Qed.
Print Assumptions C78_folded.

Example C78_example_folded :
  exists b, fst (foldbs demo (the_map (turned d_letter)) letter_value None) = Ok (VBytes b) /\
    mirrored demo d_letter letter_value letter_bytes b /\ b = letter_turned /\ letter_turned <> letter_bytes.
Proof.
  destruct (C78_folded demo d_letter (the_map d_letter) (the_map (turned d_letter)) letter_value None letter_bytes
    extensional_demo letter_regular letter_created letter_turned_created letter_proper I letter_folds) as (b & F & M).
  exists b. split; [exact F|]. split; [exact M|]. split; [|vm_compute; discriminate].
  rewrite letter_turned_folds in F. now injection F.
Qed.

(** C78. A value read in one byte order can be written in the other, and is read back there from as many bytes. *)
Theorem C78_mapped : forall orc fuel d m m' bs off vals v n,
  extensional orc -> everywhere regular d -> folds_back orc d ->
  create orc d None = Ok (Some m) -> create orc (turned d) None = Ok (Some m') ->
  levels d <= 11 -> 0 <= off <= len bs -> maps orc fuel m bs off vals 0 v n ->
  everywhere no_single d \/ no_nan v ->
  forall c, clean c -> sizes_agree orc d vals (ctx_values c) v ->
  exists b, fst (foldbs orc m' v c) = Ok (VBytes b) /\ len b = n /\ mirrored orc d v (window bs off n) b /\
    forall pre post, len pre = off -> exists fuel', maps orc fuel' m' (pre ++ b ++ post) off vals 0 v n.
Proof. exact TurnProofs.mapped_turned. Qed.
Print Assumptions C78_mapped.

Example C78_example_mapped :
  exists b, fst (foldbs demo (the_map (turned d_letter)) letter_value None) = Ok (VBytes b) /\ len b = 38 /\
    mirrored demo d_letter letter_value (window (bs [7] ++ letter_bytes) 1 38) b /\
    forall pre post, len pre = 1 -> exists fuel', maps demo fuel' (the_map (turned d_letter)) (pre ++ b ++ post) 1 [] 0 letter_value 38.
Proof.
  apply (C78_mapped demo 20%nat d_letter (the_map d_letter) (the_map (turned d_letter)) (bs [7] ++ letter_bytes) 1 [] letter_value 38
    extensional_demo letter_regular letter_folds_back letter_created letter_turned_created).
  - vm_compute. discriminate.
  - vm_compute. split; discriminate.
  - exact letter_maps.
  - left. exact letter_no_single.
  - exact I.
  - exact letter_agrees.
Qed.

(** C78. There is a map for the one exactly if there is a map for the other. *)
Theorem C78_created : forall orc d,
  everywhere sound d -> everywhere SpecMake.shaped d ->
  ((exists m, create orc d None = Ok (Some m)) <-> (exists m, create orc (turned d) None = Ok (Some m))).
Proof. exact TurnProofs.created_turned. Qed.
Print Assumptions C78_created.

Example C78_example_created : exists m, create demo (turned d_letter) None = Ok (Some m).
Proof.
  apply (C78_created demo d_letter (regular_sound _ letter_regular) letter_shaped). exists (the_map d_letter). exact letter_created.
Qed.
