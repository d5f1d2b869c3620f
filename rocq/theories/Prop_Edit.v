(** C69 and C70: one member of a structure changes, in its value or in its bytes. *)
From Coq Require Import String Ascii List ZArith Bool Lia.
From Verif Require Import Base PyVal PyStruct DataTypes ClassFactory DataMaps Demo DemoProofs SpecPrim SpecMap SpecCreate SpecReads SpecFold SpecGrow SpecWrites SpecEdit EditProofs DisturbProofs ReadsWitness WritesWitness EditWitness.
Import ListNotations.
Open Scope string_scope.
Open Scope list_scope.
Open Scope Z_scope.

(** C69. Two values that agree but for a member are folded to the same bytes but for those of the member. *)
Theorem C69_edit : forall orc mt bo before x after m v v' c c' b b',
  extensional orc -> everywhere sound (DStructure mt bo (before ++ x :: after)) ->
  create orc (DStructure mt bo (before ++ x :: after)) None = Ok (Some m) ->
  proper v -> proper v' -> clean c -> clean c' ->
  (forall y, In y (before ++ after) -> py_getattr v' (dt_name y) = py_getattr v (dt_name y)) ->
  fst (foldbs orc m v c) = Ok (VBytes b) -> fst (foldbs orc m v' c') = Ok (VBytes b') ->
  exists pre old new post, b = pre ++ old ++ post /\ b' = pre ++ new ++ post /\
    member_bytes orc mt bo (before ++ x :: after) x (py_getattr v (dt_name x)) old /\
    member_bytes orc mt bo (before ++ x :: after) x (py_getattr v' (dt_name x)) new.
Proof. exact EditProofs.edit_written. Qed.
Print Assumptions C69_edit.

(** A note gets a longer name. *)
Example C69_example_edit :
  exists pre old new post,
    note_bytes = pre ++ old ++ post /\ bs [2; 0; 0; 128; 63; 7; 8; 1; 0; 1; 0; 104; 105; 104; 105; 0] = pre ++ new ++ post /\
    member_bytes demo (meta_of "note") BOLittle ((note_before ++ [note_pair]) ++ note_name :: []) note_name (VStr [104; 105]) old /\
    member_bytes demo (meta_of "note") BOLittle ((note_before ++ [note_pair]) ++ note_name :: []) note_name (VStr [104; 105; 104; 105]) new.
Proof.
  apply (C69_edit demo (meta_of "note") BOLittle (note_before ++ [note_pair]) note_name [] (the_map d_note) note_value note_renamed None None).
  - exact extensional_demo.
  - rewrite <- note_split. exact note_sound.
  - rewrite <- note_split. exact note_created.
  - exact note_proper.
  - cbn. tauto.
  - exact I.
  - exact I.
  - exact renamed_same.
  - vm_compute. reflexivity.
  - vm_compute. reflexivity.
Qed.

(** C69. A mapped value of which a member of fixed size is replaced is written back in place. *)
Theorem C69_patch : forall orc mt bo before x after m fuel bs off vals depth v n v' c c' b' k,
  extensional orc -> everywhere regular (DStructure mt bo (before ++ x :: after)) ->
  folds_back orc (DStructure mt bo (before ++ x :: after)) ->
  create orc (DStructure mt bo (before ++ x :: after)) None = Ok (Some m) -> 0 <= off <= len bs ->
  maps orc fuel m bs off vals depth v n ->
  everywhere no_single (DStructure mt bo (before ++ x :: after)) \/ no_nan v ->
  clean c -> sizes_agree orc (DStructure mt bo (before ++ x :: after)) vals (ctx_values c) v ->
  as_wide_as (type_of x) k -> proper v' -> clean c' ->
  (forall y, In y (before ++ after) -> py_getattr v' (dt_name y) = py_getattr v (dt_name y)) ->
  py_getattr v (dt_name x) <> VNone -> py_getattr v' (dt_name x) <> VNone ->
  fst (foldbs orc m v' c') = Ok (VBytes b') ->
  exists pre old new post, window bs off n = pre ++ old ++ post /\ b' = pre ++ new ++ post /\
    len old = k /\ len new = k /\
    member_bytes orc mt bo (before ++ x :: after) x (py_getattr v (dt_name x)) old /\
    member_bytes orc mt bo (before ++ x :: after) x (py_getattr v' (dt_name x)) new.
Proof. exact EditProofs.patched. Qed.
Print Assumptions C69_patch.

(** A card is mapped at offset 1 and gets other numbers, one of them as True. *)
Example C69_example_patch :
  exists pre old new post,
    window card_bytes 1 7 = pre ++ old ++ post /\ bs [2; 7; 8; 3; 0; 1; 0] = pre ++ new ++ post /\ len old = 4 /\ len new = 4 /\
    member_bytes demo (meta_of "card") BOLittle (card_before ++ note_pair :: []) note_pair (VTuple [VInt 1; VInt 258]) old /\
    member_bytes demo (meta_of "card") BOLittle (card_before ++ note_pair :: []) note_pair (VTuple [VInt 3; VBool true]) new.
Proof.
  apply (C69_patch demo (meta_of "card") BOLittle card_before note_pair [] (the_map d_card) 20 card_bytes 1 [] 0 card_mapped 7
    card_edited None None).
  - exact extensional_demo.
  - exact card_regular.
  - exact card_folds_back.
  - exact card_created.
  - vm_compute. split; discriminate.
  - eexists. split; vm_compute; reflexivity.
  - left. exact card_no_single.
  - exact I.
  - apply card_sizes_agree.
  - split; [vm_compute; reflexivity|]. cbn. repeat split; auto. discriminate.
  - cbn. tauto.
  - exact I.
  - cbn [In app card_before]. intros y H. repeat destruct H as [<-|H]; try tauto; vm_compute; reflexivity.
  - vm_compute. discriminate.
  - vm_compute. discriminate.
  - vm_compute. reflexivity.
Qed.

(** C70. Other bytes in the place of a member of fixed size give the same value but for the member. *)
Theorem C70_disturbed : forall orc mt bo before x after m t k fuel bs off vals depth f1 w f2 n,
  extensional orc -> everywhere regular (DStructure mt bo (before ++ x :: after)) ->
  everywhere lone (DStructure mt bo (before ++ x :: after)) ->
  Forall (everywhere (unheeded orc (dt_name x))) after -> everywhere wordless x ->
  everywhere exact (used_type (m_name mt) bo x) -> get_byte_size (used_type (m_name mt) bo x) = Some k ->
  create orc (DStructure mt bo (before ++ x :: after)) None = Ok (Some m) ->
  create orc (used_type (m_name mt) bo x) None = Ok (Some t) ->
  0 <= off <= len bs -> depth + levels (DStructure mt bo (before ++ x :: after)) <= 11 -> 0 <= depth ->
  maps orc fuel m bs off vals depth (VStruct (m_name mt) (f1 ++ (dt_name x, w) :: f2)) n ->
  List.length f1 = List.length before ->
  exists i, 0 <= i /\ i + k <= n /\ off + n <= len bs /\
    (exists fuel', maps orc fuel' t bs (off + i) [] depth w k) /\
    forall p o o' s, bs = p ++ o ++ s -> len p = off + i -> len o = k -> len o' = k ->
    forall v' n',
      (exists fuel', maps orc fuel' m (p ++ o' ++ s) off vals depth v' n') <->
      (exists fuel' w', maps orc fuel' t (p ++ o' ++ s) (off + i) [] depth w' k /\ allowed x w' /\
         v' = VStruct (m_name mt) (f1 ++ (dt_name x, w') :: f2) /\ n' = n).
Proof. exact DisturbProofs.disturbed. Qed.
Print Assumptions C70_disturbed.

(** The extra number of a note at offset 1 is changed, whatever its four bytes become; for example to -2. *)
Example C70_example_disturbed :
  extensional demo /\ d_note = DStructure (meta_of "note") BOLittle (note_start ++ note_extra :: note_after) /\
  everywhere regular d_note /\ everywhere lone d_note /\ Forall (everywhere (unheeded demo (dt_name note_extra))) note_after /\
  everywhere wordless note_extra /\ everywhere exact (used_type "note" BOLittle note_extra) /\
  get_byte_size (used_type "note" BOLittle note_extra) = Some 4 /\
  create demo d_note None = Ok (Some (the_map d_note)) /\
  create demo (used_type "note" BOLittle note_extra) None = Ok (Some (the_map (used_type "note" BOLittle note_extra))) /\
  0 + levels d_note <= 11 /\
  maps demo 20 (the_map d_note) (noted_bytes (bs [0; 0; 1; 0])) 1 [] 0 (noted (VInt 256)) 18 /\
  maps demo 20 (the_map (used_type "note" BOLittle note_extra)) (noted_bytes (bs [255; 255; 255; 254])) 6 [] 0 (VInt (-2)) 4 /\
  maps demo 20 (the_map d_note) (noted_bytes (bs [255; 255; 255; 254])) 1 [] 0 (noted (VInt (-2))) 18.
Proof.
  split; [exact extensional_demo|]. split; [exact note_again|]. split; [exact note_regular|]. split; [exact note_lone|].
  split; [exact note_unheeded|]. split; [split; [reflexivity|split; [reflexivity|exact I]]|]. split; [cbn; tauto|].
  split; [vm_compute; reflexivity|]. split; [exact note_created|]. split; [vm_compute; reflexivity|].
  split; [vm_compute; discriminate|]. split; [exact note_mapped|].
  split; [eexists; split; vm_compute; reflexivity|]. eexists; split; vm_compute; reflexivity.
Qed.

(** C70. If a later expression looks at the member, other members change with it. *)
Theorem C70_looking_refuted : exists mt bo x after m p o o' s v v' n n' y,
  everywhere regular (DStructure mt bo (x :: after)) /\ everywhere lone (DStructure mt bo (x :: after)) /\ everywhere wordless x /\
  everywhere exact (used_type (m_name mt) bo x) /\ get_byte_size (used_type (m_name mt) bo x) = Some (len o) /\ len o' = len o /\
  create demo (DStructure mt bo (x :: after)) None = Ok (Some m) /\
  maps demo 20 m (p ++ o ++ s) (len p) [] 0 v n /\ maps demo 20 m (p ++ o' ++ s) (len p) [] 0 v' n' /\
  In y after /\ py_getattr v' (dt_name y) <> py_getattr v (dt_name y).
Proof. exact EditWitness.disturbed_looking_refuted. Qed.
Print Assumptions C70_looking_refuted.
