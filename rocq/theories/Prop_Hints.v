(** Size hints. *)
From Coq Require Import String Ascii List ZArith Bool Lia.
From Verif Require Import Base Ieee PyVal PyStruct DataTypes ClassFactory DataMaps SpecPrim Demo SpecMap SpecCreate DemoProofs SpecHint HintProofs NestHintProofs KnownHintProofs HintWitness.
Import ListNotations.
Open Scope string_scope.
Open Scope list_scope.
Open Scope Z_scope.

(** C30. The hint after a failed mapping asks for more than there was, and for no more than is consumed in the end. *)
Theorem C30_hint : forall orc fuel d m b off vals depth c,
  extensional orc -> everywhere sound d -> create orc d None = Ok (Some m) -> hinted_at off m -> 0 <= off <= len b ->
  mapbs orc fuel m b off (Some (ctx_new vals)) depth = (Raise ByteStreamTooSmallError, Some c) ->
  exists h, fst (hint orc m 0 (Some c)) = Ok (Some h) /\ len b - off < h /\
    (frugal m -> unhidden_inside (map fst vals) m -> monotone_eval orc ->
     forall s v n, maps orc fuel m (b ++ s) off vals depth v n -> h <= n).
Proof. exact NestHintProofs.nested_hint. Qed.
Print Assumptions C30_hint.

Example C30_example :
  everywhere sound h_file /\ create demo h_file None = Ok (Some (the_map h_file)) /\
  hinted_at 0 (the_map h_file) /\ frugal (the_map h_file) /\ unhidden_inside [] (the_map h_file) /\ monotone_eval demo /\
  (exists c, mapbs demo 19 (the_map h_file) (firstn 9 h_file_bytes) 0 (Some (ctx_new [])) 0 = (Raise ByteStreamTooSmallError, Some c) /\
     fst (hint demo (the_map h_file) 0 (Some c)) = Ok (Some 14)) /\
  exists v, maps demo 19 (the_map h_file) h_file_bytes 0 [] 0 v 14.
Proof.
  split; [exact h_file_sound|]. split; [exact h_file_made|]. split; [exact h_file_hinted|].
  split; [exact h_file_frugal|]. split; [exact h_file_unhidden|]. split; [exact monotone_demo|].
  split; [eexists; split; [vm_compute; reflexivity|vm_compute; reflexivity]|]. eexists. eexists. split; [vm_compute; reflexivity|vm_compute; reflexivity].
Qed.

(** C30. Reading as many bytes as hinted reaches success without reading more than the value takes. *)
Theorem C30_reading : forall orc fuel d m b vals v n k,
  extensional orc -> monotone_eval orc -> everywhere sound d -> create orc d None = Ok (Some m) ->
  hinted_at 0 m -> frugal m -> unhidden_inside (map fst vals) m ->
  maps orc fuel m b 0 vals 0 v n -> (Z.to_nat (len b) < fuel)%nat -> 0 <= k <= len b ->
  exists k', reads orc fuel m b vals k v k' /\ k <= k' <= Z.max k n.
Proof. exact NestHintProofs.nested_reading. Qed.
Print Assumptions C30_reading.

(** From no bytes to 5, 8 and 14. *)
Example C30_reading_example : exists v, reads demo 19 (the_map h_file) h_file_bytes [] 0 v 14.
Proof.
  eexists.
  do 3 (eapply reads_more; [vm_compute; reflexivity|vm_compute; reflexivity|]).
  eapply reads_done. vm_compute; reflexivity.
Qed.

(** C30. Reading as many bytes as hinted, or all if there are fewer, reaches success also if hints can be too large. *)
Theorem C30_varying_reading : forall orc fuel d m b vals v n k,
  extensional orc -> everywhere sound d -> create orc d None = Ok (Some m) ->
  hinted_at 0 m \/ (group_of (hinted_at 0) m /\ no_default m) ->
  maps orc fuel m b 0 vals 0 v n -> (Z.to_nat (len b) < fuel)%nat -> 0 <= k <= len b ->
  exists k', reads orc fuel m b vals k v k' /\ k <= k'.
Proof. exact NestHintProofs.varying_reading. Qed.
Print Assumptions C30_varying_reading.

(** Sequences of elements of different sizes: from no bytes to 1, 4 and 8 of 5. *)
Example C30_varying_example :
  hinted_at 0 (the_map h_items) /\
  exists v k, maps demo 9 (the_map h_items) (bs [3; 1; 2; 3; 0]) 0 [] 0 v 5 /\
    reads demo 9 (the_map h_items) (bs [3; 1; 2; 3; 0]) [] 0 v k /\ 0 <= k.
Proof.
  split; [exact h_items_hinted|].
  assert (M : exists v, maps demo 9 (the_map h_items) (bs [3; 1; 2; 3; 0]) 0 [] 0 v 5) by (eexists; eexists; split; vm_compute; reflexivity).
  destruct M as [v M].
  destruct (C30_varying_reading demo 9%nat h_items (the_map h_items) (bs [3; 1; 2; 3; 0]) [] v 5 0) as (k & R & K).
  - exact extensional_demo.
  - apply fine_sound. vm_compute. reflexivity.
  - vm_compute. reflexivity.
  - left. exact h_items_hinted.
  - exact M.
  - vm_compute. repeat constructor.
  - vm_compute. split; discriminate.
  - exists v, k. auto.
Qed.

(** C30. The hint of a structure group without a default: more than there was, and no more than is consumed by the base or the member. *)
Theorem C30_group : forall orc fuel d m b off vals depth c,
  extensional orc -> everywhere sound d -> create orc d None = Ok (Some m) ->
  group_of (hinted_at off) m -> no_default m -> 0 <= off <= len b ->
  mapbs orc fuel m b off (Some (ctx_new vals)) depth = (Raise ByteStreamTooSmallError, Some c) ->
  exists h, fst (hint orc m 0 (Some c)) = Ok (Some h) /\ len b - off < h /\
    (group_of (fun x => frugal x /\ unhidden_inside [] x) m -> monotone_eval orc ->
     forall s v n k, maps orc fuel m (b ++ s) off vals depth v n -> base_takes orc fuel m (b ++ s) off depth k ->
     h <= Z.max n k).
Proof. exact NestHintProofs.group_hint. Qed.
Print Assumptions C30_group.

Example C30_group_example :
  everywhere sound h_group /\ create demo h_group None = Ok (Some (the_map h_group)) /\
  group_of (hinted_at 0) (the_map h_group) /\ no_default (the_map h_group) /\
  group_of (fun x => frugal x /\ unhidden_inside [] x) (the_map h_group) /\
  (exists c, mapbs demo 19 (the_map h_group) (bs [1; 2; 3]) 0 (Some (ctx_new [])) 0 = (Raise ByteStreamTooSmallError, Some c) /\
     fst (hint demo (the_map h_group) 0 (Some c)) = Ok (Some 8)) /\
  (exists v, maps demo 19 (the_map h_group) (bs [1; 2; 3; 4; 5; 6; 7; 8; 9]) 0 [] 0 v 8) /\
  base_takes demo 19 (the_map h_group) (bs [1; 2; 3; 4; 5; 6; 7; 8; 9]) 0 0 8.
Proof.
  split; [apply fine_sound; vm_compute; reflexivity|]. split; [vm_compute; reflexivity|].
  split; [exact h_group_hinted|]. split; [vm_compute; reflexivity|]. split; [exact h_group_frugal|].
  split; [eexists; split; [vm_compute; reflexivity|vm_compute; reflexivity]|].
  split; [eexists; eexists; split; [vm_compute; reflexivity|vm_compute; reflexivity]|].
  assert (E : exists m, m = the_map h_group) by eauto. destruct E as [m E]. rewrite <- E. vm_compute in E. subst m.
  unfold base_takes. eexists. eexists. split; [vm_compute; reflexivity|vm_compute; reflexivity].
Qed.

(** C30. Reading a structure group by its hints. *)
Theorem C30_group_reading : forall orc fuel d m b vals v n k j,
  extensional orc -> monotone_eval orc -> everywhere sound d -> create orc d None = Ok (Some m) ->
  group_of (hinted_at 0) m -> no_default m -> group_of (fun x => frugal x /\ unhidden_inside [] x) m ->
  maps orc fuel m b 0 vals 0 v n -> base_takes orc fuel m b 0 0 j ->
  (Z.to_nat (len b) < fuel)%nat -> 0 <= k <= len b ->
  exists k', reads orc fuel m b vals k v k' /\ k <= k' <= Z.max k (Z.max n j).
Proof. exact NestHintProofs.group_reading. Qed.
Print Assumptions C30_group_reading.

Example C30_group_reading_example : exists v, reads demo 19 (the_map h_group) (bs [1; 2; 3; 4; 5; 6; 7; 8; 9]) [] 0 v 8.
Proof.
  eexists. eapply reads_more; [vm_compute; reflexivity|vm_compute; reflexivity|]. eapply reads_done. vm_compute; reflexivity.
Qed.

(** C30. A conditional member that is absent is counted. *)
Theorem C30_condition_refuted : exists d m b s c v n h, everywhere sound d /\ create demo d None = Ok (Some m) /\
    structure_of leaf (fun _ => True) m /\ structure_of narrow (fun _ => True) m /\
    mapbs demo 9 m b 0 (Some (ctx_new [])) 0 = (Raise ByteStreamTooSmallError, Some c) /\
    fst (hint demo m 0 (Some c)) = Ok (Some h) /\
    maps demo 9 m (b ++ s) 0 [] 0 v n /\ n < h.
Proof. exact HintWitness.condition_hint_refuted. Qed.
Print Assumptions C30_condition_refuted.

(** C30. A terminated stream of wide elements that ends inside of an element: the hint is too large. *)
Theorem C30_terminator_refuted : exists d m b s c v n h, everywhere sound d /\ create demo d None = Ok (Some m) /\
    structure_of leaf unconditional m /\
    mapbs demo 9 m b 0 (Some (ctx_new [])) 0 = (Raise ByteStreamTooSmallError, Some c) /\
    fst (hint demo m 0 (Some c)) = Ok (Some h) /\
    maps demo 9 m (b ++ s) 0 [] 0 v n /\ n < h.
Proof. exact HintWitness.terminator_hint_refuted. Qed.
Print Assumptions C30_terminator_refuted.

(** C30. Padding in a structure at an offset that is not aligned: the hint does not exceed what there is. *)
Theorem C30_padding_refuted : exists d m b off s c v n h, everywhere sound d /\ create demo d None = Ok (Some m) /\
    structure_of leaf unconditional m /\ 0 <= off <= len b /\
    mapbs demo 9 m b off (Some (ctx_new [])) 0 = (Raise ByteStreamTooSmallError, Some c) /\
    fst (hint demo m 0 (Some c)) = Ok (Some h) /\
    maps demo 9 m (b ++ s) off [] 0 v n /\ h <= len b - off.
Proof. exact HintWitness.padding_hint_refuted. Qed.
Print Assumptions C30_padding_refuted.

(** C30. Padding in a nested structure: the hint is too large. *)
Theorem C30_nested_padding_refuted : exists d m b s c v n h, everywhere sound d /\ create demo d None = Ok (Some m) /\ frugal m /\ unhidden_inside [] m /\
    mapbs demo 9 m b 0 (Some (ctx_new [])) 0 = (Raise ByteStreamTooSmallError, Some c) /\
    fst (hint demo m 0 (Some c)) = Ok (Some h) /\
    maps demo 9 m (b ++ s) 0 [] 0 v n /\ n < h.
Proof. exact HintWitness.nested_padding_hint_refuted. Qed.
Print Assumptions C30_nested_padding_refuted.

(** C30. A sequence of elements of different sizes: the next element is taken to be as large as the last one. *)
Theorem C30_sequence_refuted : exists d m b s c v n h, everywhere sound d /\ create demo d None = Ok (Some m) /\ hinted_at 0 m /\
    mapbs demo 9 m b 0 (Some (ctx_new [])) 0 = (Raise ByteStreamTooSmallError, Some c) /\
    fst (hint demo m 0 (Some c)) = Ok (Some h) /\
    maps demo 9 m (b ++ s) 0 [] 0 v n /\ n < h.
Proof. exact HintWitness.sequence_hint_refuted. Qed.
Print Assumptions C30_sequence_refuted.

(** C30. A sequence of elements of different sizes bounded by a data size: the hint does not exceed what there is. *)
Theorem C30_bounded_refuted : exists d m b s c v n h, everywhere sound d /\ create demo d None = Ok (Some m) /\
    (exists e ed x op, m = MSequence false e ed (Some x) op /\ opens x /\ hinted x) /\
    mapbs demo 9 m b 0 (Some (ctx_new [])) 0 = (Raise ByteStreamTooSmallError, Some c) /\
    fst (hint demo m 0 (Some c)) = Ok (Some h) /\
    maps demo 9 m (b ++ s) 0 [] 0 v n /\ h <= len b.
Proof. exact HintWitness.bounded_hint_refuted. Qed.
Print Assumptions C30_bounded_refuted.

(** C30. A data size that is not a multiple of the element size is asked for in full. *)
Theorem C30_data_size_refuted : exists d m b s c v n h, everywhere sound d /\ create demo d None = Ok (Some m) /\ hinted_at 0 m /\
    mapbs demo 9 m b 0 (Some (ctx_new [])) 0 = (Raise ByteStreamTooSmallError, Some c) /\
    fst (hint demo m 0 (Some c)) = Ok (Some h) /\
    maps demo 9 m (b ++ s) 0 [] 0 v n /\ n < h.
Proof. exact HintWitness.data_size_hint_refuted. Qed.
Print Assumptions C30_data_size_refuted.

(** C30. The default of a structure group: the hint does not exceed what there is. *)
Theorem C30_default_refuted : exists d m b s c v n h, everywhere sound d /\ create demo d None = Ok (Some m) /\ group_of (hinted_at 0) m /\
    mapbs demo 9 m b 0 (Some (ctx_new [])) 0 = (Raise ByteStreamTooSmallError, Some c) /\
    fst (hint demo m 0 (Some c)) = Ok (Some h) /\
    maps demo 9 m (b ++ s) 0 [] 0 v n /\ h <= len b.
Proof. exact HintWitness.default_hint_refuted. Qed.
Print Assumptions C30_default_refuted.

(** C30. A structure group as a member: the hint does not exceed what there is. *)
Theorem C30_group_member_refuted : exists d m b s c v n h, everywhere sound d /\ create demo d None = Ok (Some m) /\
    structure_of (fun x => hinted x \/ (group_of (hinted_at 0) x /\ no_default x)) unconditional m /\
    mapbs demo 9 m b 0 (Some (ctx_new [])) 0 = (Raise ByteStreamTooSmallError, Some c) /\
    fst (hint demo m 0 (Some c)) = Ok (Some h) /\
    maps demo 9 m (b ++ s) 0 [] 0 v n /\ h <= len b.
Proof. exact HintWitness.group_member_hint_refuted. Qed.
Print Assumptions C30_group_member_refuted.

(** C30. After a mapping that succeeded the hint is the size that was consumed. *)
Theorem C30_done : forall orc fuel m b off vals depth v c n off',
  mapbs orc fuel m b off (Some (ctx_new vals)) depth = (Ok v, Some c) -> c_byte_size c = Some n ->
  fst (hint orc m off' (Some c)) = Ok (Some n).
Proof. exact KnownHintProofs.done_hint. Qed.
Print Assumptions C30_done.

Example C30_done_example : exists v c,
  mapbs demo 19 (the_map h_file) h_file_bytes 0 (Some (ctx_new [])) 0 = (Ok v, Some c) /\
  c_byte_size c = Some 14 /\ fst (hint demo (the_map h_file) 0 (Some c)) = Ok (Some 14).
Proof. eexists. eexists. split; [vm_compute; reflexivity|]. split; [vm_compute; reflexivity|vm_compute; reflexivity]. Qed.

(** C30. Before anything is mapped the hint of a definition of a known size is that size. *)
Theorem C30_known : forall orc d m n off c,
  everywhere sound d -> everywhere counted_or_ended d -> create orc d None = Ok (Some m) -> all_maps whole m ->
  get_byte_size d = Some n -> untouched c -> fst (hint orc m off c) = Ok (Some n).
Proof. exact KnownHintProofs.known_hint. Qed.
Print Assumptions C30_known.

(** A structure with padding and a sequence of structures inside: 1 + 3 + 3 * 8 bytes. *)
Example C30_known_example :
  everywhere sound d_known /\ everywhere counted_or_ended d_known /\ create demo d_known None = Ok (Some (the_map d_known)) /\
  all_maps whole (the_map d_known) /\ get_byte_size d_known = Some 28 /\
  fst (hint demo (the_map d_known) 0 None) = Ok (Some 28).
Proof.
  split; [exact known_sound|]. split; [exact known_counted|]. split; [vm_compute; reflexivity|].
  split; [exact known_whole|]. split; [vm_compute; reflexivity|vm_compute; reflexivity].
Qed.

(** C30. A stream with a number of elements and a terminator: the hint is a single element. *)
Theorem C30_known_refuted : exists d m n h, everywhere sound d /\ create demo d None = Ok (Some m) /\ all_maps whole m /\
    get_byte_size d = Some n /\ fst (hint demo m 0 None) = Ok (Some h) /\ h < n /\
    exists b v, maps demo 9 m b 0 [] 0 v n.
Proof. exact HintWitness.known_hint_refuted. Qed.
Print Assumptions C30_known_refuted.
