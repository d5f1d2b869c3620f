(** What a mapping depends on: appending bytes, and the window of bytes that is read. *)
From Coq Require Import String Ascii List ZArith Bool Lia.
From Verif Require Import Base Ieee PyVal PyStruct DataTypes ClassFactory DataMaps SpecPrim Demo SpecMap SpecCreate DemoProofs WindowProofs FindingProofs.
Import ListNotations.
Open Scope string_scope.
Open Scope list_scope.
Open Scope Z_scope.

(** C09. Appending bytes changes neither a result nor any error other than ByteStreamTooSmallError. *)
Theorem C09_monotone : forall orc fuel d m bs s off vals depth,
  extensional orc -> everywhere sound d -> create orc d None = Ok (Some m) -> 0 <= off <= len bs ->
  (forall v n, maps orc fuel m bs off vals depth v n -> maps orc fuel m (bs ++ s) off vals depth v n) /\
  (forall e, e <> ByteStreamTooSmallError -> fails orc fuel m bs off vals depth e ->
     fails orc fuel m (bs ++ s) off vals depth e).
Proof. exact WindowProofs.mapping_monotone. Qed.
Print Assumptions C09_monotone.

Definition w_text : dtype := DElems KString (elems_term "text" d_char (VBytes (bs [0]))) d_char.
Definition w_record : dtype :=
  DStructure (meta_of "record") BOLittle [member "count" d_uint8;
    member "items" (DElems KSequence (elems_number_expr "items" d_uint16 "record.count") d_uint16);
    member "text" w_text].

Example C09_example :
  everywhere sound w_record /\ create demo w_record None = Ok (Some (the_map w_record)) /\
  (exists v, maps demo 9 (the_map w_record) (bs [9; 1; 5; 0; 65; 0]) 1 [] 0 v 5) /\
  fails demo 9 (the_map w_record) (bs [9; 1; 5; 0; 200; 0]) 1 [] 0 MappingError.
Proof.
  split; [apply fine_sound; vm_compute; reflexivity|]. split; [vm_compute; reflexivity|].
  split; [eexists; eexists; split; vm_compute; reflexivity|]. vm_compute. reflexivity.
Qed.

(** C09. The terminator has to be one element long: a shorter one can match a truncated last element. *)
Theorem C09_short_terminator_refuted : exists d m b s v n, create demo d None = Ok (Some m) /\
    maps demo 9 m b 0 [] 0 v n /\ len b < n /\
    fails demo 9 m (b ++ s) 0 [] 0 ByteStreamTooSmallError.
Proof. exact FindingProofs.short_terminator_refuted. Qed.
Print Assumptions C09_short_terminator_refuted.

(** C10. The value and size depend only on the reported window, which lies inside the stream. *)
Theorem C10_window : forall orc fuel d m bs off vals depth v n,
  extensional orc -> everywhere sound d -> create orc d None = Ok (Some m) -> all_maps no_group m ->
  0 <= off <= len bs -> maps orc fuel m bs off vals depth v n ->
  0 <= n /\ off + n <= len bs /\
  forall bs', len bs <= len bs' -> window bs' off n = window bs off n ->
    maps orc fuel m bs' off vals depth v n.
Proof. exact WindowProofs.mapping_window. Qed.
Print Assumptions C10_window.

Example C10_example :
  everywhere sound w_record /\ all_maps no_group (the_map w_record) /\
  exists v, maps demo 9 (the_map w_record) (bs [9; 1; 5; 0; 65; 0]) 1 [] 0 v 5 /\
    window (bs [7; 1; 5; 0; 65; 0; 1; 2]) 1 5 = window (bs [9; 1; 5; 0; 65; 0]) 1 5 /\
    maps demo 9 (the_map w_record) (bs [7; 1; 5; 0; 65; 0; 1; 2]) 1 [] 0 v 5.
Proof.
  split; [apply fine_sound; vm_compute; reflexivity|]. split; [vm_compute; tauto|].
  eexists. split; [eexists; split; vm_compute; reflexivity|]. split; [vm_compute; reflexivity|].
  eexists; split; vm_compute; reflexivity.
Qed.

(** C10. If the elements of composite sequences take up space, any stream with the same window gives the same result, however short it is. *)
Theorem C10_exact_window : forall orc fuel d m bs off vals depth v n,
  extensional orc -> everywhere sound d -> create orc d None = Ok (Some m) -> all_maps no_group m ->
  all_maps (takes_space orc) m ->
  0 <= off <= len bs -> maps orc fuel m bs off vals depth v n ->
  forall bs', off + n <= len bs' -> window bs' off n = window bs off n ->
    maps orc fuel m bs' off vals depth v n.
Proof. exact WindowProofs.mapping_window_exact. Qed.
Print Assumptions C10_exact_window.

Definition w_pairs : dtype :=
  let pair := DStructure (meta_of "pair") BOLittle [member "a" d_uint8; member "b" d_uint16] in
  DElems KSequence (elems_number "pairs" pair 2) pair.

Example C10_example_exact :
  all_maps (takes_space demo) (the_map w_pairs) /\ all_maps no_group (the_map w_pairs) /\
  exists v, maps demo 9 (the_map w_pairs) (bs [1; 2; 0; 3; 4; 0; 9]) 0 [] 0 v 6 /\
    maps demo 9 (the_map w_pairs) (bs [1; 2; 0; 3; 4; 0]) 0 [] 0 v 6.
Proof.
  split; [|split].
  - assert (E : exists m, m = the_map w_pairs) by eauto. destruct E as [m E]. rewrite <- E. vm_compute in E. subst m.
    cbn [all_maps takes_space]. split; [|tauto].
    intros fuel b off vals depth v n O (c & M & N). cbn [mapbs] in M. unfold map_struct_linear in M.
    cbn in M. destruct (_ <? _); [discriminate|].
    destruct (match bind _ _ with Ok _ => _ | Raise _ => _ | OutOfFuel => _ end) as [r c'] eqn:Q in M.
    revert M N. clear - Q. revert Q. destruct (bind _ _); intros Q M N; inversion Q; subst; try discriminate.
    inversion M; subst. cbn in N. inversion N. reflexivity.
  - vm_compute; tauto.
  - eexists. split; (eexists; split; vm_compute; reflexivity).
Qed.

(** C10. With structure groups too there is a window inside the stream, at least as large as the reported one, that the result depends on. *)
Theorem C10_footprint : forall orc fuel d m bs off vals depth v n,
  extensional orc -> everywhere sound d -> create orc d None = Ok (Some m) ->
  0 <= off <= len bs -> maps orc fuel m bs off vals depth v n ->
  exists r, 0 <= n <= r /\ off + r <= len bs /\
  forall bs', len bs <= len bs' -> window bs' off r = window bs off r ->
    maps orc fuel m bs' off vals depth v n.
Proof. exact WindowProofs.mapping_footprint. Qed.
Print Assumptions C10_footprint.

Example C10_example_footprint :
  everywhere sound wide_base /\
  maps demo 9 (the_map wide_base) (bs [1; 1]) 0 [] 0 (VStruct "one" [("kind", VInt 1)]) 1.
Proof.
  split; [apply fine_sound; vm_compute; reflexivity|]. eexists; split; vm_compute; reflexivity.
Qed.

(** C10. With a structure group the value can depend on bytes after the reported window. *)
Theorem C10_group_refuted : exists d m b b' v n, everywhere sound d /\ create demo d None = Ok (Some m) /\
    maps demo 9 m b 0 [] 0 v n /\ len b = len b' /\ window b' 0 n = window b 0 n /\
    fails demo 9 m b' 0 [] 0 MappingError.
Proof. exact FindingProofs.group_window_refuted. Qed.
Print Assumptions C10_group_refuted.

(** C10. With elements that take up no space the value can depend on whether the stream goes on. *)
Theorem C10_zero_size_refuted : exists d m b b' v n, everywhere sound d /\ create demo d None = Ok (Some m) /\ all_maps no_group m /\
    maps demo 9 m b 0 [] 0 v n /\ n <= len b' /\ window b' 0 n = window b 0 n /\
    fails demo 9 m b' 0 [] 0 ByteStreamTooSmallError.
Proof. exact FindingProofs.hollow_window_refuted. Qed.
Print Assumptions C10_zero_size_refuted.

(** C10. An offset beyond the end of the stream is accepted if nothing is read. *)
Theorem C10_beyond_refuted : exists d m b off v n, everywhere sound d /\ create demo d None = Ok (Some m) /\ all_maps no_group m /\
    maps demo 9 m b off [] 0 v n /\ len b < off + n.
Proof. exact FindingProofs.beyond_window_refuted. Qed.
Print Assumptions C10_beyond_refuted.
