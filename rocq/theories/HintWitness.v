(** Structures for which size hints mislead. *)
From Coq Require Import String List ZArith Bool Lia.
From Verif Require Import Base PyVal PyStruct DataTypes ClassFactory DataMaps Expr Codec Demo SpecPrim SpecMap SpecCreate SpecHint MapProofs DemoProofs.
Import ListNotations.
Open Scope Z_scope.
Open Scope string_scope.
Open Scope list_scope.

Lemma eval_ast_mono a e1 e2 : (forall k v, dict_get k e1 = Some v -> dict_get k e2 = Some v) ->
  forall v, eval_ast a e1 = Some v -> eval_ast a e2 = Some v.
Proof.
  intros H. induction a; cbn [eval_ast]; intros v E; auto.
  - destruct (String.eqb s "True"); auto. destruct (String.eqb s "False"); auto. destruct (String.eqb s "None"); auto.
  - destruct (eval_ast a e1) as [w|]; [|discriminate]. now rewrite (IHa w eq_refl).
  - destruct (eval_ast a e1) as [w|]; [|discriminate]. now rewrite (IHa w eq_refl).
  - destruct (String.eqb op "and").
    { destruct (eval_ast a1 e1) as [w|]; [|discriminate]. rewrite (IHa1 w eq_refl). destruct (py_truth w); auto. }
    destruct (String.eqb op "or").
    { destruct (eval_ast a1 e1) as [w|]; [|discriminate]. rewrite (IHa1 w eq_refl). destruct (py_truth w); auto. }
    destruct (eval_ast a1 e1) as [w|]; [|discriminate]. rewrite (IHa1 w eq_refl).
    destruct (eval_ast a2 e1) as [w'|]; [|discriminate]. rewrite (IHa2 w' eq_refl). exact E.
Qed.

Lemma monotone_demo : monotone_eval demo.
Proof.
  intros x e1 e2 H. cbn [demo o_eval]. unfold expr_eval. destruct (parse_expr x) as [a|]; [|congruence].
  destruct (eval_ast a e1) as [v|] eqn:E; [|congruence]. now rewrite (eval_ast_mono a e1 e2 H v E).
Qed.

(** A conditional member that is absent. *)
Definition h_cond : dtype :=
  DStructure (meta_of "s") BOLittle [member "n" d_uint8; member_if "x" "s.n == 1" d_uint32; member "y" d_uint8].

Lemma condition_hint_refuted :
  exists d m b s c v n h, everywhere sound d /\ create demo d None = Ok (Some m) /\
    structure_of leaf (fun _ => True) m /\ structure_of narrow (fun _ => True) m /\
    mapbs demo 9 m b 0 (Some (ctx_new [])) 0 = (Raise ByteStreamTooSmallError, Some c) /\
    fst (hint demo m 0 (Some c)) = Ok (Some h) /\
    maps demo 9 m (b ++ s) 0 [] 0 v n /\ n < h.
Proof.
  exists h_cond, (the_map h_cond), (bs []), (bs [0; 7; 8; 9; 10; 11; 12]). do 4 eexists.
  split; [apply fine_sound; vm_compute; reflexivity|]. split; [vm_compute; reflexivity|].
  assert (E : exists m, m = the_map h_cond) by eauto. destruct E as [m E]. rewrite <- E. vm_compute in E. subst m.
  split. { split; auto. intros a [<-|[<-|[<-|[]]]]; eexists; split; try reflexivity; exact I. }
  split. { split; auto. intros a [<-|[<-|[<-|[]]]]; eexists; split; try reflexivity; exact I. }
  split; [vm_compute; reflexivity|]. split; [vm_compute; reflexivity|].
  split; [eexists; split; vm_compute; reflexivity|]. vm_compute. reflexivity.
Qed.

(** A terminated stream of two byte elements that ends inside of an element. *)
Definition h_wide : dtype :=
  DStructure (meta_of "s") BOLittle
    [member "t" (DElems KStream (elems_term "t" d_uint16 (VBytes (bs [0; 0]))) d_uint16)].

Lemma terminator_hint_refuted :
  exists d m b s c v n h, everywhere sound d /\ create demo d None = Ok (Some m) /\
    structure_of leaf unconditional m /\
    mapbs demo 9 m b 0 (Some (ctx_new [])) 0 = (Raise ByteStreamTooSmallError, Some c) /\
    fst (hint demo m 0 (Some c)) = Ok (Some h) /\
    maps demo 9 m (b ++ s) 0 [] 0 v n /\ n < h.
Proof.
  exists h_wide, (the_map h_wide), (bs [65; 0; 0]), (bs [0; 1; 2; 3; 4]). do 4 eexists.
  split; [apply fine_sound; vm_compute; reflexivity|]. split; [vm_compute; reflexivity|].
  assert (E : exists m, m = the_map h_wide) by eauto. destruct E as [m E]. rewrite <- E. vm_compute in E. subst m.
  split.
  { split.
    - intros a [<-|[]]. eexists. split; [reflexivity|]. cbn. discriminate.
    - intros d [<-|[]]. reflexivity. }
  split; [vm_compute; reflexivity|]. split; [vm_compute; reflexivity|].
  split; [eexists; split; vm_compute; reflexivity|]. vm_compute. reflexivity.
Qed.

(** Padding is hinted relative to the start of the structure, but mapped relative
    to the start of the stream. *)
Definition h_pad : dtype :=
  DStructure (meta_of "s") BOLittle
    [member "x" d_uint32; DPadding (meta_of "p") BOLittle (Some 4); member "y" d_uint8].

Lemma padding_hint_refuted :
  exists d m b off s c v n h, everywhere sound d /\ create demo d None = Ok (Some m) /\
    structure_of leaf unconditional m /\ 0 <= off <= len b /\
    mapbs demo 9 m b off (Some (ctx_new [])) 0 = (Raise ByteStreamTooSmallError, Some c) /\
    fst (hint demo m 0 (Some c)) = Ok (Some h) /\
    maps demo 9 m (b ++ s) off [] 0 v n /\ h <= len b - off.
Proof.
  exists h_pad, (the_map h_pad), (bs [0; 1; 0; 0; 0; 9]), 1, (bs [9; 9; 1]). do 4 eexists.
  split; [apply fine_sound; vm_compute; reflexivity|]. split; [vm_compute; reflexivity|].
  assert (E : exists m, m = the_map h_pad) by eauto. destruct E as [m E]. rewrite <- E. vm_compute in E. subst m.
  split.
  { split.
    - intros a [<-|[<-|[<-|[]]]]; eexists; split; try reflexivity; exact I.
    - intros d [<-|[<-|[<-|[]]]]; reflexivity. }
  split; [vm_compute; split; discriminate|].
  split; [vm_compute; reflexivity|]. split; [vm_compute; reflexivity|].
  split; [eexists; split; vm_compute; reflexivity|]. vm_compute. discriminate.
Qed.

(** ** Nested structures, sequences and groups *)

(** A sequence of elements of different sizes, where the bytes end with the first
    element: the second is taken to be as large. *)
Definition h_item : dtype :=
  DStructure (meta_of "item") BOLittle
    [member "n" d_uint8; member "raw" (DElems KStream (elems_size_expr "raw" d_uint8 "item.n") d_uint8)].
Definition h_items : dtype := DElems KSequence (elems_number "items" h_item 2) h_item.

Lemma h_items_hinted : hinted_at 0 (the_map h_items).
Proof.
  assert (E : exists m, m = the_map h_items) by eauto. destruct E as [m E]. rewrite <- E. vm_compute in E. subst m.
  right. split; [reflexivity|]. split; [reflexivity|]. split.
  - split; [reflexivity|]. exists 1. split; reflexivity.
  - split; [apply constructible_spec; reflexivity|]. split; [exact I|]. split; [cbn; discriminate|exact I].
Qed.

Lemma sequence_hint_refuted :
  exists d m b s c v n h, everywhere sound d /\ create demo d None = Ok (Some m) /\ hinted_at 0 m /\
    mapbs demo 9 m b 0 (Some (ctx_new [])) 0 = (Raise ByteStreamTooSmallError, Some c) /\
    fst (hint demo m 0 (Some c)) = Ok (Some h) /\
    maps demo 9 m (b ++ s) 0 [] 0 v n /\ n < h.
Proof.
  exists h_items, (the_map h_items), (bs [3; 1; 2; 3]), (bs [0]). do 4 eexists.
  split; [apply fine_sound; vm_compute; reflexivity|]. split; [vm_compute; reflexivity|]. split; [exact h_items_hinted|].
  split; [vm_compute; reflexivity|]. split; [vm_compute; reflexivity|].
  split; [eexists; split; vm_compute; reflexivity|]. vm_compute. reflexivity.
Qed.

(** A sequence of strings that is bounded by a data size: the data size is hinted at,
    although there are as many bytes and the last string has not ended. *)
Definition h_line : dtype := DElems KStream (elems_term "line" d_char (VBytes (bs [0]))) d_char.
Definition h_lines : dtype := DElems KSequence (elems_size "lines" h_line 4) h_line.

Lemma bounded_hint_refuted :
  exists d m b s c v n h, everywhere sound d /\ create demo d None = Ok (Some m) /\
    (exists e ed x op, m = MSequence false e ed (Some x) op /\ opens x /\ hinted x) /\
    mapbs demo 9 m b 0 (Some (ctx_new [])) 0 = (Raise ByteStreamTooSmallError, Some c) /\
    fst (hint demo m 0 (Some c)) = Ok (Some h) /\
    maps demo 9 m (b ++ s) 0 [] 0 v n /\ h <= len b.
Proof.
  exists h_lines, (the_map h_lines), (bs [65; 0; 66; 66; 66]), (bs [0]). do 4 eexists.
  split; [apply fine_sound; vm_compute; reflexivity|]. split; [vm_compute; reflexivity|]. split.
  { assert (E : exists m, m = the_map h_lines) by eauto. destruct E as [m E]. rewrite <- E. vm_compute in E. subst m.
    do 4 eexists. split; [reflexivity|]. split.
    - split; [reflexivity|]. split; [reflexivity|]. discriminate.
    - cbn. discriminate. }
  split; [vm_compute; reflexivity|]. split; [vm_compute; reflexivity|].
  split; [eexists; split; vm_compute; reflexivity|]. vm_compute. discriminate.
Qed.

(** A data size that is not a multiple of the size of the elements. *)
Definition h_pair : dtype := DStructure (meta_of "pair") BOLittle [member "a" d_uint8; member "b" d_uint8].
Definition h_pairs : dtype := DElems KSequence (elems_size "pairs" h_pair 5) h_pair.

Lemma data_size_hint_refuted :
  exists d m b s c v n h, everywhere sound d /\ create demo d None = Ok (Some m) /\ hinted_at 0 m /\
    mapbs demo 9 m b 0 (Some (ctx_new [])) 0 = (Raise ByteStreamTooSmallError, Some c) /\
    fst (hint demo m 0 (Some c)) = Ok (Some h) /\
    maps demo 9 m (b ++ s) 0 [] 0 v n /\ n < h.
Proof.
  exists h_pairs, (the_map h_pairs), (bs [3; 1; 2]), (bs [4]). do 4 eexists.
  split; [apply fine_sound; vm_compute; reflexivity|]. split; [vm_compute; reflexivity|].
  split.
  { assert (E : exists m, m = the_map h_pairs) by eauto. destruct E as [m E]. rewrite <- E. vm_compute in E. subst m.
    left. split; [eexists; split; [reflexivity|exact I]|]. exists 2. split; reflexivity. }
  split; [vm_compute; reflexivity|]. split; [vm_compute; reflexivity|].
  split; [eexists; split; vm_compute; reflexivity|]. vm_compute. reflexivity.
Qed.

(** Padding of a nested structure is hinted relative to the start of that. *)
Definition h_nest : dtype :=
  DStructure (meta_of "nest") BOLittle
    [member "a" d_uint8;
     member "inner" (DStructure (meta_of "inner") BOLittle
       [member "b" d_uint8; DPadding (meta_of "pad") BOLittle (Some 4); member "c" d_uint8])].

Lemma nested_padding_hint_refuted :
  exists d m b s c v n h, everywhere sound d /\ create demo d None = Ok (Some m) /\ frugal m /\ unhidden_inside [] m /\
    mapbs demo 9 m b 0 (Some (ctx_new [])) 0 = (Raise ByteStreamTooSmallError, Some c) /\
    fst (hint demo m 0 (Some c)) = Ok (Some h) /\
    maps demo 9 m (b ++ s) 0 [] 0 v n /\ n < h.
Proof.
  exists h_nest, (the_map h_nest), (bs [1]), (bs [2; 3; 4; 5]). do 4 eexists.
  split; [apply fine_sound; vm_compute; reflexivity|]. split; [vm_compute; reflexivity|].
  assert (E : exists m, m = the_map h_nest) by eauto. destruct E as [m E]. rewrite <- E. vm_compute in E. subst m.
  split.
  { cbn [frugal narrow]. split; [intros d [<-|[<-|[]]]; reflexivity|]. split; [exact I|]. split; [|exact I].
    split; [intros d [<-|[<-|[<-|[]]]]; reflexivity|]. auto. }
  split.
  { intros a x [<-|[<-|[]]] Q; cbn in Q; inversion Q; subst x; cbn; auto. split; auto.
    intros [Q'|[]]. discriminate. }
  split; [vm_compute; reflexivity|]. split; [vm_compute; reflexivity|].
  split; [eexists; split; vm_compute; reflexivity|]. vm_compute. reflexivity.
Qed.

(** The default of a group is not asked for a hint: after a mapping of the default
    that fails, the hint is that of the base, here a single byte, however often it
    is followed. *)
Definition h_kind : dtype := DStructure (meta_of "kinds") BOLittle [member "kind" d_uint8].
Definition h_seven : dtype := DElems KStream (elems_size "w" d_uint8 7) d_uint8.
Definition h_one : dtype :=
  DStructure (meta_of "one") BOLittle [member_in "kind" [VInt 1] d_uint8; member "w" h_seven].
Definition h_other : dtype := DStructure (meta_of "other") BOLittle [member "kind" d_uint8; member "w" h_seven].
Definition h_default : dtype := DGroup (meta_of "g") BOLittle h_kind "kind" (Some h_other) [h_one].

Ltac one_structure :=
  intros a [<-|[<-|[]]]; eexists; (split; [reflexivity|]); left; cbn; first [exact I | discriminate].

Ltac one_group d :=
  assert (E : exists m, m = the_map d) by eauto; destruct E as [m E]; rewrite <- E; vm_compute in E; subst m;
  split;
  [ eexists; split; [reflexivity|]
  | intros y [<-|[]]; split; [discriminate|]; eexists; split; [reflexivity|one_structure] ].

Lemma default_hint_refuted :
  exists d m b s c v n h, everywhere sound d /\ create demo d None = Ok (Some m) /\ group_of (hinted_at 0) m /\
    mapbs demo 9 m b 0 (Some (ctx_new [])) 0 = (Raise ByteStreamTooSmallError, Some c) /\
    fst (hint demo m 0 (Some c)) = Ok (Some h) /\
    maps demo 9 m (b ++ s) 0 [] 0 v n /\ h <= len b.
Proof.
  exists h_default, (the_map h_default), (bs [7; 2; 3]), (bs [4; 5; 6; 7; 8]). do 4 eexists.
  split; [apply fine_sound; vm_compute; reflexivity|]. split; [vm_compute; reflexivity|].
  split.
  { one_group h_default. split; [apply constructible_spec; reflexivity|]. intros a [<-|[]]. do 2 eexists. reflexivity. }
  split; [vm_compute; reflexivity|]. split; [vm_compute; reflexivity|].
  split; [eexists; split; vm_compute; reflexivity|]. vm_compute. discriminate.
Qed.

(** A group after another member: as long as its base does not fit, the hint takes
    the group to be as large as the member before it. *)
Definition h_base : dtype := DStructure (meta_of "base") BOLittle [member "kind" d_uint8; member "w" h_seven].
Definition h_group : dtype := DGroup (meta_of "g") BOLittle h_base "kind" None [h_one].
Definition h_holder : dtype := DStructure (meta_of "holder") BOLittle [member "x" d_uint8; member "g" h_group].

Lemma group_member_hint_refuted :
  exists d m b s c v n h, everywhere sound d /\ create demo d None = Ok (Some m) /\
    structure_of (fun x => hinted x \/ (group_of (hinted_at 0) x /\ no_default x)) unconditional m /\
    mapbs demo 9 m b 0 (Some (ctx_new [])) 0 = (Raise ByteStreamTooSmallError, Some c) /\
    fst (hint demo m 0 (Some c)) = Ok (Some h) /\
    maps demo 9 m (b ++ s) 0 [] 0 v n /\ h <= len b.
Proof.
  exists h_holder, (the_map h_holder), (bs [1; 1; 3; 4]), (bs [4; 5; 6; 7; 8]). do 4 eexists.
  split; [apply fine_sound; vm_compute; reflexivity|]. split; [vm_compute; reflexivity|].
  split.
  { assert (E : exists m, m = the_map h_holder) by eauto. destruct E as [m E]. rewrite <- E. vm_compute in E. subst m.
    split; [|intros d [<-|[<-|[]]]; reflexivity].
    intros a [<-|[<-|[]]]; eexists; (split; [reflexivity|]); [left; exact I|]. right. split; [|reflexivity].
    split; [eexists; split; [reflexivity|one_structure]|].
    intros y [<-|[]]; split; [discriminate|]; eexists; split; [reflexivity|one_structure]. }
  split; [vm_compute; reflexivity|]. split; [vm_compute; reflexivity|].
  split; [eexists; split; vm_compute; reflexivity|]. vm_compute. discriminate.
Qed.

(** ** Examples *)

(** A structure with padding, a nested structure and two sequences of structures. *)
Definition h_file : dtype :=
  DStructure (meta_of "file") BOLittle
    [member "n" d_uint8; DPadding (meta_of "pad") BOLittle (Some 4);
     member "head" (DStructure (meta_of "head") BOLittle
       [member "size" d_uint8; member "raw" (DElems KStream (elems_size_expr "raw" d_uint8 "head.size") d_uint8)]);
     member "pairs" (DElems KSequence (elems_number_expr "pairs" h_pair "file.n") h_pair);
     member "z" d_uint16].
Definition h_file_bytes : bytes := bs [2; 0; 0; 0; 3; 65; 66; 67; 1; 2; 3; 4; 255; 0; 9].

Lemma h_file_sound : everywhere sound h_file.
Proof. apply fine_sound. vm_compute. reflexivity. Qed.

Lemma h_file_made : create demo h_file None = Ok (Some (the_map h_file)).
Proof. vm_compute. reflexivity. Qed.

Lemma h_file_hinted : hinted_at 0 (the_map h_file).
Proof.
  assert (E : exists m, m = the_map h_file) by eauto. destruct E as [m E]. rewrite <- E. vm_compute in E. subst m.
  intros a [<-|[<-|[<-|[<-|[<-|[]]]]]]; eexists; (split; [reflexivity|]).
  - left. exact I.
  - right. split; [exact I|reflexivity].
  - left. split; [apply constructible_spec; reflexivity|]. split; [exact I|]. split; [cbn; discriminate|exact I].
  - left. left. split; [eexists; split; [reflexivity|exact I]|]. exists 2. split; reflexivity.
  - left. exact I.
Qed.

Lemma h_file_frugal : frugal (the_map h_file).
Proof.
  assert (E : exists m, m = the_map h_file) by eauto. destruct E as [m E]. rewrite <- E. vm_compute in E. subst m.
  cbn [frugal narrow]. split; [intros d [<-|[<-|[<-|[<-|[<-|[]]]]]]; reflexivity|]. split; [exact I|]. split; [exact I|].
  split; [|split; [split; [reflexivity|discriminate]|split; exact I]]. split; [intros d [<-|[<-|[]]]; reflexivity|]. split; [exact I|]. split; [|exact I].
  cbn. congruence.
Qed.

Lemma h_file_unhidden : unhidden_inside [] (the_map h_file).
Proof.
  assert (E : exists m, m = the_map h_file) by eauto. destruct E as [m E]. rewrite <- E. vm_compute in E. subst m.
  intros a x [<-|[<-|[<-|[<-|[<-|[]]]]]] Q; cbn in Q; inversion Q; subst x; cbn; auto. split; auto. intros [Q'|[]]. discriminate.
Qed.

(** A structure group. *)
Lemma h_group_hinted : group_of (hinted_at 0) (the_map h_group).
Proof. one_group h_group. one_structure. Qed.

Lemma h_group_frugal : group_of (fun x => frugal x /\ unhidden_inside [] x) (the_map h_group).
Proof.
  assert (E : exists m, m = the_map h_group) by eauto. destruct E as [m E]. rewrite <- E. vm_compute in E. subst m.
  assert (N : forall P : Prop, @None pyval <> None -> P) by congruence.
  split.
  - eexists. split; [reflexivity|]. split.
    + cbn [frugal narrow]. split; [intros d [<-|[<-|[]]]; reflexivity|]. split; [exact I|]. split; [apply N|exact I].
    + intros a x [<-|[<-|[]]] Q; cbn in Q; inversion Q; subst x; cbn; auto.
  - intros y [<-|[]]. split; [discriminate|]. eexists. split; [reflexivity|]. split.
    + cbn [frugal narrow]. split; [intros d [<-|[<-|[]]]; reflexivity|]. split; [exact I|]. split; [apply N|exact I].
    + intros a x [<-|[<-|[]]] Q; cbn in Q; inversion Q; subst x; cbn; auto.
Qed.

(** A structure with padding and a sequence of structures inside. *)
Definition h_inner : dtype :=
  DStructure (meta_of "inner") BOLittle
    [member "a" d_uint16; DPadding (meta_of "pad") BOLittle (Some 4); member "b" d_uint32].
Definition h_inners : dtype := DElems KSequence (elems_number "inners" h_inner 3) h_inner.
Definition d_known : dtype :=
  DStructure (meta_of "known") BOLittle
    [member "x" d_uint8; DPadding (meta_of "align") BOLittle (Some 4); member "y" h_inners].

Lemma known_sound : everywhere sound d_known.
Proof. apply fine_sound. vm_compute. reflexivity. Qed.

Lemma known_counted : everywhere counted_or_ended d_known.
Proof. cbn. repeat split; auto. Qed.

Lemma known_whole : all_maps whole (the_map d_known).
Proof.
  assert (E : exists m, m = the_map d_known) by eauto. destruct E as [m E]. rewrite <- E. vm_compute in E. subst m.
  cbn [all_maps whole map fst].
  repeat match goal with |- _ /\ _ => split | |- True => exact I end.
  - apply constructible_spec; reflexivity.
  - intros a [<-|[<-|[<-|[]]]]; discriminate.
  - apply constructible_spec; reflexivity.
  - intros a [<-|[<-|[<-|[]]]]; discriminate.
Qed.

(** A stream with a number of elements and a terminator. *)
Definition h_both : dtype :=
  DElems KStream (mkElems (meta_of "both") BOLittle None None (Some "uint8") (Some (VBytes (bs [0]))) (Some 5) None "utf8") d_uint8.

Lemma known_hint_refuted :
  exists d m n h, everywhere sound d /\ create demo d None = Ok (Some m) /\ all_maps whole m /\
    get_byte_size d = Some n /\ fst (hint demo m 0 None) = Ok (Some h) /\ h < n /\
    exists b v, maps demo 9 m b 0 [] 0 v n.
Proof.
  exists h_both, (the_map h_both), 5, 1.
  split; [apply fine_sound; vm_compute; reflexivity|]. split; [vm_compute; reflexivity|].
  split; [vm_compute; tauto|]. split; [vm_compute; reflexivity|]. split; [vm_compute; reflexivity|]. split; [reflexivity|].
  exists (bs [1; 2; 3; 4; 5]). eexists. eexists. split; [vm_compute; reflexivity|vm_compute; reflexivity].
Qed.
