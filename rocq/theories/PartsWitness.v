(** Sizes of values of definitions whose elements do or do not take up space. *)
From Coq Require Import String List ZArith Bool Lia.
From Verif Require Import Base PyVal PyStruct DataTypes ClassFactory DataMaps Expr Codec Demo.
From Verif Require Import BytesProofs SpecPrim PrimProofs SpecMap SpecCreate SpecSize DemoProofs MapProofs StructProofs SeqProofs
  SteadyProofs WindowProofs FindingProofs SpecCodec CodecProofs FuelProofs PartsProofs.
Import ListNotations.
Open Scope Z_scope.
Open Scope string_scope.
Open Scope list_scope.

(** ** The codecs *)

Lemma utf8_shorter : forall s b, utf8_encode s = Some b -> len s <= len b.
Proof.
  induction s as [|c s IH]; intros b H; cbn [utf8_encode] in H; [injection H as <-; unfold len; cbn; lia|].
  destruct (utf8_enc1 c) as [a|] eqn:A; [|discriminate]. destruct (utf8_encode s) as [r|]; [|discriminate]. injection H as <-.
  specialize (IH _ eq_refl). rewrite len_app. assert (1 <= len a).
  { unfold utf8_enc1 in A. repeat match type of A with (if ?x then _ else _) = _ => destruct x end; try discriminate;
      injection A as <-; unfold len; cbn; lia. }
  unfold len in *. cbn [List.length]. lia.
Qed.

Lemma utf16_shorter : forall s u, utf16_units s = Some u -> len s <= len u.
Proof.
  induction s as [|c s IH]; intros b H; cbn [utf16_units] in H; [injection H as <-; unfold len; cbn; lia|].
  destruct (utf16_enc1 c) as [a|] eqn:A; [|discriminate]. destruct (utf16_units s) as [r|]; [|discriminate]. injection H as <-.
  specialize (IH _ eq_refl). rewrite len_app. assert (1 <= len a).
  { unfold utf16_enc1 in A. repeat match type of A with (if ?x then _ else _) = _ => destruct x end; try discriminate;
      injection A as <-; unfold len; cbn; lia. }
  unfold len in *. cbn [List.length]. lia.
Qed.

Lemma flat_longer {A B} (f : A -> list B) l : (forall x, 1 <= len (f x)) -> len l <= len (flat_map f l).
Proof.
  intros H. induction l as [|x l IH]; cbn [flat_map]; [unfold len; cbn; lia|]. rewrite len_app. specialize (H x).
  unfold len in *. cbn [List.length]. lia.
Qed.

Lemma encode_longer enc s b : encode enc s = Some b -> len s <= len b.
Proof.
  intros H. unfold encode in H.
  repeat match type of H with (if ?x then _ else _) = _ => destruct x end; try discriminate.
  - unfold narrow_encode in H. destruct (forallb _ _); [|discriminate]. injection H as <-. unfold len. rewrite map_length. lia.
  - unfold narrow_encode in H. destruct (forallb _ _); [|discriminate]. injection H as <-. unfold len. rewrite map_length. lia.
  - now apply utf8_shorter.
  - unfold utf16_encode in H. destruct (utf16_units s) as [u|] eqn:U; [|discriminate]. cbn in H. injection H as <-.
    apply utf16_shorter in U. pose proof (flat_longer (unit_bytes false) u ltac:(intros; unfold len; cbn; lia)). lia.
  - unfold utf16_encode in H. destruct (utf16_units s) as [u|] eqn:U; [|discriminate]. cbn in H. injection H as <-.
    apply utf16_shorter in U. pose proof (flat_longer (unit_bytes true) u ltac:(intros; unfold len; cbn; lia)). lia.
  - unfold utf32_encode in H. destruct (forallb _ _); [|discriminate]. injection H as <-. apply flat_longer. intros. unfold len; cbn; lia.
  - unfold utf32_encode in H. destruct (forallb _ _); [|discriminate]. injection H as <-. apply flat_longer. intros. unfold len; cbn; lia.
Qed.

Lemma decode_known enc b s : decode enc b = Some s -> known enc.
Proof.
  unfold decode, known. cbn [In].
  destruct (String.eqb_spec enc "ascii") as [->|_]; [tauto|]. destruct (String.eqb_spec enc "iso-8859-1") as [->|_]; [tauto|].
  destruct (String.eqb_spec enc "utf8") as [->|_]; [tauto|]. destruct (String.eqb_spec enc "utf-8") as [->|_]; [tauto|].
  cbn [orb]. destruct (String.eqb_spec enc "utf-16-le") as [->|_]; [tauto|]. destruct (String.eqb_spec enc "utf-16-be") as [->|_]; [tauto|].
  destruct (String.eqb_spec enc "utf-32-le") as [->|_]; [tauto|]. destruct (String.eqb_spec enc "utf-32-be") as [->|_]; [tauto|]. discriminate.
Qed.

Lemma never_longer_demo : never_longer demo.
Proof.
  intros enc b s H. cbn in H. pose proof (decode_known _ _ _ H) as K. apply (encode_decode enc s b K) in H. now apply encode_longer in H.
Qed.

(** ** Elements that take up space *)

Definition d_entry : dtype :=
  DStructure (meta_of "entry") BOLittle [member "tag" d_uint16; member_if "more" "entry.tag > 255" d_uint32].
Definition d_entries : dtype := DElems KSequence (elems_number_expr "entries" d_entry "table.count") d_entry.
Definition d_label : dtype := DElems KString (elems_term "label" d_char (VBytes (bs [0]))) d_char.
Definition d_table : dtype :=
  DStructure (meta_of "table") BOLittle [member "count" d_uint32; member "label" d_label; member "entries" d_entries].

Lemma table_sound : everywhere sound d_table.
Proof. apply fine_sound. vm_compute. reflexivity. Qed.

Lemma table_occupied : everywhere elements_occupy d_table.
Proof. cbn. repeat split; auto; left; auto. Qed.

(** ** Elements that do not *)

Definition d_swarm : dtype :=
  DStructure (meta_of "swarm") BOLittle [member "count" d_uint32; member "items" (DElems KSequence (elems_number_expr "items" hollow "swarm.count") hollow)].

Lemma swarm_sound : everywhere sound d_swarm.
Proof. apply fine_sound. vm_compute. reflexivity. Qed.

Definition d_items : dtype := DElems KSequence (elems_number_expr "items" hollow "swarm.count") hollow.
Definition items_map : dmap :=
  MSequence false (elems_number_expr "items" hollow "swarm.count") hollow (Some (the_map hollow)) None.
Definition void : pyval := VStruct "hollow" [("a", VNone)].

Lemma swarm_map : the_map d_swarm =
  MStructure false d_swarm "swarm" [member "count" d_uint32; member "items" d_items]
    [("count", Some (the_map d_uint32)); ("items", Some items_map)] None.
Proof. vm_compute. reflexivity. Qed.

Lemma hollow_map : the_map hollow =
  MStructure false hollow "hollow" [member_if "a" "0 > 1" d_uint8] [("a", Some (the_map d_uint8))] None.
Proof. vm_compute. reflexivity. Qed.

Lemma void_maps fuel b off depth : depth <= 10 -> maps demo fuel (the_map hollow) b off [] depth void 0.
Proof.
  intros D. rewrite hollow_map.
  apply (structure_layout demo fuel hollow "hollow" [member_if "a" "0 > 1" d_uint8] [("a", Some (the_map d_uint8))] None b off [] depth extensional_demo);
    auto; [discriminate|apply constructible_spec; vm_compute; reflexivity|].
  rewrite Z.add_0_r. cbn [combine]. apply fields_absent; [vm_compute; reflexivity|]. apply fields_nil.
Qed.

Lemma void_elements fuel b off depth k : off < len b -> depth < 10 ->
  elements demo fuel (the_map hollow) b depth off (repeat void k) off.
Proof.
  intros L D. induction k as [|k IH]; cbn [repeat]; [constructor|].
  apply (elements_cons demo fuel (the_map hollow) b depth off void 0); auto; [apply void_maps; lia|]. now rewrite Z.add_0_r.
Qed.

Lemma count_maps fuel z depth : 0 <= z < 2 ^ 32 ->
  maps demo fuel (the_map d_uint32) (le_enc 4 z ++ [Byte.x00]) 0 [] depth (VInt z) 4 /\
  forall vals, maps demo fuel (the_map d_uint32) (le_enc 4 z ++ [Byte.x00]) 0 vals depth (VInt z) 4.
Proof.
  intros R. assert (A : forall vals, maps demo fuel (the_map d_uint32) (le_enc 4 z ++ [Byte.x00]) 0 vals depth (VInt z) 4); [|auto].
  intros vals. pose proof (le_enc_length 4 z) as L. pose proof (le_val_enc 4 z) as V. remember (le_enc 4 z) as b eqn:E. clear E.
  destruct b as [|b0 [|b1 [|b2 [|b3 [|]]]]]; try discriminate L.
  exists (set_byte_size (Some 4) (set_sizes None (Some 4) (ctx_new vals))). split; [|reflexivity].
  assert (Q : the_map d_uint32 = MPrim d_uint32 (Some (mkOp Little [(1, CI)]))) by (vm_compute; reflexivity). rewrite Q.
  transitivity (Ok (VInt (le_val [b0; b1; b2; b3])), Some (set_byte_size (Some 4) (set_sizes None (Some 4) (ctx_new vals)))).
  { vm_compute. reflexivity. }
  rewrite V. change (256 ^ Z.of_nat 4) with (2 ^ 32). rewrite Z.mod_small by lia. reflexivity.
Qed.

Lemma swarm_maps z : 0 < z < 2 ^ 32 ->
  maps demo (S (Z.to_nat z)) (the_map d_swarm) (le_enc 4 z ++ [Byte.x00]) 0 [] 0
    (VStruct "swarm" [("count", VInt z); ("items", VTuple (repeat void (Z.to_nat z)))]) 4.
Proof.
  intros R. set (b := le_enc 4 z ++ [Byte.x00]). assert (LB : len b = 5) by (unfold b, len; rewrite app_length, le_enc_length; reflexivity).
  rewrite swarm_map. set (fuel := S (Z.to_nat z)).
  apply (structure_layout demo fuel d_swarm "swarm" [member "count" d_uint32; member "items" d_items]
    [("count", Some (the_map d_uint32)); ("items", Some items_map)] None b 0 [] 0 extensional_demo);
    auto; [discriminate|apply constructible_spec; vm_compute; reflexivity|lia|].
  cbn [combine]. eapply (fields_present demo fuel "swarm" [] b 0 _ "count" _ _ _ 0 (VInt z) 4); [reflexivity|apply count_maps; lia|exact I|].
  eapply (fields_present demo fuel "swarm" [] b 0 _ "items" _ _ _ (0 + 4) (VTuple (repeat void (Z.to_nat z))) 0); [reflexivity| |exact I|apply fields_nil].
  set (vals := scope _ _ _).
  assert (B : fst (seq_bounds demo (elems_number_expr "items" hollow "swarm.count") hollow (Some (ctx_new vals))) = Ok (Some z, None, None)).
  { unfold seq_bounds, eval_number. cbn [has_data_size has_terminator has_number elems_number_expr e_data_size e_data_size_expr e_terminator e_number e_number_expr is_some orb truthy_Z truthy_str].
    assert (EV : o_eval demo "swarm.count" (ns (ctx_values (Some (ctx_new vals)))) = EvInt z) by (vm_compute; reflexivity).
    cbn [String.eqb]. rewrite EV. cbn [check_size]. destruct (Z.ltb_spec z 0); [lia|]. reflexivity. }
  apply (sequence_layout demo fuel (the_map hollow) b (0 + 1) (Some z) None None (0 + 4) _ hollow None vals extensional_demo); try lia; auto.
  - intros fuel' bs' off' vals' depth' v n Ho M. rewrite hollow_map in M.
    assert (C : contained demo (the_map hollow)).
    { apply steady_contained; [exact extensional_demo|]. eapply (all_steady demo hollow); [apply fine_sound; vm_compute; reflexivity|vm_compute; reflexivity]. }
    rewrite hollow_map in C. exact (contained_nonneg _ _ C _ _ _ _ _ _ _ Ho M).
  - discriminate.
  - exists (repeat void (Z.to_nat z)). split; auto. split; [split|split].
    + rewrite Z.add_0_r. apply void_elements; lia.
    + intros before after n' Q NE _ [K|[(s & K & _)|(t & K & _)]]; try discriminate. injection K as K.
      apply (f_equal (@List.length pyval)) in Q. rewrite repeat_length, app_length in Q. unfold len in K.
      destruct after; [congruence|]. cbn [List.length] in Q. lia.
    + cbn [accepted]. unfold len. rewrite repeat_length. lia.
    + left. rewrite repeat_length. unfold fuel. lia.
Qed.

(** Five bytes that claim [z] elements of no size map to a value of as many
    parts. *)
Lemma swarm_refuted : exists d m, everywhere sound d /\ create demo d None = Ok (Some m) /\
  forall z, 0 < z < 2 ^ 32 -> exists fuel b v, len b = 5 /\ maps demo fuel m b 0 [] 0 v 4 /\ z < parts v.
Proof.
  exists d_swarm, (the_map d_swarm). split; [exact swarm_sound|]. split; [vm_compute; reflexivity|].
  intros z R. exists (S (Z.to_nat z)), (le_enc 4 z ++ [Byte.x00]), (VStruct "swarm" [("count", VInt z); ("items", VTuple (repeat void (Z.to_nat z)))]).
  split; [unfold len; rewrite app_length, le_enc_length; reflexivity|]. split; [now apply swarm_maps|].
  rewrite parts_struct. cbn [map snd]. rewrite parts_tuple. unfold PartsProofs.sum at 1. cbn [fold_right].
  assert (Q : forall k, PartsProofs.sum (map parts (repeat void k)) = 2 * Z.of_nat k).
  { induction k as [|k IH]; cbn [repeat map PartsProofs.sum fold_right]; [reflexivity|]. unfold PartsProofs.sum in IH. rewrite IH.
    change (parts void) with 2. lia. }
  rewrite Q. cbn [parts]. lia.
Qed.
