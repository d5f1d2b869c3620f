(** Properties of structure maps: the fast path, layout, conditions, supported values, byte orders, padding and nesting. *)
From Coq Require Import String Ascii List ZArith Bool Lia.
From Verif Require Import Base Ieee PyVal PyStruct DataTypes ClassFactory DataMaps SpecPrim Demo SpecMap SpecCreate SpecAttributes DemoProofs AttributeProofs StructProofs LayoutProofs CreateProofs LinearProofs NestProofs PaddingProofs MapProofs.
Import ListNotations.
Open Scope string_scope.
Open Scope list_scope.
Open Scope Z_scope.

(** C12. The fast path gives the member-by-member layout with the own maps of the members, if every member has the byte order of the structure or is native. *)
Theorem C12_fast_path : forall orc fuel mt bo ms d cls ms' attrs op n bs off vals depth,
  create orc (DStructure mt bo ms) None = Ok (Some (MStructure true d cls ms' attrs op)) ->
  distinct_types (m_name mt) bo ms -> clear_names (m_name mt) (map dt_name ms) ->
  get_byte_size (DStructure mt bo ms) = Some n -> 0 <= off ->
  (forall m b, In m ms -> dt_byte_order (type_of m) = Some b ->
     b = BONative \/ order_on (o_host orc) b = order_on (o_host orc) bo) ->
  cls = m_name mt /\ map fst attrs = map dt_name ms /\
  Forall2 (fun m x => create orc (used_type (m_name mt) bo m) None = Ok x) ms (map snd attrs) /\
  forall v k, maps orc fuel (MStructure true d cls ms' attrs op) bs off vals depth v k <->
     exists rs, laid orc fuel cls vals bs depth ms (map snd attrs) off rs /\
       v = partly cls (map dt_name ms) rs /\ k = total rs.
Proof. exact LinearProofs.linear_members. Qed.
Print Assumptions C12_fast_path.

Definition s_fast : dtype := DStructure (meta_of "s") BOLittle [member "a" d_uint8; member "b" d_uint16].

Example C12_example :
  (exists d cls ms attrs op, create demo s_fast None = Ok (Some (MStructure true d cls ms attrs op))) /\
  distinct_types "s" BOLittle [member "a" d_uint8; member "b" d_uint16] /\
  clear_names "s" ["a"; "b"] /\
  get_byte_size s_fast = Some 3 /\
  run s_fast (bs [9; 1; 2; 3]) 1 = (Ok (VStruct "s" [("a", VInt 1); ("b", VInt 770)]), Some 3).
Proof.
  split; [do 5 eexists; vm_compute; reflexivity|].
  split; [|split; [apply constructible_spec; reflexivity|split; reflexivity]].
  intros m1 m2 [<-|[<-|[]]] [<-|[<-|[]]] H; vm_compute in H |- *; congruence.
Qed.

(** C12. In general the fast path gives the member-by-member layout of the members recast to the byte order of the structure. *)
Theorem C12_fast_path_order : forall orc fuel mt bo ms d cls ms' attrs op n bs off vals depth xs,
  create orc (DStructure mt bo ms) None = Ok (Some (MStructure true d cls ms' attrs op)) ->
  distinct_types (m_name mt) bo ms -> clear_names (m_name mt) (map dt_name ms) ->
  get_byte_size (DStructure mt bo ms) = Some n -> 0 <= off ->
  Forall2 (fun m x => create orc (set_name_bo (dt_name (type_of m)) bo (type_of m)) None = Ok x) ms xs ->
  forall v k, maps orc fuel (MStructure true d cls ms' attrs op) bs off vals depth v k <->
     exists rs, laid orc fuel cls vals bs depth ms xs off rs /\
       v = partly cls (map dt_name ms) rs /\ k = total rs.
Proof. exact LinearProofs.linear_order. Qed.
Print Assumptions C12_fast_path_order.

(** A native structure with a big-endian member on a little-endian host: the fast
    path reads 1 where the member on its own is 16777216. *)
Example C12_example_order :
  let s := DStructure (meta_of "s") BONative [member "a" d_int32be] in
  run s (bs [1; 0; 0; 0]) 0 = (Ok (VStruct "s" [("a", VInt 1)]), Some 4) /\
  run d_int32be (bs [1; 0; 0; 0]) 0 = (Ok (VInt 16777216), Some 4).
Proof. repeat split; vm_compute; reflexivity. Qed.

(** C13. A structure maps to a value exactly if the value is a layout of its members one right after the other. *)
Theorem C13_layout : forall orc fuel mt bo ms ov d cls ms' attrs op bs off vals depth,
  extensional orc ->
  create orc (DStructure mt bo ms) ov = Ok (Some (MStructure false d cls ms' attrs op)) ->
  clear_names cls (map dt_name ms) -> depth <= 10 ->
  cls = ov_name ov (m_name mt) /\ map fst attrs = map dt_name ms /\
  forall v n,
    maps orc fuel (MStructure false d cls ms' attrs op) bs off vals depth v n <->
    exists rs, laid orc fuel cls vals bs depth ms (map snd attrs) off rs /\
      v = partly cls (map dt_name ms) rs /\ n = total rs.
Proof. exact LayoutProofs.structure_members. Qed.
Print Assumptions C13_layout.

Definition s_slow : dtype := DStructure (meta_of "s") BOLittle
  [member "n" d_uint8;
   member_if "x" "s.n > 1" d_uint16;
   member "t" (DElems KStream (elems_size_expr "t" d_uint8 "s.n") d_uint8)].

Example C13_example :
  (exists d cls ms attrs op, create demo s_slow None = Ok (Some (MStructure false d cls ms attrs op))) /\
  clear_names "s" ["n"; "x"; "t"] /\
  run s_slow (bs [2; 1; 1; 7; 8; 9]) 0 =
    (Ok (VStruct "s" [("n", VInt 2); ("x", VInt 257); ("t", VBytes (bs [7; 8]))]), Some 5) /\
  run s_slow (bs [1; 7; 8; 9]) 0 =
    (Ok (VStruct "s" [("n", VInt 1); ("x", VNone); ("t", VBytes (bs [7]))]), Some 2).
Proof.
  split; [do 5 eexists; vm_compute; reflexivity|]. split; [apply constructible_spec; reflexivity|].
  split; vm_compute; reflexivity.
Qed.

(** C14. What the condition of a member decides once the members before it are read: the namespace is the structure read so far under its class name and the external values. *)
Theorem C14_condition : forall orc fuel mt bo ms ov d cls ms' attrs op bs off vals depth,
  extensional orc ->
  create orc (DStructure mt bo ms) ov = Ok (Some (MStructure false d cls ms' attrs op)) ->
  clear_names cls (map dt_name ms) -> depth <= 10 ->
  let m := MStructure false d cls ms' attrs op in
  forall before mm mbo cond t values i name x after s off',
  combine ms attrs = before ++ (DMember mm mbo cond t values i, (name, x)) :: after ->
  fields orc fuel cls vals bs depth before (blank cls attrs) off s off' ->
  (undecided orc cond (scope cls s vals) -> fails orc fuel m bs off vals depth MappingError) /\
  (decides orc cond (scope cls s vals) false -> forall v n,
     maps orc fuel m bs off vals depth v n <->
     fields orc fuel cls vals bs depth after s off' v (off + n)) /\
  (decides orc cond (scope cls s vals) true -> forall v n,
     maps orc fuel m bs off vals depth v n <->
     exists y w k, x = Some y /\
       maps orc fuel y bs off' (scope cls s vals) (depth + 1) w k /\ supports values w /\
       fields orc fuel cls vals bs depth after (py_setattr s name w) (off' + k) v (off + n)).
Proof. exact AttributeProofs.member_condition. Qed.
Print Assumptions C14_condition.

Example C14_example :
  (exists d cls ms attrs op before mem name x after s off',
     create demo s_slow None = Ok (Some (MStructure false d cls ms attrs op)) /\
     combine ms attrs = before ++ (mem, (name, x)) :: after /\
     (exists mm mbo t values i, mem = DMember mm mbo (Some "s.n > 1") t values i) /\
     fields demo 9 cls [] (bs [2; 1; 1; 7; 8; 9]) 0 before (blank cls attrs) 0 s off' /\
     decides demo (Some "s.n > 1") (scope cls s []) true) /\
  fst (run (DStructure (meta_of "s") BOLittle [member_if "x" "s.y" d_uint16]) (bs [1; 2]) 0) = Raise MappingError.
Proof.
  split; [|vm_compute; reflexivity].
  do 5 eexists. exists [(member "n" d_uint8, ("n", Some (the_map d_uint8)))],
    (member_if "x" "s.n > 1" d_uint16), "x", (Some (the_map d_uint16)),
    [(member "t" (DElems KStream (elems_size_expr "t" d_uint8 "s.n") d_uint8),
      ("t", Some (the_map (DElems KStream (elems_size_expr "t" d_uint8 "s.n") d_uint8))))],
    (VStruct "s" [("n", VInt 2); ("x", VNone); ("t", VNone)]), 1.
  split; [vm_compute; reflexivity|].
  split; [vm_compute; reflexivity|]. split; [do 5 eexists; reflexivity|].
  split; [|right; eexists; split; [reflexivity|]; split; [discriminate|vm_compute; reflexivity]].
  eapply fields_present with (v := VInt 2) (n := 1).
  - vm_compute. reflexivity.
  - eexists. split; vm_compute; reflexivity.
  - exact I.
  - apply fields_nil.
Qed.

(** C15. After success every member has a supported value, or is None and has a condition. *)
Theorem C15_supported : forall orc fuel mt bo ms lin d cls ms' attrs op bs off vals depth v n,
  extensional orc ->
  create orc (DStructure mt bo ms) None = Ok (Some (MStructure lin d cls ms' attrs op)) ->
  distinct_types (m_name mt) bo ms -> 0 <= off ->
  maps orc fuel (MStructure lin d cls ms' attrs op) bs off vals depth v n ->
  forall mm mbo cond t values i, In (DMember mm mbo cond t values i) ms ->
    supports values (py_getattr v (m_name mm)) \/
    (py_getattr v (m_name mm) = VNone /\ cond <> None /\ cond <> Some EmptyString).
Proof. exact AttributeProofs.member_supported. Qed.
Print Assumptions C15_supported.

Definition s_values : dtype := DStructure (meta_of "s") BOLittle
  [member_in "a" [VInt 1; VInt 3] d_uint8; member "b" d_uint8].

Example C15_example :
  (exists d cls ms attrs op, create demo s_values None = Ok (Some (MStructure true d cls ms attrs op))) /\
  run s_values (bs [3; 4]) 0 = (Ok (VStruct "s" [("a", VInt 3); ("b", VInt 4)]), Some 2) /\
  fst (run s_values (bs [2; 4]) 0) = Raise MappingError.
Proof. split; [do 5 eexists; vm_compute; reflexivity|]. split; vm_compute; reflexivity. Qed.

(** C15. A member that decodes to an unsupported value makes mapping fail, outside of the fast path. *)
Theorem C15_unsupported : forall orc fuel mt bo ms ov d cls ms' attrs op bs off vals depth,
  extensional orc ->
  create orc (DStructure mt bo ms) ov = Ok (Some (MStructure false d cls ms' attrs op)) ->
  clear_names cls (map dt_name ms) -> depth <= 10 ->
  forall before mm mbo cond t values i name x after s off' v n,
  combine ms attrs = before ++ (DMember mm mbo cond t values i, (name, Some x)) :: after ->
  fields orc fuel cls vals bs depth before (blank cls attrs) off s off' ->
  decides orc cond (scope cls s vals) true ->
  maps orc fuel x bs off' (scope cls s vals) (depth + 1) v n ->
  ~ supports values v ->
  fails orc fuel (MStructure false d cls ms' attrs op) bs off vals depth MappingError.
Proof. exact AttributeProofs.member_unsupported. Qed.
Print Assumptions C15_unsupported.

Example C15_example_composite :
  let s := DStructure (meta_of "s") BOLittle
    [member_in "a" [VInt 1; VInt 3] d_uint8; member "t" (DElems KStream (elems_size "t" d_uint8 1) d_uint8)] in
  (exists d cls ms attrs op, create demo s None = Ok (Some (MStructure false d cls ms attrs op))) /\
  fst (run s (bs [2; 4]) 0) = Raise MappingError.
Proof. split; [do 5 eexists; vm_compute; reflexivity|]. vm_compute; reflexivity. Qed.

(** C15. The same on the fast path, where lack of bytes for the whole structure is found first. *)
Theorem C15_unsupported_fast : forall orc fuel mt bo ms d cls ms' attrs op n bs off vals depth xs,
  extensional orc ->
  create orc (DStructure mt bo ms) None = Ok (Some (MStructure true d cls ms' attrs op)) ->
  distinct_types (m_name mt) bo ms -> clear_names (m_name mt) (map dt_name ms) ->
  get_byte_size (DStructure mt bo ms) = Some n -> 0 <= off ->
  Forall2 (fun m x => create orc (set_name_bo (dt_name (type_of m)) bo (type_of m)) None = Ok x) ms xs ->
  forall before mm mbo cond t values i name x after s off' v k,
  combine ms (combine (map dt_name ms) xs) = before ++ (DMember mm mbo cond t values i, (name, Some x)) :: after ->
  fields orc fuel cls vals bs depth before (blank cls attrs) off s off' ->
  maps orc fuel x bs off' (scope cls s vals) (depth + 1) v k ->
  ~ supports values v ->
  fails orc fuel (MStructure true d cls ms' attrs op) bs off vals depth
    (if len bs - off <? n then ByteStreamTooSmallError else MappingError).
Proof. exact AttributeProofs.member_unsupported_fast. Qed.
Print Assumptions C15_unsupported_fast.

Example C15_example_fast :
  fst (run s_values (bs [2]) 0) = Raise ByteStreamTooSmallError /\
  fst (run s_values (bs [2; 4]) 0) = Raise MappingError.
Proof. split; vm_compute; reflexivity. Qed.

(** C24. Padding maps to the least number of bytes that aligns the offset. *)
Theorem C24_padding : forall orc fuel mt bo a bs off vals depth,
  0 < a -> 0 <= off ->
  exists m, create orc (DPadding mt bo (Some a)) None = Ok (Some m) /\
  (forall v n, maps orc fuel m bs off vals depth v n <->
     aligns a off n /\ off + n <= len bs /\ v = VBytes (window bs off n)) /\
  (fails orc fuel m bs off vals depth ByteStreamTooSmallError <->
     exists n, aligns a off n /\ len bs < off + n) /\
  (forall e, fails orc fuel m bs off vals depth e -> e = ByteStreamTooSmallError) /\
  (forall n, aligns a off n -> n < a /\ (off mod a = 0 <-> n = 0)).
Proof. exact PaddingProofs.padding_mapping. Qed.
Print Assumptions C24_padding.

Example C24_example :
  let d := DPadding (meta_of "p") BONative (Some 4) in
  aligns 4 5 3 /\ run d (bs [0; 1; 2; 3; 4; 5; 6; 7; 8]) 5 = (Ok (VBytes (bs [5; 6; 7])), Some 3) /\
  run d (bs [0; 1; 2; 3]) 4 = (Ok (VBytes []), Some 0).
Proof.
  split; [|split; vm_compute; reflexivity]. unfold aligns. split; [lia|]. split; [reflexivity|].
  intros k Hk. assert (k = 0 \/ k = 1 \/ k = 2) as [->|[->| ->]] by lia; vm_compute; discriminate.
Qed.

(** C25. Composite structures and sequences cannot be mapped at a recursion depth above 10. *)
Theorem C25_depth : forall orc fuel,
  forall m bs off c depth,
  10 < depth ->
  (match m with
   | MSequence false _ _ _ _ | MStructure false _ _ _ _ _ => True
   | _ => False
   end) ->
  mapbs orc fuel m bs off c depth = (Raise MappingError, c).
Proof. exact LayoutProofs.depth_bound. Qed.
Print Assumptions C25_depth.

Example C25_example :
  mapbs demo 9 (the_map s_slow) (bs [1; 1; 1; 1]) 0 None 11 = (Raise MappingError, None) /\
  fst (mapbs demo 9 (the_map s_slow) (bs [1; 1; 1; 1]) 0 None 9) = Ok (VStruct "s" [("n", VInt 1); ("x", VNone); ("t", VBytes (bs [1]))]).
Proof. split; vm_compute; reflexivity. Qed.

(** C25. A map with more than ten levels of nesting that are always reached is never mapped. *)
Theorem C25_nested : forall orc fuel,
  extensional orc -> forall k m, nested k m ->
  forall bs off vals depth v n, 10 < depth + Z.of_nat k -> ~ maps orc fuel m bs off vals depth v n.
Proof. exact NestProofs.nested_bound. Qed.
Print Assumptions C25_nested.

Fixpoint deep (k : nat) : dtype :=
  match k with
  | O => s_slow
  | S k => DStructure (meta_of "w") BOLittle [member "a" (deep k)]
  end.

(** Ten levels around the innermost map can be mapped, eleven cannot. *)
Example C25_example_nested :
  nested 11 (the_map (deep 11)) /\
  fst (run (deep 11) (bs [1; 1; 1; 1]) 0) = Raise MappingError /\
  (exists v, fst (run (deep 10) (bs [1; 1; 1; 1]) 0) = Ok v).
Proof.
  split; [|split; [vm_compute; reflexivity|eexists; vm_compute; reflexivity]].
  assert (E : exists m, m = the_map (deep 11)) by eauto. destruct E as [m E]. rewrite <- E. vm_compute in E. subst m.
  repeat (eapply nested_in; [eapply contains_member; [reflexivity|now left|reflexivity]|]).
  apply nested_here. exact I.
Qed.

(** C42. Each member map is created from the data type of the member or a copy of it that differs in name and byte order: the own byte order, or that of the structure if it is native. *)
Theorem C42_members : forall orc mt bo ms lin d cls ms' attrs op,
  create orc (DStructure mt bo ms) None = Ok (Some (MStructure lin d cls ms' attrs op)) ->
  distinct_types (m_name mt) bo ms ->
  Forall2 (fun m a => fst a = dt_name m /\ exists t,
     create orc t None = Ok (snd a) /\
     (t = type_of m \/ exists n, t = set_name_bo n bo (type_of m)) /\
     (forall own, dt_byte_order (type_of m) = Some own ->
        dt_byte_order t = Some (inherited bo own))) ms attrs.
Proof. exact NestProofs.structure_orders. Qed.
Print Assumptions C42_members.

Definition d_native16 : dtype := DInteger (fixed_of "native16" BONative 2) true.
Definition s_big : dtype := DStructure (meta_of "s") BOBig
  [member "a" d_native16; member "t" (DElems KStream (elems_size "t" d_uint8 1) d_uint8)].

Example C42_example :
  (exists d cls ms attrs op, create demo s_big None = Ok (Some (MStructure false d cls ms attrs op))) /\
  run s_big (bs [1; 2; 3]) 0 = (Ok (VStruct "s" [("a", VInt 258); ("t", VBytes (bs [3]))]), Some 3) /\
  run d_native16 (bs [1; 2; 3]) 0 = (Ok (VInt 513), Some 2).
Proof. split; [do 5 eexists; vm_compute; reflexivity|]. split; vm_compute; reflexivity. Qed.

(** C42. Seen from the stored bytes: the map of an integer member reads them in the inherited byte order. *)
Theorem C42_integer_members : forall orc fuel mt bo ms lin d cls ms' attrs op m name x f u n bs off vals depth,
  create orc (DStructure mt bo ms) None = Ok (Some (MStructure lin d cls ms' attrs op)) ->
  distinct_types (m_name mt) bo ms ->
  In (m, (name, x)) (combine ms attrs) -> type_of m = DInteger f u ->
  In n [1; 2; 4; 8] -> sized f n -> 0 <= off -> off + n <= len bs ->
  exists y, x = Some y /\
    maps orc fuel y bs off vals depth
      (VInt (stored_integer (negb u) (order_on (o_host orc) (inherited bo (f_bo f))) (window bs off n))) n.
Proof. exact NestProofs.structure_integer_orders. Qed.
Print Assumptions C42_integer_members.

Example C42_example_integer :
  type_of (member "a" d_native16) = DInteger (fixed_of "native16" BONative 2) true /\
  stored_integer false (order_on (o_host demo) (inherited BOBig BONative)) (bs [1; 2]) = 258 /\
  stored_integer false (order_on (o_host demo) (inherited BOBig BOLittle)) (bs [1; 2]) = 513.
Proof. repeat split. Qed.

(** C42. The element map of a sequence, stream or string is created from the element type or such a copy; composite elements keep their own byte order. *)
Theorem C42_elements : forall orc k e el m,
  create orc (DElems k e el) None = Ok (Some m) ->
  exists own em t,
    dt_byte_order el = Some own /\ create orc t None = Ok em /\
    (t = el \/ exists n, t = set_name_bo n (e_bo e) el) /\
    (composite el -> dt_byte_order t = Some own) /\
    (~ composite el -> dt_byte_order t = Some (inherited (e_bo e) own)) /\
    match m with
    | MSequence _ e' ed em' _ | MStream e' ed em' | MString e' ed em' => e' = e /\ ed = t /\ em' = em
    | _ => False
    end.
Proof. exact AttributeProofs.element_orders. Qed.
Print Assumptions C42_elements.

Example C42_example_elements :
  let q bo := mkElems (meta_of "q") bo None None (Some "x") None (Some 2) None "utf8" in
  run (DElems KSequence (q BOBig) d_native16) (bs [1; 2; 3; 4]) 0 = (Ok (VTuple [VInt 258; VInt 772]), Some 4) /\
  run (DElems KSequence (q BOBig) (DStructure (meta_of "n") BONative [member "a" d_native16])) (bs [1; 2; 3; 4]) 0 =
    (Ok (VTuple [VStruct "n" [("a", VInt 513)]; VStruct "n" [("a", VInt 1027)]]), Some 4).
Proof. split; vm_compute; reflexivity. Qed.

(** C43. Without two different member types of one name every member has the map of its own type. *)
Theorem C43_own_type : forall orc mt bo ms lin d cls ms' attrs op,
  create orc (DStructure mt bo ms) None = Ok (Some (MStructure lin d cls ms' attrs op)) ->
  distinct_types (m_name mt) bo ms ->
  Forall2 (fun m a => fst a = dt_name m /\
     create orc (used_type (m_name mt) bo m) None = Ok (snd a)) ms attrs.
Proof. exact CreateProofs.structure_own_maps. Qed.
Print Assumptions C43_own_type.

Example C43_example :
  (exists d cls ms attrs op, create demo s_slow None = Ok (Some (MStructure false d cls ms attrs op))) /\
  distinct_types "s" BOLittle [member "n" d_uint8; member_if "x" "s.n > 1" d_uint16].
Proof.
  split; [do 5 eexists; vm_compute; reflexivity|]. intros m1 m2 [<-|[<-|[]]] [<-|[<-|[]]] H; vm_compute in H |- *; congruence.
Qed.

(** C43. In general every member has the map of the first member whose type is used under the same name. *)
Theorem C43_clash : forall orc mt bo ms lin d cls ms' attrs op,
  create orc (DStructure mt bo ms) None = Ok (Some (MStructure lin d cls ms' attrs op)) ->
  Forall2 (fun m a => fst a = dt_name m /\ exists m',
     first_namesake (m_name mt) bo ms m = Some m' /\
     create orc (used_type (m_name mt) bo m') None = Ok (snd a)) ms attrs.
Proof. exact NestProofs.structure_first_maps. Qed.
Print Assumptions C43_clash.

(** Two types named x: the second member is read with the type of the first. *)
Example C43_example_clash :
  let x1 := DInteger (fixed_of "x" BOLittle 1) true in
  let x2 := DInteger (fixed_of "x" BOLittle 2) true in
  let s := DStructure (meta_of "s") BOLittle
    [member "a" x1; member "b" x2; member "t" (DElems KStream (elems_size "t" d_uint8 1) d_uint8)] in
  first_namesake "s" BOLittle [member "a" x1; member "b" x2] (member "b" x2) = Some (member "a" x1) /\
  run s (bs [1; 2; 3; 4]) 0 = (Ok (VStruct "s" [("a", VInt 1); ("b", VInt 2); ("t", VBytes (bs [3]))]), Some 3).
Proof. split; vm_compute; reflexivity. Qed.
