(** Properties of the registry, enumerations, member containers and structure classes. *)
From Coq Require Import String Ascii List ZArith Bool Lia.
From Verif Require Import Base PyVal DataTypes Registry ClassFactory SpecContainers Demo ContainerProofs.
Import ListNotations.
Open Scope string_scope.
Open Scope list_scope.
Open Scope Z_scope.

(** C31. After any calls on an empty registry: the definitions listed are those in effect in registration order, their lower-case names are distinct, any letter-case variant of the name of one looks it up, and nothing else is found by name. *)
Theorem C31_registry_lookup : forall cs,
  let log := fst (reg_run reg_empty cs) in
  let r := snd (reg_run reg_empty cs) in
  definitions r = live log /\
  NoDup (map lower_name (live log)) /\
  (forall d name, In d (live log) -> lower_case name = lower_name d -> lookup r name = Some d) /\
  (forall name, ~ In (lower_case name) (map lower_name (live log)) -> ~ In name (map fst (taken log)) ->
     lookup r name = None) /\
  (forall name d, lookup r name = Some d -> In d (live log)).
Proof. exact ContainerProofs.registry_lookup. Qed.
Print Assumptions C31_registry_lookup.

Definition demo_calls : list reg_call :=
  [CallRegister d_uint8;
   CallRegister (DInteger (mkFixed (mkMeta "UInt16" ["WORD"] None) BOLittle (Some 2) "bytes") true);
   CallRegister d_uint16;
   CallDeregister d_uint8;
   CallRegister d_uint32].

Example C31_example :
  let r := snd (reg_run reg_empty demo_calls) in
  map dt_name (live (fst (reg_run reg_empty demo_calls))) = ["UInt16"; "uint32"]%string /\
  map snd (fst (reg_run reg_empty demo_calls)) = [Ok tt; Ok tt; Raise KeyError; Ok tt; Ok tt] /\
  option_map dt_name (lookup r "uINT16") = Some "UInt16"%string /\
  lookup r "uint8" = None.
Proof. repeat split; vm_compute; reflexivity. Qed.

(** C32. When registration and deregistration fail, and that a failed call has no effect on any later outcome, lookup or listing. *)
Theorem C32_registry_failure : forall cs,
  let log := fst (reg_run reg_empty cs) in
  let r := snd (reg_run reg_empty cs) in
  (forall d, fst (register r d) = Ok tt \/ fst (register r d) = Raise KeyError) /\
  (forall d, fst (register r d) = Raise KeyError <->
     In (lower_name d) (map lower_name (live log)) \/
     In (dt_name d) (map fst (taken log)) \/
     (exists a, In a (dt_aliases d) /\ In a (map fst (taken log)))) /\
  (forall d, fst (deregister r d) = Ok tt \/ fst (deregister r d) = Raise KeyError) /\
  (forall d, fst (deregister r d) = Raise KeyError <->
     ~ In (lower_name d) (map lower_name (live log))) /\
  (forall c later, fst (reg_step r c) = Raise KeyError ->
     let run1 := reg_run reg_empty (cs ++ c :: later) in
     let run2 := reg_run reg_empty (cs ++ later) in
     fst run1 = log ++ (c, Raise KeyError) :: skipn (List.length log) (fst run2) /\
     (forall name, lookup (snd run1) name = lookup (snd run2) name) /\
     definitions (snd run1) = definitions (snd run2)).
Proof. exact ContainerProofs.registry_failure. Qed.
Print Assumptions C32_registry_failure.

Example C32_example :
  let r := snd (reg_run reg_empty demo_calls) in
  fst (reg_step r (CallRegister d_uint16)) = Raise KeyError /\
  fst (reg_step r (CallDeregister d_uint8)) = Raise KeyError /\
  In "uint16"%string (map lower_name (live (fst (reg_run reg_empty demo_calls)))).
Proof. repeat split; vm_compute; auto. Qed.

(** C33. An alias of a definition in effect looks it up unless a definition in effect has the lower case of the alias as its name; that definition wins; aliases stay taken forever. *)
Theorem C33_registry_alias : forall cs,
  let log := fst (reg_run reg_empty cs) in
  let r := snd (reg_run reg_empty cs) in
  (forall d a, In d (live log) -> In (a, lower_name d) (taken log) ->
     ~ In (lower_case a) (map lower_name (live log)) -> lookup r a = Some d) /\
  (forall d a, In d (live log) -> lower_case a = lower_name d -> lookup r a = Some d) /\
  (forall d a, In d (live log) -> In a (dt_aliases d) -> In (a, lower_name d) (taken log)) /\
  (forall d a, In a (dt_aliases d) -> In a (map fst (taken log)) ->
     fst (register r d) = Raise KeyError) /\
  (forall later a, In a (map fst (taken log)) ->
     In a (map fst (taken (fst (reg_run reg_empty (cs ++ later)))))) /\
  (forall a n, In (a, n) (taken log) ->
     ~ In (lower_case a) (map lower_name (live log)) ->
     ~ In n (map lower_name (live log)) -> lookup r a = None).
Proof. exact ContainerProofs.registry_alias. Qed.
Print Assumptions C33_registry_alias.

(** The alias B of the first definition is hijacked by a definition named b. *)
Example C33_example :
  let a := DInteger (mkFixed (mkMeta "first" ["B"] None) BOLittle (Some 1) "bytes") true in
  let b := DInteger (mkFixed (mkMeta "b" [] None) BOLittle (Some 1) "bytes") true in
  let r1 := snd (reg_run reg_empty [CallRegister a]) in
  let r2 := snd (reg_run reg_empty [CallRegister a; CallRegister b]) in
  let r3 := snd (reg_run reg_empty [CallRegister a; CallDeregister a]) in
  option_map dt_name (lookup r1 "B") = Some "first"%string /\
  option_map dt_name (lookup r2 "B") = Some "b"%string /\
  lookup r3 "B" = None /\
  fst (register r3 a) = Raise KeyError.
Proof. repeat split; vm_compute; reflexivity. Qed.

(** C34. After any AddValue calls with integer numbers: names, numbers and aliases of the kept values are distinct, each is found by name, alias and number, and a call is rejected without effect exactly if it clashes with a kept value. *)
Theorem C34_enumeration : forall vs,
  Forall (fun v => integral (ev_number v)) vs ->
  let log := fst (enum_run enum_empty vs) in
  let e := snd (enum_run enum_empty vs) in
  let kept := accepted log in
  en_values e = kept /\
  NoDup (map ev_name kept) /\
  (forall i j v w, nth_error kept i = Some v -> nth_error kept j = Some w -> i <> j ->
     py_eq (ev_number v) (ev_number w) = false /\
     (forall a, ~ (In a (ev_aliases v) /\ In a (ev_aliases w)))) /\
  (forall v, In v kept ->
     dict_get (ev_name v) (en_per_name e) = Some v /\
     (forall a, In a (ev_aliases v) -> dict_get a (en_per_alias e) = Some v) /\
     (forall n, integral n -> py_eq n (ev_number v) = true ->
        num_get n (en_per_number e) = Some v /\ enum_get_name e n = Some (ev_name v))) /\
  (forall n, (forall v, In v kept -> py_eq n (ev_number v) = false) -> enum_get_name e n = None) /\
  (forall x v, dict_get x (en_per_name e) = Some v -> In v kept /\ ev_name v = x) /\
  (forall x v, dict_get x (en_per_alias e) = Some v -> In v kept /\ In x (ev_aliases v)) /\
  (forall n v, num_get n (en_per_number e) = Some v -> In v kept /\ py_eq n (ev_number v) = true) /\
  (forall v, integral (ev_number v) ->
     (fst (enum_add e v) = Ok tt /\ ~ clashes kept v) \/
     (enum_add e v = (Raise KeyError, e) /\ clashes kept v)).
Proof. exact ContainerProofs.enumeration_history. Qed.
Print Assumptions C34_enumeration.

Example C34_example :
  let v n k a := mkEnumValue n (VInt k) a None in
  let vs := [v "one" 1 ["uno"]; v "two" 2 []; v "other" 1 []; v "three" 3 ["uno"]]%string in
  Forall (fun v => integral (ev_number v)) vs /\
  map ev_name (accepted (fst (enum_run enum_empty vs))) = ["one"; "two"]%string /\
  enum_get_name (snd (enum_run enum_empty vs)) (VInt 2) = Some "two"%string /\
  enum_get_name (snd (enum_run enum_empty vs)) (VInt 3) = None.
Proof. repeat split; try (vm_compute; reflexivity). repeat constructor. Qed.

(** C35. After any calls on an empty structure or union: members are those added, in order, with distinct names; sections hold the members added while they were last; adding a duplicate changes nothing; GetByteSize is never stale. *)
Theorem C35_container : forall union cs,
  let log := fst (mem_run union struct_empty cs) in
  let s := snd (mem_run union struct_empty cs) in
  map snd (ss_members s) = added log /\
  map fst (ss_members s) = map dt_name (added log) /\
  NoDup (map dt_name (added log)) /\
  map (fun x => (sec_name x, sec_members x)) (ss_sections s) = sectioned log /\
  added log = segment log ++ concat (map snd (sectioned log)) /\
  (forall d, snd (struct_add_member s d) = s <-> In (dt_name d) (map dt_name (added log))) /\
  (forall d, fst (struct_add_member s d) = Ok tt <-> ~ In (dt_name d) (map dt_name (added log))) /\
  fst (if union then union_get_byte_size s else struct_get_byte_size s) =
    (if union then get_byte_size (DUnion (mkMeta "" [] None) BONative (added log))
     else get_byte_size (DStructure (mkMeta "" [] None) BONative (added log))).
Proof. exact ContainerProofs.container_history. Qed.
Print Assumptions C35_container.

Example C35_example :
  let calls := [CallAddMember (member "a" d_uint8); CallByteSize; CallAddSection "s";
                CallAddMember (member "b" d_uint32); CallAddMember (member "a" d_uint16); CallByteSize] in
  map snd (fst (mem_run false struct_empty calls)) =
    [OutAdded (Ok tt); OutSize (Some 1); OutNothing; OutAdded (Ok tt); OutAdded (Raise KeyError);
     OutSize (Some 5)] /\
  map fst (sectioned (fst (mem_run false struct_empty calls))) = ["s"%string].
Proof. repeat split; vm_compute; reflexivity. Qed.

(** C35. The byte size of a structure is the end of its members laid out from offset 0. *)
Theorem C35_structure_size : forall m bo ms n,
  Forall (fun d => forall m bo a, d = DPadding m bo (Some a) -> 0 <= a) ms ->
  get_byte_size (DStructure m bo ms) = Some n <-> ms <> [] /\ laid_out 0 ms n.
Proof. exact ContainerProofs.structure_size_layout. Qed.
Print Assumptions C35_structure_size.

Example C35_example_size :
  get_byte_size (DStructure (meta_of "s") BOLittle
    [member "a" d_uint8; DPadding (meta_of "p") BONative (Some 4); member "b" d_uint16]) = Some 6.
Proof. reflexivity. Qed.

(** C35. The byte size of a union is the largest size of its members. *)
Theorem C35_union_size : forall m bo ms n,
  get_byte_size (DUnion m bo ms) = Some n <->
  ms <> [] /\ exists sizes, map get_byte_size ms = map Some sizes /\ n = fold_left Z.max sizes 0.
Proof. exact ContainerProofs.union_size_max. Qed.
Print Assumptions C35_union_size.

Example C35_example_union :
  get_byte_size (DUnion (meta_of "u") BOLittle [member "a" d_uint8; member "b" d_uint32]) = Some 4.
Proof. reflexivity. Qed.

(** C40. For which names and members a class is created, what the other outcomes are, and what the constructor does with its arguments. The member name self passes validation and makes compilation fail. *)
Theorem C40_class_factory : forall name ms,
  let names := map dt_name ms in
  (create_class name ms = Ok name <->
   assignable name /\ names <> [] /\ Forall usable names /\
   Forall (fun n => forall r, n <> String "_"%char r) names /\ NoDup names /\
   Forall describable ms /\ ~ In "self"%string names) /\
  (create_class name ms = Ok name \/ create_class name ms = Raise ValueError \/
   create_class name ms = Raise TypeError \/ create_class name ms = Raise SyntaxError) /\
  (create_class name ms = Raise SyntaxError <->
   usable name /\ names <> [] /\ Forall usable names /\
   Forall (fun n => forall r, n <> String "_"%char r) names /\ NoDup names /\
   Forall describable ms /\ (In "self"%string names \/ name = "__debug__"%string)) /\
  (forall args, Datatypes.length args = Datatypes.length names ->
     new_struct name names args = VStruct name (combine names args)) /\
  (forall args more,
     new_struct name names args = new_struct name names (args ++ repeat VNone more)).
Proof. exact ContainerProofs.class_created. Qed.
Print Assumptions C40_class_factory.

Example C40_example :
  create_class "point" [member "x" d_uint8; member "y" d_uint8] = Ok "point"%string /\
  create_class "point" [member "x" d_uint8; member "self" d_uint8] = Raise SyntaxError /\
  create_class "point" [member "class" d_uint8] = Raise ValueError /\
  new_struct "point" ["x"; "y"]%string [VInt 1] = VStruct "point" [("x", VInt 1); ("y", VNone)]%string.
Proof. repeat split; vm_compute; reflexivity. Qed.
