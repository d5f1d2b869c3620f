(** The classes generated for structures. *)
From Coq Require Import String Ascii List ZArith Bool Lia.
From Verif Require Import Base Ieee PyVal PyStruct DataTypes ClassFactory DataMaps SpecPrim Demo SpecMap SpecCreate DemoProofs SpecHint MapProofs NameProofs.
Import ListNotations.
Open Scope string_scope.
Open Scope list_scope.
Open Scope Z_scope.

(** C40. What calling the class with one argument per member gives: the attributes in order, unless a name hides the class or super or the class name is mangled. *)
Theorem C40_instances : forall cls names args,
  List.length args = List.length names ->
  (clear_names cls names -> instance cls names args = Ok (VStruct cls (combine names args))) /\
  (~ clear_names cls names -> exists e, constructor_raises cls names e /\ instance cls names args = Raise e).
Proof. exact NameProofs.instances. Qed.
Print Assumptions C40_instances.

Example C40_example_instances :
  clear_names "point" ["x"; "y"]%string /\ ~ clear_names "point" ["x"; "point"]%string /\
  instance "point" ["x"; "y"]%string [VInt 1; VInt 2] = Ok (VStruct "point" [("x", VInt 1); ("y", VInt 2)]%string) /\
  instance "point" ["x"; "point"]%string [VInt 1; VInt 2] = Raise TypeError /\
  instance "__point" ["x"; "y"]%string [VInt 1; VInt 2] = Raise NameError /\
  instance "super" ["x"; "y"]%string [VInt 1; VInt 2] = Raise RecursionError.
Proof.
  split; [apply constructible_spec; reflexivity|].
  split; [intros H; apply constructible_spec in H; discriminate|]. repeat split; reflexivity.
Qed.

(** C40. A structure with names that hide one another may have a map but is never mapped. *)
Theorem C40_hidden : forall orc fuel mt bo ms m bs off vals depth,
  create orc (DStructure mt bo ms) None = Ok (Some m) -> ~ clear_names (m_name mt) (map dt_name ms) ->
  (forall v n, ~ maps orc fuel m bs off vals depth v n) /\
  (level m -> exists e, constructor_raises (m_name mt) (map dt_name ms) e /\
     (depth <= 10 -> fails orc fuel m bs off vals depth e) /\
     fst (hint orc m off (Some (ctx_new vals))) = Raise e) /\
  (~ level m -> get_byte_size (DStructure mt bo ms) <> None ->
     fails orc fuel m bs off vals depth ByteStreamTooSmallError \/ fails orc fuel m bs off vals depth MappingError).
Proof. exact NameProofs.hidden. Qed.
Print Assumptions C40_hidden.

Definition s_hidden : dtype :=
  DStructure (meta_of "node") BOLittle [member "next" d_uint16; DElems KStream (elems_number "node" d_uint8 2) d_uint8].

Example C40_example_hidden :
  create_class "node" [member "next" d_uint16; DElems KStream (elems_number "node" d_uint8 2) d_uint8] = Ok "node"%string /\
  create demo s_hidden None = Ok (Some (the_map s_hidden)) /\
  ~ clear_names "node" ["next"; "node"]%string /\ level (the_map s_hidden) /\
  fst (run s_hidden (bs [1; 2; 3; 4]) 0) = Raise TypeError.
Proof.
  split; [reflexivity|]. split; [vm_compute; reflexivity|].
  split; [intros H; apply constructible_spec in H; discriminate|]. split; [vm_compute; exact I|vm_compute; reflexivity].
Qed.

(** C40. In a structure with a byte order, a structure of native byte order is copied under a name with one leading underscore and a structure of native byte order in that one under a name with two, which Python mangles: the outermost structure can never be mapped. *)
Theorem C40_nested : forall orc fuel mt bo ms m mid mt1 ms1 inner mt2 ms2 bs off vals depth v n,
  extensional orc -> create orc (DStructure mt bo ms) None = Ok (Some m) -> bo <> BONative ->
  distinct_types (m_name mt) bo ms ->
  In mid ms -> type_of mid = DStructure mt1 BONative ms1 -> unconditional mid ->
  distinct_types (dt_name (used_type (m_name mt) bo mid)) bo ms1 ->
  In inner ms1 -> type_of inner = DStructure mt2 BONative ms2 -> unconditional inner ->
  m_name mt2 <> EmptyString -> (forall r, String.append "_" (m_name mt2) <> String.append r "__") ->
  ~ maps orc fuel m bs off vals depth v n.
Proof. exact NameProofs.nested_never. Qed.
Print Assumptions C40_nested.

Definition n_inner (bo : byte_order) : dtype := DStructure (meta_of "inner") bo [member "x" d_uint8].
Definition n_mid (bo : byte_order) : dtype := DStructure (meta_of "mid") bo [member "i" (n_inner bo)].
Definition n_outer (bo : byte_order) : dtype := DStructure (meta_of "outer") BOLittle [member "m" (n_mid bo)].

(** With the byte order given at every level the same bytes can be mapped. *)
Example C40_example_nested :
  create demo (n_outer BONative) None = Ok (Some (the_map (n_outer BONative))) /\
  distinct_types "outer" BOLittle [member "m" (n_mid BONative)] /\
  distinct_types "_outer_mid" BOLittle [member "i" (n_inner BONative)] /\
  unconditional (member "m" (n_mid BONative)) /\ unconditional (member "i" (n_inner BONative)) /\
  fst (run (n_outer BONative) (bs [7]) 0) = Raise MappingError /\
  run (n_outer BOLittle) (bs [7]) 0 =
    (Ok (VStruct "outer" [("m", VStruct "mid" [("i", VStruct "inner" [("x", VInt 7)])])]), Some 1).
Proof.
  split; [vm_compute; reflexivity|].
  split; [intros m1 m2 [<-|[]] [<-|[]] H; reflexivity|].
  split; [intros m1 m2 [<-|[]] [<-|[]] H; reflexivity|].
  split; [reflexivity|]. split; [reflexivity|]. split; vm_compute; reflexivity.
Qed.
