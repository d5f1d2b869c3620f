(** The text of generated classes and what Python makes of it. *)
From Coq Require Import String Ascii List ZArith Bool Lia.
From Verif Require Import Base Ieee PyVal PyStruct DataTypes ClassFactory DataMaps SpecPrim Demo SpecMap SpecCreate DemoProofs ClassText Python SpecText SpecNames TextProofs SpecDoc DocProofs.
Import ListNotations.
Open Scope string_scope.
Open Scope list_scope.
Open Scope Z_scope.

(** C52. Executing the text of a class gives the class of that name with the members as parameters in order, whatever its descriptions say as long as they are harmless.  Calling it sets the attributes to the arguments. *)
Theorem C52_class : forall name desc ms,
  Forall harmless (texts_of desc ms) ->
  let names := map dt_name ms in
  (create_class name ms = Ok name ->
   exists text c, class_text name desc ms = Ok text /\ exec_class text = Some (Ok c) /\
     pc_name c = name /\ pc_params c = names /\
     forall args, (List.length args <= List.length names)%nat ->
       (clear_names name names ->
        exists attrs, call_class c args = Some (Ok (VStruct name attrs)) /\
          Permutation attrs (combine names (args ++ repeat VNone (List.length names - List.length args)%nat))) /\
       (~ clear_names name names ->
        exists e, constructor_raises name names e /\ call_class c args = Some (Raise e))) /\
  (create_class name ms = Raise SyntaxError ->
   exists text, class_text name desc ms = Ok text /\ exec_class text = Some (Raise SyntaxError)) /\
  (create_class name ms = Raise TypeError -> class_text name desc ms = Raise TypeError).
Proof. exact TextProofs.class_executed. Qed.
Print Assumptions C52_class.

Definition t_members : list dtype :=
  [DMember (mkMeta "x" [] (Some "The ""x"" coordinate...")) BONative None (Some "uint8") None d_uint8;
   DMember (mkMeta "n" [] (Some "See C:\temp.")) BONative None (Some "uint16") None d_uint16].

Example C52_example_class :
  Forall harmless (texts_of (Some "A # 'point'") t_members) /\
  create_class "point" t_members = Ok "point"%string /\
  exists text c, class_text "point" (Some "A # 'point'"%string) t_members = Ok text /\ exec_class text = Some (Ok c) /\
    call_class c [VInt 1; VInt 2] = Some (Ok (VStruct "point" [("n", VInt 2); ("x", VInt 1)])).
Proof.
  split; [apply harmless_list; vm_compute; reflexivity|]. split; [vm_compute; reflexivity|].
  eexists. eexists. split; [vm_compute; reflexivity|]. split; [vm_compute; reflexivity|]. vm_compute. reflexivity.
Qed.

(** A member named self, for which the text is not valid. *)
Example C52_example_syntax : exists text,
  class_text "point" None [member "self" d_uint8] = Ok text /\
  create_class "point" [member "self" d_uint8] = Raise SyntaxError /\ exec_class text = Some (Raise SyntaxError).
Proof. eexists. split; [vm_compute; reflexivity|]. split; vm_compute; reflexivity. Qed.

(** C52. The instances that the model of the maps works with are those that the class gives, up to the order in which the attributes are set. *)
Theorem C52_modelled : forall name desc ms text c args,
  create_class name ms = Ok name -> Forall harmless (texts_of desc ms) ->
  class_text name desc ms = Ok text -> exec_class text = Some (Ok c) -> (List.length args <= List.length ms)%nat ->
  match instance name (map dt_name ms) args with
  | Ok (VStruct n attrs) => exists attrs', call_class c args = Some (Ok (VStruct n attrs')) /\ Permutation attrs attrs'
  | r => call_class c args = Some r
  end.
Proof. exact TextProofs.class_modelled. Qed.
Print Assumptions C52_modelled.

(** C52. Other descriptions and type names give the same class. *)
Theorem C52_documentation : forall name desc desc' ms ms',
  create_class name ms = Ok name -> create_class name ms' = Ok name -> map dt_name ms = map dt_name ms' ->
  Forall harmless (texts_of desc ms) -> Forall harmless (texts_of desc' ms') ->
  exists text text' c, class_text name desc ms = Ok text /\ class_text name desc' ms' = Ok text' /\
    exec_class text = Some (Ok c) /\ exec_class text' = Some (Ok c).
Proof. exact TextProofs.class_documented. Qed.
Print Assumptions C52_documentation.

Example C52_example_documentation :
  create_class "point" t_members = Ok "point"%string /\
  create_class "point" [member "x" d_uint32; member "n" d_char] = Ok "point"%string /\
  map dt_name t_members = map dt_name [member "x" d_uint32; member "n" d_char] /\
  Forall harmless (texts_of None t_members) /\ Forall harmless (texts_of None [member "x" d_uint32; member "n" d_char]).
Proof.
  split; [vm_compute; reflexivity|]. split; [vm_compute; reflexivity|]. split; [vm_compute; reflexivity|].
  split; apply harmless_list; vm_compute; reflexivity.
Qed.

(** C52. The text documents the structure and its members. *)
Theorem C52_docstring : forall name desc ms text,
  class_text name desc ms = Ok text ->
  exists about lines sorted_lines code,
    told desc name about /\ Forall2 documents ms lines /\
    Permutation.Permutation lines sorted_lines /\ Sorted.Sorted (fun a b => String.leb a b = true) sorted_lines /\
    let newline := String "010" "" in
    text = ("class " ++ name ++ "(object):" ++ newline ++
            "  """"""" ++ about ++ "." ++ newline ++ newline ++
            "  Attributes:" ++ newline ++ String.concat newline sorted_lines ++ newline ++
            "  """"""" ++ newline ++ newline ++ code)%string.
Proof. exact DocProofs.class_docstring. Qed.
Print Assumptions C52_docstring.

Example C52_example_docstring :
  (exists text, class_text "point" (Some "Two numbers..") t_members = Ok text) /\
  told (Some "Two numbers.."%string) "point" "Two numbers" /\
  Forall2 documents t_members ["    x (int): The ""x"" coordinate."; "    n (int): See C:\temp."].
Proof.
  split; [eexists; vm_compute; reflexivity|]. split; [exact (described_told (Some "Two numbers.."%string) "point")|].
  apply descriptions_document. vm_compute. reflexivity.
Qed.

(** C52. Without that condition text in a description can become code that is executed. *)
Theorem C52_code_refuted : exists name desc ms text ls,
  create_class name ms = Ok name /\ class_text name (Some desc) ms = Ok text /\
  lines_of text = Lexed ls /\ In (2%nat, [TWord "import"; TWord "os"]) ls /\
  exists a b, desc = String.append a (String.append "import os" b).
Proof. exact TextProofs.description_code_refuted. Qed.
Print Assumptions C52_code_refuted.

(** C52. Without that condition a description can make the class text invalid. *)
Theorem C52_escape_refuted : exists name desc ms text,
  create_class name ms = Ok name /\ class_text name (Some desc) ms = Ok text /\
  exec_class text = Some (Raise SyntaxError) /\ desc = "Stored in C:\Users".
Proof. exact TextProofs.description_escape_refuted. Qed.
Print Assumptions C52_escape_refuted.
