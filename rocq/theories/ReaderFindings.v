(** Statements about the reader that do not hold: witnesses. *)
From Coq Require Import String List ZArith Bool Lia.
From Verif Require Import Base Ieee Yaml DataTypes Reader Validator SpecReader DemoYaml
  ReaderProofs.
Import ListNotations.
Open Scope Z_scope.
Local Open Scope string_scope.
Local Open Scope list_scope.

(** A negative number of elements and an empty data size are accepted. *)
Definition y_negative : yval :=
  doc [("name", Y "s"); ("type", Y "sequence"); ("element_data_type", Y "uint8");
       ("number_of_elements", YInt (-1))].
Definition y_empty_size : yval :=
  doc [("name", Y "t"); ("type", Y "stream"); ("element_data_type", Y "uint8");
       ("elements_data_size", YInt 0)].

Theorem negative_number_refuted : exists env docs r e1 e2 k1 k2 x1 x2,
  read_file env rreg_empty (Some (docs, YEnd)) = (Ok tt, r)
  /\ skipn 1 (registered r) = [RElems k1 e1 x1; RElems k2 e2 x2]
  /\ re_number e1 = Some (-1) /\ re_data_size e2 = Some 0.
Proof.
  exists demo_env, [y_uint8; y_negative; y_empty_size].
  do 7 eexists. split; [vm_compute; reflexivity|].
  split; [reflexivity|]. split; reflexivity.
Qed.

(** A structure without members is accepted if it has a section. *)
Theorem section_only_refuted : exists env docs r m bo ss,
  read_file env rreg_empty (Some (docs, YEnd)) = (Ok tt, r)
  /\ registered r = [RStructure m bo ss []].
Proof.
  exists demo_env, [y_struct "s" [doc [("section", Y "header")]]].
  do 4 eexists. split; vm_compute; reflexivity.
Qed.

(** The base of a group need not be a structure, let alone have the identifier
    as a member. *)
Definition y_group (base member : string) : yval :=
  doc [("name", Y "g"); ("type", Y "structure-group"); ("base", Y base);
       ("identifier", Y "x"); ("members", YList [Y member])].

Theorem group_base_refuted : exists env docs r m bo base f fmt i ms,
  read_file env rreg_empty (Some (docs, YEnd)) = (Ok tt, r)
  /\ In (RGroup m bo base i None ms) (registered r) /\ base = RInteger f fmt.
Proof.
  exists demo_env, [y_uint8; y_struct "p" [y_member "x" "uint8"]; y_group "uint8" "p"].
  do 8 eexists. split; [vm_compute; reflexivity|].
  split; [right; right; left; reflexivity|reflexivity].
Qed.

(** The size true counts as 1. *)
Theorem size_true_refuted : exists env docs r f fmt,
  read_file env rreg_empty (Some (docs, YEnd)) = (Ok tt, r)
  /\ registered r = [RInteger f fmt] /\ rf_size f = YBool true.
Proof.
  exists demo_env, [doc [("name", Y "i"); ("type", Y "integer");
    ("attributes", doc [("size", YBool true)])]].
  do 3 eexists. split; [vm_compute; reflexivity|]. split; reflexivity.
Qed.

(** The layout of a format may name a data type that does not exist. *)
Theorem layout_refuted : exists env docs r m bo n o md,
  read_file env rreg_empty (Some (docs, YEnd)) = (Ok tt, r)
  /\ registered r = [RFormat m bo [(n, o)] md]
  /\ forall d, In d (registered r) -> ~ names_definition env n d.
Proof.
  exists demo_env, [doc [("name", Y "f"); ("type", Y "format");
    ("layout", YList [doc [("data_type", Y "nowhere"); ("offset", YInt 0)]])]].
  do 6 eexists. split; [vm_compute; reflexivity|]. split; [reflexivity|].
  intros d [<-|[]] [[k [k' [E1 [E2 E3]]]]|[l [a [E [Hin _]]]]].
  - vm_compute in E1, E2. injection E1 as <-. injection E2 as <-. vm_compute in E3. discriminate E3.
  - vm_compute in E. injection E as <-. destruct Hin.
Qed.

(** Keys beside "section" are not checked. *)
Theorem section_keys_refuted : exists env docs v r,
  read_file env rreg_empty (Some (docs, YEnd)) = (Ok tt, r)
  /\ docs = [doc [("name", Y "s"); ("type", Y "structure"); ("members", YList [v])]]
  /\ entry v "no_such_key" (YInt 1).
Proof.
  exists demo_env.
  exists [y_struct "s" [doc [("section", Y "header"); ("no_such_key", YInt 1)]]].
  do 2 eexists. split; [vm_compute; reflexivity|]. split; [reflexivity|].
  eexists. split; reflexivity.
Qed.

(** Keys of enumeration values are not checked. *)
Theorem enum_keys_refuted : exists env docs v r,
  read_file env rreg_empty (Some (docs, YEnd)) = (Ok tt, r)
  /\ docs = [doc [("name", Y "e"); ("type", Y "enumeration"); ("values", YList [v])]]
  /\ entry v "no_such_key" (YInt 1).
Proof.
  exists demo_env.
  exists [doc [("name", Y "e"); ("type", Y "enumeration");
    ("values", YList [doc [("name", Y "a"); ("number", YInt 1); ("no_such_key", YInt 1)]])]].
  do 2 eexists. split; [vm_compute; reflexivity|]. split; [reflexivity|].
  eexists. split; reflexivity.
Qed.

(** A document that is a scalar aborts the check of a directory. *)
Theorem directory_abort_refuted : exists env f g,
  check_file env g = Ok true
  /\ f = Some ([Y "just text"], YEnd)
  /\ check_directory env [f; g] = Raise AttributeError.
Proof.
  exists demo_env, (Some ([Y "just text"], YEnd)), (Some (y_file, YEnd)).
  split; [vm_compute; reflexivity|]. split; [reflexivity|]. vm_compute. reflexivity.
Qed.

(** A group that lists an integer raises AttributeError. *)
Theorem group_member_refuted : exists env docs r,
  read_file env rreg_empty (Some (docs, YEnd)) = (Raise AttributeError, r)
  /\ docs = [y_uint8; y_struct "p" [y_member "x" "uint8"]; y_group "p" "uint8"].
Proof. exists demo_env. do 2 eexists. split; [|reflexivity]. vm_compute. reflexivity. Qed.

(** A terminator that is no ASCII raises UnicodeError. *)
Theorem terminator_encoding_refuted : exists env docs r t,
  read_file env rreg_empty (Some (docs, YEnd)) = (Raise UnicodeError, r)
  /\ docs = [y_uint8; doc [("name", Y "s"); ("type", Y "stream");
       ("element_data_type", Y "uint8"); ("elements_terminator", YStr t)]].
Proof.
  exists demo_env. do 2 eexists. exists [233]. split; [|reflexivity]. vm_compute. reflexivity.
Qed.
