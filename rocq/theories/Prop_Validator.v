(** C41: what the validator accepts. *)
From Coq Require Import String Ascii List ZArith Bool Lia.
From Verif Require Import Base Ieee Yaml DataTypes Reader Validator SpecReader DemoYaml SpecDescribe DescribeProofs ValidatorProofs.
Import ListNotations.
Open Scope string_scope.
Open Scope list_scope.
Open Scope Z_scope.

(** C41. Checking a file returns True exactly if it can be opened and parsed to its end and its documents describe definitions. *)
Theorem C41_describes : forall env f,
  check_file env f = Ok true <-> exists docs ds, f = Some (docs, YEnd) /\ says_file env [] docs ds.
Proof. exact ValidatorProofs.validator_describes. Qed.
Print Assumptions C41_describes.

Example C41_example_describes : exists docs ds, Some (y_file, YEnd) = Some (docs, YEnd) /\ says_file demo_env [] docs ds.
Proof. apply C41_describes. vm_compute. reflexivity. Qed.

Example C41_example_not : ~ exists docs ds, Some ([y_point], YEnd) = Some (docs, YEnd) /\ says_file demo_env [] docs ds.
Proof. rewrite <- C41_describes. vm_compute. discriminate. Qed.

(** C41. The exit code of the console script for a directory. *)
Theorem C41_exit_code : forall env files,
  (exit_code (check_directory env files) = Ok 0 <->
   forall f, In f files -> exists docs ds, f = Some (docs, YEnd) /\ says_file env [] docs ds) /\
  (exit_code (check_directory env files) = Ok 1 <->
   (forall f, In f files -> exists ok, check_file env f = Ok ok) /\
   exists f, In f files /\ check_file env f = Ok false) /\
  (forall z, exit_code (check_directory env files) = Ok z -> z = 0 \/ z = 1) /\
  (forall x, exit_code (check_directory env files) = Raise x <-> check_directory env files = Raise x).
Proof. exact ValidatorProofs.validator_exit_code. Qed.
Print Assumptions C41_exit_code.

Example C41_example_exit_code :
  exit_code (check_directory demo_env [Some (y_file, YEnd); Some ([y_point], YEnd); Some (y_file, YEnd)]) = Ok 1 /\
  exit_code (check_directory demo_env [Some (y_file, YEnd); Some (y_file, YEnd)]) = Ok 0.
Proof. split; vm_compute; reflexivity. Qed.
