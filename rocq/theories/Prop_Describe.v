(** What definition files say. *)
From Coq Require Import String Ascii List ZArith Bool Lia.
From Verif Require Import Base Ieee Yaml DataTypes Reader Validator SpecReader DemoYaml SpecDescribe DescribeProofs SpecEqual IntProofs.
Import ListNotations.
Open Scope string_scope.
Open Scope list_scope.
Open Scope Z_scope.

(** C46. Reading a file into an empty registry succeeds with these definitions, in this order, exactly if the documents describe them: nothing described is refused, dropped, altered or made up. *)
Theorem C46_file : forall env docs ds,
  (exists r, read_file env rreg_empty (Some (docs, YEnd)) = (Ok tt, r) /\ registered r = ds) <->
  says_file env [] docs ds.
Proof. exact DescribeProofs.file_says. Qed.
Print Assumptions C46_file.

Definition say_pair : yval :=
  doc [("name", Y "pair"); ("type", Y "structure");
       ("attributes", doc [("byte_order", Y "big-endian")]);
       ("members", YList [y_member "a" "BYTE";
                          doc [("name", Y "magic"); ("type", Y "stream"); ("element_data_type", Y "uint8");
                               ("elements_data_size", Y "pair.a * 2"); ("value", Y "MZ")]])].

Example C46_example : exists u8 pair,
  says_file demo_env [] [y_uint8; say_pair] [u8; pair] /\
  rd_aliases u8 = YList [Y "BYTE"] /\ rd_byte_order pair = Y "big-endian" /\
  match pair with
  | RStructure _ _ [] [RMember _ _ _ dt None (RInteger f fmt);
                       RMember _ _ YNull YNull (Some [v]) (RElems KStream e _)] =>
      dt = Y "BYTE" /\ rf_size f = YInt 1 /\ fmt = Y "unsigned" /\ v = YBytes [Byte.x4d; Byte.x5a]
      /\ re_data_size_expr e = Some (Y "pair.a * 2") /\ re_number e = None
  | _ => False
  end.
Proof.
  do 2 eexists. split.
  - apply file_says. eexists. split; vm_compute; reflexivity.
  - vm_compute. repeat split.
Qed.

(** Documents that describe nothing. *)
Example C46_refused : forall ds, ~ says_file demo_env [] [y_point] ds.
Proof.
  intros ds H. apply file_says in H. destruct H as [r [H _]]. vm_compute in H. discriminate H.
Qed.

(** C46. What documents describe is unambiguous. *)
Theorem C46_unique : forall env docs ds ds',
  says_file env [] docs ds -> says_file env [] docs ds' -> ds = ds'.
Proof. exact DescribeProofs.says_unique. Qed.
Print Assumptions C46_unique.

(** C46. A number with a fraction where a whole number is expected, such as a number of elements, loses its fraction; infinities and NaN are refused. *)
Theorem C46_int : forall env bits q s m,
  (double_value bits q -> exists z, y_int env (YFloat bits) = Ok z /\ truncated q z) /\
  (0 <= s <= 1 -> y_int env (YFloat (pattern s 2047 0)) = Raise OverflowError) /\
  (0 <= s <= 1 -> 0 < m < 2 ^ 52 -> y_int env (YFloat (pattern s 2047 m)) = Raise ValueError).
Proof. exact IntProofs.int_of_number. Qed.
Print Assumptions C46_int.

(** 4.75 is taken as 4, -4.75 as -4. *)
Example C46_example_int :
  (exists z, y_int demo_env (YFloat (pattern 0 1025 844424930131968)) = Ok z /\ z = 4) /\
  (exists z, y_int demo_env (YFloat (pattern 1 1025 844424930131968)) = Ok z /\ z = -4).
Proof.
  split.
  - pose proof (DNormal 0 1025 844424930131968 ltac:(lia) ltac:(lia) ltac:(lia)) as D.
    destruct (proj1 (C46_int demo_env _ _ 0 1) D) as (z & H & _).
    exists z. split; [exact H|]. vm_compute in H. congruence.
  - pose proof (DNormal 1 1025 844424930131968 ltac:(lia) ltac:(lia) ltac:(lia)) as D.
    destruct (proj1 (C46_int demo_env _ _ 0 1) D) as (z & H & _).
    exists z. split; [exact H|]. vm_compute in H. congruence.
Qed.
