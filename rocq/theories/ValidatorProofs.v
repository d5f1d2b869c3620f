(** What the validator accepts, in terms of what files describe. *)
From Coq Require Import String List ZArith Bool.
From Verif Require Import Base Yaml Reader Validator SpecReader SpecDescribe ReaderTotal ReadFileProofs DescribeProofs.
Import ListNotations.
Open Scope Z_scope.

Lemma read_docs_end env docs e : forall r last r', read_docs env r last docs e = (Ok tt, r') -> e = YEnd.
Proof.
  induction docs as [|d docs IH]; intros r last r' H; cbn [read_docs] in H.
  - destruct e; congruence.
  - destruct (read_definition env r d) as [x|[n|x]|]; try discriminate.
    destruct (rregister env r x) as [r1| |]; try discriminate. eauto.
Qed.

Lemma validator_describes : forall env f,
  check_file env f = Ok true <-> exists docs ds, f = Some (docs, YEnd) /\ says_file env [] docs ds.
Proof.
  intros env f. unfold check_file. split.
  - intros H. destruct f as [[docs e]|]; [|discriminate H].
    destruct (read_file env rreg_empty (Some (docs, e))) as [[u|x|] r'] eqn:Q; cbn [fst] in H; try (destruct x; discriminate); try discriminate.
    destruct u. assert (e = YEnd) as -> by (eapply read_docs_end; exact Q). exists docs, (registered r'). split; auto.
    apply file_says. eauto.
  - intros (docs & ds & -> & S). apply file_says in S. destruct S as (r' & -> & _). reflexivity.
Qed.

(** The exit code of the console script. *)
Lemma validator_exit_code : forall env files,
  (exit_code (check_directory env files) = Ok 0 <->
   forall f, In f files -> exists docs ds, f = Some (docs, YEnd) /\ says_file env [] docs ds) /\
  (exit_code (check_directory env files) = Ok 1 <->
   (forall f, In f files -> exists ok, check_file env f = Ok ok) /\
   exists f, In f files /\ check_file env f = Ok false) /\
  (forall z, exit_code (check_directory env files) = Ok z -> z = 0 \/ z = 1) /\
  (forall x, exit_code (check_directory env files) = Raise x <-> check_directory env files = Raise x).
Proof.
  intros env files. destruct (validator_directory env files) as (T & F & _). split; [|split; [|split]].
  - assert (E : exit_code (check_directory env files) = Ok 0 <-> check_directory env files = Ok true).
    { unfold exit_code, res_map. destruct (check_directory env files) as [[]| |]; split; congruence. }
    rewrite E, T. split; intros H f I; apply validator_describes; auto.
  - rewrite <- F. unfold exit_code, res_map. destruct (check_directory env files) as [[]| |]; split; congruence.
  - intros z. unfold exit_code, res_map. destruct (check_directory env files) as [[]| |]; intros H; try discriminate; injection H as <-; auto.
  - intros x. unfold exit_code, res_map. destruct (check_directory env files) as [[]| |]; split; congruence.
Qed.
