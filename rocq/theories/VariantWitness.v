(** A header for several versions of a format, and those of the single versions. *)
From Coq Require Import String List ZArith Bool Lia.
From Verif Require Import Base PyVal PyStruct DataTypes ClassFactory DataMaps Expr Demo DemoProofs.
From Verif Require Import SpecPrim SpecMap SpecCreate SpecReads SpecGrow SpecVariant BytesProofs CreateProofs ReadsWitness GrowWitness.
Import ListNotations.
Open Scope string_scope.
Open Scope list_scope.
Open Scope Z_scope.

Lemma reduced_get gone k e e' : reduced_env gone e e' ->
  match dict_get k e, dict_get k e' with
  | Some v, Some w => reduced gone v w
  | None, None => True
  | _, _ => False
  end.
Proof.
  induction 1 as [|[a v] [b w] l l' [A B] R IH]; [exact I|]. cbn in *. subst b. destruct (String.eqb k a); auto.
Qed.

Lemma reduced_ns gone e e' : reduced_env gone e e' -> reduced_env gone (ns e) (ns e').
Proof.
  unfold ns. generalize "__builtins__"%string. intros q. induction 1 as [|[a v] [b w] l l' [A B] R IH]; cbn.
  - constructor; [|constructor]. split; auto. now left.
  - cbn in *. subst b. destruct (String.eqb q a).
    + constructor; auto. split; auto. now left.
    + constructor; auto.
Qed.

Lemma trimmed_get gone s l l' : trimmed gone l l' -> existsb (String.eqb s) gone = false -> dict_get s l' = dict_get s l.
Proof.
  intros T B. induction T as [|[k v] l l' T IH|[k v] l l' I0 T IH]; cbn; auto.
  - destruct (String.eqb s k); auto.
  - destruct (String.eqb s k) eqn:Q; auto. apply String.eqb_eq in Q. subst k. exfalso.
    assert (existsb (String.eqb s) gone = true) by (apply existsb_exists; exists s; split; [exact I0|apply String.eqb_refl]). congruence.
Qed.

Lemma blindb_unaware gone a e e' : blindb gone a = true -> reduced_env gone e e' -> eval_ast a e' = eval_ast a e.
Proof.
  intros B W. revert B. induction a; cbn [blindb eval_ast]; intros B; auto.
  - destruct (String.eqb s "True"); auto. destruct (String.eqb s "False"); auto. destruct (String.eqb s "None"); auto. discriminate.
  - destruct a; try (now rewrite IHa by exact B). clear IHa. cbn [eval_ast].
    destruct (String.eqb s0 "True"); auto. destruct (String.eqb s0 "False"); auto. destruct (String.eqb s0 "None"); auto.
    pose proof (reduced_get gone s0 e e' W) as G. destruct (dict_get s0 e) as [v|], (dict_get s0 e') as [w|]; try tauto. clear W.
    destruct G as [->|(cls & l & l' & -> & -> & T)]; auto. apply negb_true_iff in B.
    pose proof (trimmed_get gone s l l' T B) as G. cbn. rewrite ?G. try reflexivity.
  - now rewrite IHa.
  - apply andb_true_iff in B as [B1 B2]. now rewrite IHa1, IHa2.
Qed.

Lemma demo_unaware gone x : match parse_expr x with Some a => blindb gone a | None => true end = true -> unaware demo gone x.
Proof.
  intros B e e' W. apply reduced_ns in W. cbn [demo o_eval]. unfold expr_eval. destruct (parse_expr x) as [a|]; auto.
  now rewrite (blindb_unaware gone a _ _ B W).
Qed.

Definition head_data : dtype := member "data" (DElems KStream (elems_size_expr "data" d_uint8 "head.count") d_uint8).
Definition head_ms : list dtype :=
  [member "version" d_uint8; member_if "flags" "head.version > 1" d_uint16; member "count" d_uint8; head_data;
   member_if "crc" "head.version > 2" d_uint32; member_if "tail" "head.flags == 7" d_uint8].
Definition d_head : dtype := DStructure (meta_of "head") BOLittle head_ms.

(** Version two has flags and no checksum. *)
Definition d_head_two : dtype :=
  DStructure (meta_of "head") BOLittle
    [member "version" d_uint8; member "flags" d_uint16; member "count" d_uint8; head_data; member "tail" d_uint8].

Definition head_bytes : bytes := bs [2; 7; 0; 3; 65; 66; 67; 9].
Definition head_fields : list (string * pyval) :=
  [("version", VInt 2); ("flags", VInt 7); ("count", VInt 3); ("data", VBytes (bs [65; 66; 67])); ("crc", VNone); ("tail", VInt 9)].
Definition head_two_fields : list (string * pyval) :=
  [("version", VInt 2); ("flags", VInt 7); ("count", VInt 3); ("data", VBytes (bs [65; 66; 67])); ("tail", VInt 9)].

Lemma head_two_there : d_head_two = DStructure (meta_of "head") BOLittle (those_there head_ms head_fields).
Proof. reflexivity. Qed.
Lemma head_two_having : head_two_fields = having head_fields.
Proof. reflexivity. Qed.
Lemma head_regular : everywhere regular d_head.
Proof. apply regular_check; vm_compute; reflexivity. Qed.
Lemma head_two_regular : everywhere regular d_head_two.
Proof. apply regular_check; vm_compute; reflexivity. Qed.
Lemma head_never_none : Forall never_none head_ms.
Proof. repeat constructor. Qed.
Lemma head_without : Forall (everywhere (does_without demo (lacking head_fields))) (those_there head_ms head_fields).
Proof.
  assert (I : unaware demo ["crc"] "head.count") by (apply demo_unaware; vm_compute; reflexivity).
  unfold does_without. repeat constructor; cbn; repeat constructor; auto.
Qed.
Lemma head_created : create demo d_head None = Ok (Some (the_map d_head)).
Proof. vm_compute. reflexivity. Qed.
Lemma head_two_created : create demo d_head_two None = Ok (Some (the_map d_head_two)).
Proof. vm_compute. reflexivity. Qed.
Lemma head_maps : maps demo 20 (the_map d_head) head_bytes 0 [] 0 (VStruct "head" head_fields) 8.
Proof. eexists. split; vm_compute; reflexivity. Qed.
Lemma head_two_maps : maps demo 20 (the_map d_head_two) head_bytes 0 [] 0 (VStruct "head" head_two_fields) 8.
Proof. eexists. split; vm_compute; reflexivity. Qed.
Lemma head_offset : 0 <= 0 <= len head_bytes.
Proof. vm_compute. split; discriminate. Qed.
Lemma head_levels : 0 + levels d_head <= 11.
Proof. vm_compute. discriminate. Qed.
Lemma head_two_levels : 0 + levels d_head_two <= 11.
Proof. vm_compute. discriminate. Qed.
Lemma head_conditions i x f : nth_error head_ms i = Some x -> nth_error head_fields i = Some f ->
  condition_is demo x (scope "head" (VStruct "head" (so_far i head_fields)) []) (negb (is_none (snd f))).
Proof.
  do 6 (destruct i as [|i]; [cbn [nth_error head_ms head_fields]; intros Q1 Q2; injection Q1 as <-; injection Q2 as <-; vm_compute; auto|]).
  destruct i; discriminate.
Qed.
