(** Concrete structures of which members are moved into a structure of their own. *)
From Coq Require Import String List ZArith Bool Lia.
From Verif Require Import Base PyVal PyStruct DataTypes ClassFactory DataMaps Expr Demo DemoProofs.
From Verif Require Import SpecPrim SpecMap SpecCreate SpecReads SpecGrow SpecRegroup BytesProofs CreateProofs ReadsWitness.
Import ListNotations.
Open Scope string_scope.
Open Scope list_scope.
Open Scope Z_scope.

(** Names are used for attributes only, and for none of [xs]. *)
Fixpoint avoidsb (xs : list string) (a : ast) : bool :=
  match a with
  | AInt _ => true
  | AName s => String.eqb s "True" || String.eqb s "False" || String.eqb s "None"
  | AAttr (AName _) s => negb (existsb (String.eqb s) xs)
  | AAttr a _ => avoidsb xs a
  | AUn _ a => avoidsb xs a
  | ABin _ a b => avoidsb xs a && avoidsb xs b
  end.

Lemma regrouped_get names x k e e' : regrouped_env names x e e' ->
  match dict_get k e, dict_get k e' with
  | Some v, Some w => regrouped names x v w
  | None, None => True
  | _, _ => False
  end.
Proof.
  induction 1 as [|[a v] [b w] l l' [A B] R IH]; [exact I|]. cbn in *. subst b. destruct (String.eqb k a); auto.
Qed.

Lemma regrouped_ns names x e e' : regrouped_env names x e e' -> regrouped_env names x (ns e) (ns e').
Proof.
  unfold ns. generalize "__builtins__"%string. intros q. induction 1 as [|[a v] [b w] l l' [A B] R IH]; cbn.
  - constructor; [|constructor]. split; auto. now left.
  - cbn in *. subst b. destruct (String.eqb q a).
    + constructor; auto. split; auto. now left.
    + constructor; auto.
Qed.

Lemma avoidsb_sound names x a e e' : avoidsb (x :: names) a = true -> regrouped_env names x e e' -> eval_ast a e' = eval_ast a e.
Proof.
  intros B W. revert B. induction a; cbn [avoidsb eval_ast]; intros B; auto.
  - destruct (String.eqb s "True"); auto. destruct (String.eqb s "False"); auto. destruct (String.eqb s "None"); auto. discriminate.
  - destruct a; try (now rewrite IHa by exact B). clear IHa. cbn [eval_ast].
    destruct (String.eqb s0 "True"); auto. destruct (String.eqb s0 "False"); auto. destruct (String.eqb s0 "None"); auto.
    pose proof (regrouped_get names x s0 e e' W) as G. destruct (dict_get s0 e) as [v|], (dict_get s0 e') as [w|]; try tauto. clear W.
    destruct G as [->|(cls & l1 & lm & l2 & u & -> & <- & ->)]; auto. apply negb_true_iff in B. cbn [existsb] in B.
    apply orb_false_iff in B as [B1 B2].
    induction l1 as [|[y z] l IH]; cbn.
    + rewrite B1. induction lm as [|[y z] lm IH]; auto. cbn in B2 |- *. apply orb_false_iff in B2 as [B2 B3]. rewrite B2. auto.
    + destruct (String.eqb s y); auto.
  - now rewrite IHa.
  - apply andb_true_iff in B as [B1 B2]. now rewrite IHa1, IHa2.
Qed.

Lemma demo_unconcerned names x s :
  match parse_expr s with Some a => avoidsb (x :: names) a | None => true end = true -> unconcerned demo names x s.
Proof.
  intros B e e' W. apply regrouped_ns in W. cbn [demo o_eval]. unfold expr_eval. destruct (parse_expr s) as [a|]; auto.
  now rewrite (avoidsb_sound names x a _ _ B W).
Qed.

(** A label: a size, a position, a name and data of the size. The position and the name
    are moved. *)
Definition label_before : list dtype := [member "size" d_uint8].
Definition label_moved : list dtype :=
  [member "x" d_uint16; member "y" d_uint16;
   member "name" (DElems KString (elems_term "name" d_char (VBytes (bs [0]))) d_char)].
Definition label_after : list dtype :=
  [member_if "mark" "label.size > 1" d_int32be;
   member "data" (DElems KStream (elems_size_expr "data" d_uint8 "label.size") d_uint8)].
Definition label_place : dtype := member "place" (DStructure (meta_of "place") BOLittle label_moved).
Definition d_label : dtype := DStructure (meta_of "label") BOLittle (label_before ++ label_moved ++ label_after).
Definition d_label_moved : dtype := DStructure (meta_of "label") BOLittle (label_before ++ label_place :: label_after).

Definition label_bytes : bytes := bs [99; 2; 1; 0; 2; 1; 104; 105; 0; 0; 0; 1; 0; 7; 8; 99].
Definition label_first : list (string * pyval) := [("size", VInt 2)].
Definition label_middle : list (string * pyval) := [("x", VInt 1); ("y", VInt 258); ("name", VStr [104; 105])].
Definition label_last : list (string * pyval) := [("mark", VInt 256); ("data", VBytes (bs [7; 8]))].

Lemma label_regular : everywhere regular d_label.
Proof. apply regular_check; vm_compute; reflexivity. Qed.

Lemma label_moved_regular : everywhere regular d_label_moved.
Proof. apply regular_check; vm_compute; reflexivity. Qed.

Lemma label_created : create demo d_label None = Ok (Some (the_map d_label)).
Proof. vm_compute. reflexivity. Qed.

Lemma label_moved_created : create demo d_label_moved None = Ok (Some (the_map d_label_moved)).
Proof. vm_compute. reflexivity. Qed.

Lemma label_wordless : everywhere wordless label_place.
Proof. unfold wordless. cbn. repeat split. Qed.

Lemma label_movable : Forall (movable BOLittle) label_moved.
Proof. unfold movable, label_moved. repeat (apply Forall_cons; [cbn; tauto|]). apply Forall_nil. Qed.

Lemma label_untouched : Forall (everywhere (untouched_by demo (map dt_name label_moved) "place")) (label_before ++ label_after).
Proof.
  assert (I : unconcerned demo (map dt_name label_moved) "place" "label.size") by (apply demo_unconcerned; vm_compute; reflexivity).
  assert (J : unconcerned demo (map dt_name label_moved) "place" "label.size > 1") by (apply demo_unconcerned; vm_compute; reflexivity).
  unfold untouched_by. repeat constructor; cbn; repeat constructor; auto.
Qed.

Lemma label_maps : maps demo 20 (the_map d_label) label_bytes 1 [] 0 (VStruct "label" (label_first ++ label_middle ++ label_last)) 14.
Proof. eexists. split; vm_compute; reflexivity. Qed.

Lemma label_moved_maps : maps demo 20 (the_map d_label_moved) label_bytes 1 [] 0
  (VStruct "label" (label_first ++ ("place", VStruct "place" label_middle) :: label_last)) 14.
Proof. eexists. split; vm_compute; reflexivity. Qed.

(** The size itself cannot be moved: the data do not find it any more. *)
Lemma moved_looked_at_refuted : exists mt mt' bo ms b x m m' l v n e,
  used_type (m_name mt) bo x = DStructure mt' bo ms /\ member_values x = None /\ everywhere wordless x /\ Forall (movable bo) ms /\
  everywhere regular (DStructure mt bo (ms ++ b)) /\ everywhere regular (DStructure mt bo (x :: b)) /\
  create demo (DStructure mt bo (ms ++ b)) None = Ok (Some m) /\ create demo (DStructure mt bo (x :: b)) None = Ok (Some m') /\
  maps demo 20 m l 0 [] 0 v n /\ fails demo 20 m' l 0 [] 0 e.
Proof.
  exists (meta_of "label"), (meta_of "head"), BOLittle, [member "size" d_uint8],
    [member "data" (DElems KStream (elems_size_expr "data" d_uint8 "label.size") d_uint8)],
    (member "head" (DStructure (meta_of "head") BOLittle [member "size" d_uint8])).
  match goal with |- exists m m' l v n e, _ /\ _ /\ _ /\ _ /\ everywhere regular ?d /\ everywhere regular ?d' /\ _ =>
    exists (the_map d), (the_map d') end.
  exists (bs [2; 7; 8]), (VStruct "label" [("size", VInt 2); ("data", VBytes (bs [7; 8]))]), 3, MappingError.
  split; [reflexivity|]. split; [reflexivity|]. split; [unfold wordless; cbn; repeat split|].
  split; [unfold movable; apply Forall_cons; [cbn; tauto|]; apply Forall_nil|].
  split; [apply regular_check; vm_compute; reflexivity|]. split; [apply regular_check; vm_compute; reflexivity|].
  split; [vm_compute; reflexivity|]. split; [vm_compute; reflexivity|].
  split; [eexists; split; vm_compute; reflexivity|]. vm_compute. reflexivity.
Qed.
