(** A definition whose expressions look at its own members and at one external value. *)
From Coq Require Import String List ZArith Bool Lia.
From Verif Require Import Base PyVal PyStruct DataTypes ClassFactory DataMaps Expr Demo DemoProofs.
From Verif Require Import SpecPrim SpecMap SpecCreate SpecReads SpecGrow SpecHeed BytesProofs CreateProofs ReadsWitness.
Import ListNotations.
Open Scope string_scope.
Open Scope list_scope.
Open Scope Z_scope.

(** The names of a parsed expression are among [names]. *)
Fixpoint within (names : list string) (a : ast) : bool :=
  match a with
  | AInt _ => true
  | AName s => existsb (String.eqb s) ("True" :: "False" :: "None" :: names)
  | AAttr a _ => within names a
  | AUn _ a => within names a
  | ABin _ a b => within names a && within names b
  end.

Lemma within_sound names a e1 e2 : within names a = true -> agree_on names e1 e2 -> eval_ast a e1 = eval_ast a e2.
Proof.
  intros W A. revert W. induction a; cbn [within eval_ast]; intros W; auto.
  - cbn [existsb] in W. destruct (String.eqb s "True"); auto. destruct (String.eqb s "False"); auto. destruct (String.eqb s "None"); auto.
    cbn in W. apply existsb_exists in W. destruct W as (k & I & E). apply String.eqb_eq in E. subst k. now rewrite (A s I).
  - now rewrite IHa.
  - now rewrite IHa.
  - apply andb_true_iff in W as [W1 W2]. now rewrite IHa1, IHa2.
Qed.

Lemma demo_looks names x : match parse_expr x with Some a => within names a | None => true end = true -> looks_only_at demo names x.
Proof.
  intros W e1 e2 A. cbn [demo o_eval]. unfold expr_eval. destruct (parse_expr x) as [a|]; auto.
  now rewrite (within_sound names a _ _ W A).
Qed.

Definition d_scaled : dtype :=
  DStructure (meta_of "scaled") BOLittle
    [member "size" d_uint8;
     member "body" (DElems KStream (elems_size_expr "body_stream" d_uint8 "scaled.size * scale") d_uint8);
     member_if "tail" "scaled.size > 1" d_uint16].
Definition scaled_names : list string := ["scaled"; "scale"].

Lemma scaled_heeds : everywhere (heeds demo scaled_names) d_scaled.
Proof.
  assert (B : heeds demo scaled_names (DElems KStream (elems_size_expr "body_stream" d_uint8 "scaled.size * scale") d_uint8)).
  { repeat constructor. apply demo_looks. vm_compute. reflexivity. }
  assert (T : looks_only_at demo scaled_names "scaled.size > 1") by (apply demo_looks; vm_compute; reflexivity).
  assert (S : heeds demo scaled_names (member_if "tail" "scaled.size > 1" d_uint16)) by (repeat constructor; exact T).
  unfold d_scaled. cbn [everywhere member member_if]. fold (member_if "tail" "scaled.size > 1" d_uint16).
  repeat match goal with
  | |- _ /\ _ => split
  | |- True => exact I
  | |- everywhere _ _ => split
  | |- heeds _ _ _ => first [exact B | exact S | constructor]
  end.
Qed.
Lemma scaled_created : create demo d_scaled None = Ok (Some (the_map d_scaled)).
Proof. vm_compute. reflexivity. Qed.

Definition scaled_bytes : bytes := bs [2; 10; 11; 12; 13; 1; 0].
Definition scaled_value : pyval := VStruct "scaled" [("size", VInt 2); ("body", VBytes (bs [10; 11; 12; 13])); ("tail", VInt 1)].
Lemma scaled_maps : maps demo 20 (the_map d_scaled) scaled_bytes 0 [("scale", VInt 2)] 0 scaled_value 7.
Proof. eexists. split; vm_compute; reflexivity. Qed.
Lemma scaled_fails : fails demo 20 (the_map d_scaled) (bs [2; 10]) 0 [("scale", VInt 2)] 0 ByteStreamTooSmallError.
Proof. vm_compute. reflexivity. Qed.

Definition d_scaled_body : dtype := DElems KStream (elems_size_expr "body_stream" d_uint8 "2 * scale") d_uint8.
Lemma scaled_body_heeds : everywhere (heeds demo scaled_names) d_scaled_body.
Proof. split; [|split; [constructor|exact I]]. repeat constructor. apply demo_looks. vm_compute. reflexivity. Qed.
Lemma scaled_body_created : create demo d_scaled_body None = Ok (Some (the_map d_scaled_body)).
Proof. vm_compute. reflexivity. Qed.

(** An external value named like the structure takes its place in the expressions. *)
Lemma hidden_structure_refuted : exists names d m b vals vals' v n e,
  (forall k, In k names -> k <> "scaled" -> dict_get k vals = dict_get k vals') /\
  everywhere (heeds demo names) d /\ create demo d None = Ok (Some m) /\
  maps demo 20 m b 0 vals 0 v n /\ fails demo 20 m b 0 vals' 0 e.
Proof.
  exists scaled_names, d_scaled, (the_map d_scaled), scaled_bytes, [("scale", VInt 2)], [("scale", VInt 2); ("scaled", VInt 1)], scaled_value, 7, MappingError.
  split. { intros k [<-|[<-|[]]] H; [congruence|reflexivity]. }
  split; [exact scaled_heeds|]. split; [exact scaled_created|]. split; [exact scaled_maps|]. vm_compute. reflexivity.
Qed.
