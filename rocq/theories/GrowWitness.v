(** Concrete definitions with appended members. *)
From Coq Require Import String List ZArith Bool Lia.
From Verif Require Import Base PyVal PyStruct DataTypes ClassFactory DataMaps Expr Demo DemoProofs.
From Verif Require Import SpecPrim SpecMap SpecCreate SpecReads SpecGrow BytesProofs CreateProofs ReadsWitness GrowProofs.
Import ListNotations.
Open Scope Z_scope.

(** Names are used for attributes only, and for none of [more]. *)
Fixpoint blindb (more : list string) (a : ast) : bool :=
  match a with
  | AInt _ => true
  | AName s => String.eqb s "True" || String.eqb s "False" || String.eqb s "None"
  | AAttr (AName _) s => negb (existsb (String.eqb s) more)
  | AAttr a _ => blindb more a
  | AUn _ a => blindb more a
  | ABin _ a b => blindb more a && blindb more b
  end.

Lemma widened_get more k e e' : widened_env more e e' ->
  match dict_get k e, dict_get k e' with
  | Some v, Some w => extended more v w
  | None, None => True
  | _, _ => False
  end.
Proof.
  induction 1 as [|[a v] [b w] l l' [A B] R IH]; [exact I|]. cbn in *. subst b. destruct (String.eqb k a); auto.
Qed.

Lemma widened_ns more e e' : widened_env more e e' -> widened_env more (ns e) (ns e').
Proof.
  unfold ns. generalize "__builtins__"%string. intros q. induction 1 as [|[a v] [b w] l l' [A B] R IH]; cbn.
  - constructor; [|constructor]. split; auto. now left.
  - cbn in *. subst b. destruct (String.eqb q a).
    + constructor; auto. split; auto. now left.
    + constructor; auto.
Qed.

Lemma blindb_sound more a e e' : blindb more a = true -> widened_env more e e' -> eval_ast a e' = eval_ast a e.
Proof.
  intros B W. revert B. induction a; cbn [blindb eval_ast]; intros B; auto.
  - destruct (String.eqb s "True"); auto. destruct (String.eqb s "False"); auto. destruct (String.eqb s "None"); auto. discriminate.
  - destruct a; try (now rewrite IHa by exact B). clear IHa. cbn [eval_ast].
    destruct (String.eqb s0 "True"); auto. destruct (String.eqb s0 "False"); auto. destruct (String.eqb s0 "None"); auto.
    pose proof (widened_get more s0 e e' W) as G. destruct (dict_get s0 e) as [v|], (dict_get s0 e') as [w|]; try tauto. clear W.
    destruct G as [->|(cls & l & l' & -> & -> & <-)]; auto.
    induction l as [|[x y] l IH]; cbn.
    + apply negb_true_iff in B. induction l' as [|[x y] l' IH]; auto. cbn in *. apply orb_false_iff in B as [B1 B2]. rewrite B1. auto.
    + destruct (String.eqb s x); auto.
  - now rewrite IHa.
  - apply andb_true_iff in B as [B1 B2]. now rewrite IHa1, IHa2.
Qed.

Lemma demo_blind more x : match parse_expr x with Some a => blindb more a | None => true end = true -> blind demo more x.
Proof.
  intros B e e' W. apply widened_ns in W. cbn [demo o_eval]. unfold expr_eval. destruct (parse_expr x) as [a|]; auto.
  now rewrite (blindb_sound more a _ _ B W).
Qed.

(** A definition and what it became. *)
Definition shape_ms : list dtype := match d_shape with DStructure _ _ ms => ms | _ => [] end.
Definition shape_more : list dtype := [member "flags" d_uint16; member_if "area" "shape.flags == 1" d_uint32].
Definition d_shape2 : dtype := DStructure (meta_of "shape") BOLittle (shape_ms ++ shape_more).
Definition shape2_bytes : bytes := shape_bytes ++ bs [1; 0; 9; 0; 0; 0].

Lemma shape2_regular : everywhere regular d_shape2.
Proof. apply regular_check; vm_compute; reflexivity. Qed.

Lemma shape_overlooks more : existsb (String.eqb "count") more = false -> everywhere (overlooks demo more) d_shape.
Proof.
  intros H.
  assert (B : blind demo more "shape.count").
  { apply demo_blind. assert (E : parse_expr "shape.count" = Some (AAttr (AName "shape") "count")) by (vm_compute; reflexivity).
    rewrite E. cbn [blindb]. now rewrite H. }
  unfold d_shape, member, d_point, overlooks. cbn. repeat split; auto.
Qed.

Definition d_shape3 : dtype := DStructure (meta_of "shape") BOLittle (shape_ms ++ [member "centre" d_point]).

Lemma shape3_regular : everywhere regular d_shape3.
Proof. apply regular_check; vm_compute; reflexivity. Qed.

Lemma point_regular : everywhere regular d_point.
Proof. apply regular_check; vm_compute; reflexivity. Qed.

Definition shape3_bytes : bytes := shape_bytes ++ bs [5; 0; 6; 0].

(** A condition on a member that comes later. *)
Lemma grow_looking_refuted : exists mt bo ms x m m' b v n,
  everywhere regular (DStructure mt bo ms) /\ everywhere regular (DStructure mt bo (ms ++ [x])) /\
  create demo (DStructure mt bo ms) None = Ok (Some m) /\
  create demo (DStructure mt bo (ms ++ [x])) None = Ok (Some m') /\
  maps demo 20 m' b 0 [] 0 v n /\
  fst (mapbs demo 20 m b 0 (Some (ctx_new [])) 0) = Raise MappingError.
Proof.
  exists (meta_of "s"), BOLittle, [member "a" d_uint8; member_if "b" "s.c == 1" d_uint16], (member "c" d_uint8).
  set (d := DStructure _ _ _). set (d' := DStructure _ _ (_ ++ _)).
  exists (the_map d), (the_map d'), (bs [1; 2]), (VStruct "s" [("a", VInt 1); ("b", VNone); ("c", VInt 2)])%string, 2.
  split; [apply regular_check; vm_compute; reflexivity|]. split; [apply regular_check; vm_compute; reflexivity|].
  split; [vm_compute; reflexivity|]. split; [vm_compute; reflexivity|].
  split; [eexists; split; vm_compute; reflexivity|]. vm_compute. reflexivity.
Qed.
