(** Plain documents for the examples. *)
From Coq Require Import String List ZArith Bool Lia.
From Verif Require Import Base PyVal DataTypes DataMaps Yaml Reader SpecReader SpecDescribe Fabric SpecFabric SpecPlain
  Demo DemoYaml ReaderProofs SameProofs FabricProofs DescribeProofs FileProofs FileWitness PlainProofs.
Import ListNotations.
Open Scope Z_scope.
Open Scope string_scope.
Open Scope list_scope.

Lemma entry_doc l key x : entry (doc l) key x -> In (key, x) l.
Proof.
  intros (k & E & G). injection E as <-. induction l as [|[n y] l IH]; [discriminate|]. cbn [map map_get fst snd] in G.
  destruct (y_eqb (Y key) (Y n)) eqn:Q; [|right; auto]. apply y_eqb_text in Q. apply Y_inj in Q. injection G as ->. left. congruence.
Qed.

Lemma plain_str cs : forallb (fun c => (0 <=? c)%Z && (c <? 128)%Z) cs = true -> plain_text (YStr cs).
Proof.
  intros H. exists cs. split; [reflexivity|]. apply Forall_forall. intros c C. rewrite forallb_forall in H. specialize (H c C).
  apply andb_true_iff in H. rewrite Z.leb_le, Z.ltb_lt in H. lia.
Qed.

Lemma plain_any cs : forallb (fun c => (0 <=? c)%Z && (c <? 1114112)%Z && negb ((55296 <=? c)%Z && (c <=? 57343)%Z)) cs = true -> plain_words (YStr cs).
Proof.
  intros H. exists cs. split; [reflexivity|]. apply Forall_forall. intros c C. rewrite forallb_forall in H. specialize (H c C). lia.
Qed.

Ltac plain_value :=
  cbn [plain_field];
  match goal with
  | |- True => exact I
  | |- plain_scalar _ => exact I
  | |- _ = _ => reflexivity
  | |- plain_text _ => apply plain_str; reflexivity
  | |- plain_words _ => apply plain_any; reflexivity
  | |- plain_integer _ => eexists; reflexivity
  | |- plain_list _ _ => eexists; split; [reflexivity|repeat (constructor; [plain_value|]); constructor]
  | |- _ <> _ => discriminate
  | |- _ /\ _ => split; plain_value
  | |- _ \/ _ => (left; plain_value; fail) || (right; plain_value)
  end.

Lemma plain_other top v : (forall l, v <> YMap l) -> plain top v.
Proof.
  intros N. apply Plain.
  - intros key x (l & E & _). destruct (N l E).
  - intros x (l & E & _). destruct (N l E).
  - intros key k x _ (l & E & _). destruct (N l E).
Qed.

Ltac is_plain :=
  (apply plain_other; discriminate) ||
  (apply Plain;
  [ let E := fresh in intros ? ? E; apply entry_doc in E; cbn [In] in E; repeat (destruct E as [E|E]; [injection E as <- <-; plain_value|]); destruct E
  | let E := fresh in intros ? E; apply entry_doc in E; cbn [In] in E; repeat (destruct E as [E|E]; [try discriminate E; injection E as <-; is_plain|]); destruct E
  | let E := fresh in let K := fresh in let J := fresh in
    intros ? ? ? K E J; apply entry_doc in E; cbn [In] in E;
    repeat (destruct E as [E|E]; [try discriminate E; injection E as <- <-; cbn [In] in J; repeat (destruct J as [<-|J]; [is_plain|]); destruct J|]);
    destruct E ]).

(** An enumeration, with characters beyond ASCII in a description, and a group beside the definitions of [shape_docs]. *)
Definition y_colour : yval :=
  doc [("name", Y "colour"); ("type", Y "enumeration");
       ("values", YList [doc [("name", Y "red"); ("number", YInt 1); ("aliases", YList [Y "r"])];
                         doc [("name", Y "blue"); ("number", YInt 2); ("description", YStr [98; 108; 225; 8364])]])].
Definition y_header : yval :=
  doc [("name", Y "header"); ("type", Y "structure"); ("members", YList [y_member "kind" "BYTE"])].
Definition y_small : yval :=
  doc [("name", Y "small"); ("type", Y "structure");
       ("members", YList [doc [("name", Y "kind"); ("data_type", Y "BYTE"); ("value", YInt 1)]; y_member "x" "uint16"])].
Definition y_record : yval :=
  doc [("name", Y "record"); ("type", Y "structure-group"); ("base", Y "header"); ("identifier", Y "kind");
       ("members", YList [Y "small"])].
Definition plain_docs : list yval := shape_docs ++ [y_colour; y_header; y_small; y_record].

Lemma plain_docs_plain : Forall plain_document plain_docs.
Proof.
  unfold plain_docs, shape_docs. cbn [app].
  repeat match goal with |- Forall _ (_ :: _) => constructor end; try apply Forall_nil.
  all: is_plain.
Qed.

Lemma plain_docs_say : exists ds, says_file demo_env [] plain_docs ds /\ List.length ds = 10%nat.
Proof.
  exists (registered (reads_into plain_docs)). split; [|vm_compute; reflexivity].
  apply file_says. exists (reads_into plain_docs). split; vm_compute; reflexivity.
Qed.
