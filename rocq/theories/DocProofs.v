(** The documentation of a generated class. *)
From Coq Require Import String Ascii List Bool Permutation Sorted.
From Verif Require Import Base PyVal DataTypes ClassFactory ClassText SpecCreate SpecDoc TextProofs.
Import ListNotations.
Open Scope string_scope.
Open Scope list_scope.

Lemma append_end a b x y : a +++ String x "" = b +++ String y "" -> a = b /\ x = y.
Proof.
  revert b. induction a as [|c a IH]; intros [|d b] E; cbn in E.
  - now injection E as ->.
  - injection E as -> E. now destruct b.
  - injection E as -> E. now destruct a.
  - injection E as -> E. apply IH in E as [-> ->]. auto.
Qed.

Lemma strip_without s : without_dots s (strip_dots s).
Proof.
  induction s as [|c s [(dots & E & D) N]].
  - split; [exists ""; split; [reflexivity|]|]; intros a; [intros c b H|intros H]; now destruct a.
  - cbn [strip_dots]. destruct (strip_dots s) as [|c' r] eqn:Q.
    + destruct (Ascii.eqb c ".") eqn:C.
      * apply Ascii.eqb_eq in C as ->. split.
        -- exists (String "." s). split; [reflexivity|]. intros a c b H. destruct a as [|x a]; cbn in H; injection H as H1 H2; auto.
           cbn in E. subst dots. eapply D. exact H2.
        -- intros a H. now destruct a.
      * split.
        -- exists dots. split; [cbn in *; congruence|exact D].
        -- intros a H. change (String c "") with ("" +++ String c "") in H. apply append_end in H as [_ H].
           subst c. discriminate.
    + split.
      * exists dots. split; [cbn in *; congruence|exact D].
      * intros a H. destruct a as [|x a]; cbn in H; [discriminate|]. injection H as -> H. exact (N a H).
Qed.

Lemma described_told desc name : told desc name (described desc name).
Proof.
  unfold told, described. destruct desc as [[|c s]|]; [right|left|]; try (split; [reflexivity || discriminate|]); apply strip_without.
Qed.

Lemma indicator_type m t : type_indicator m = Ok t -> python_type m t.
Proof.
  unfold type_indicator, python_type.
  destruct m as [| | | | | | | | |? ? ? dt ? d| | | | |]; cbn;
    [..|destruct d; try destruct k; cbn; try (destruct dt; congruence)| | | | |];
    try congruence; try (destruct k; cbn; try congruence); destruct e_data_type; try discriminate; intros H; injection H as <-; eauto.
Qed.

Lemma descriptions_document ms ls : member_descriptions ms = Ok ls -> Forall2 documents ms ls.
Proof.
  revert ls. induction ms as [|m ms IH]; intros ls E; cbn in E; [injection E as <-; constructor|].
  unfold member_description in E. destruct (type_indicator m) as [t| |] eqn:T; try discriminate. cbn [bind] in E.
  destruct (member_descriptions ms) as [l| |] eqn:L; try discriminate. cbn [bind] in E. injection E as <-.
  constructor; auto. exists t, (described (m_desc (dt_meta m)) (dt_name m)). split; [now apply indicator_type|]. split; [apply described_told|reflexivity].
Qed.

Lemma insert_sort s l : Sorted (fun a b => String.leb a b = true) l -> Sorted (fun a b => String.leb a b = true) (insert_sorted s l).
Proof.
  induction l as [|x l IH]; intros S; cbn; [repeat constructor|]. destruct (String.leb s x) eqn:E; [constructor; [exact S|now constructor]|].
  inversion S as [|? ? S1 S2]; subst. constructor; auto.
  assert (X : String.leb x s = true) by (destruct (String.leb_total x s); congruence).
  destruct l as [|y l]; cbn; [now constructor|]. destruct (String.leb s y); constructor; auto. now inversion S2.
Qed.

Lemma sorted_sort l : Sorted (fun a b => String.leb a b = true) (sorted l).
Proof. induction l as [|s l IH]; cbn; [constructor|]. now apply insert_sort. Qed.

Lemma join_concat sep l : join sep l = String.concat sep l.
Proof. induction l as [|s [|t l] IH]; auto. Qed.

Lemma template_split name about A B C : exists code, class_template name about A B C =
  ("class " ++ name ++ "(object):" ++ newline ++ "  """"""" ++ about ++ "." ++ newline ++ newline ++
   "  Attributes:" ++ newline ++ A ++ newline ++ "  """"""" ++ newline ++ newline ++ code)%string.
Proof.
  eexists. unfold class_template. cbn [join]. unfold newline, quotes. rewrite !sapp_assoc. cbn [String.append]. reflexivity.
Qed.

(** C52: what the text of a class says about the structure and its members. *)
Lemma class_docstring name desc ms text : class_text name desc ms = Ok text ->
  exists about lines sorted_lines code,
    told desc name about /\ Forall2 documents ms lines /\
    Permutation.Permutation lines sorted_lines /\ Sorted.Sorted (fun a b => String.leb a b = true) sorted_lines /\
    let newline := String "010" "" in
    text = ("class " ++ name ++ "(object):" ++ newline ++
            "  """"""" ++ about ++ "." ++ newline ++ newline ++
            "  Attributes:" ++ newline ++ String.concat newline sorted_lines ++ newline ++
            "  """"""" ++ newline ++ newline ++ code)%string.
Proof.
  unfold class_text. destruct (member_descriptions ms) as [ls| |] eqn:L; try discriminate. cbn [bind]. intros E. injection E as <-.
  match goal with |- context [class_template name (described desc name) ?A ?B ?C] =>
    destruct (template_split name (described desc name) A B C) as (code & T) end.
  exists (described desc name), ls, (sorted ls), code. split; [apply described_told|]. split; [now apply descriptions_document|].
  split; [symmetry; apply sorted_perm|]. split; [apply sorted_sort|]. rewrite T, join_concat. reflexivity.
Qed.
