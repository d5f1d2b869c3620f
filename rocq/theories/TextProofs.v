(** Proofs about the text of generated classes. *)
From Coq Require Import String Ascii List ZArith PeanoNat Bool Lia Permutation.
From Verif Require Import Base PyVal DataTypes ClassFactory ClassText Python SpecText SpecNames SpecContainers
  ContainerProofs MapProofs NameProofs.
Import ListNotations.
Open Scope nat_scope.
Open Scope string_scope.
Open Scope list_scope.

Notation "a +++ b" := (String.append a b) (at level 60, right associativity).

Lemma sapp_assoc a b c : (a +++ b) +++ c = a +++ b +++ c.
Proof. induction a; cbn; congruence. Qed.

Lemma strlen_app a b : String.length (a +++ b) = String.length a + String.length b.
Proof. induction a; cbn; congruence. Qed.

Lemma sapp_nil a : a +++ "" = a.
Proof. induction a; cbn; congruence. Qed.

(** ** Strings *)

(** A place in a string after some characters. *)
Fixpoint scan (p : place) (s : string) : option place :=
  match s with
  | EmptyString => Some p
  | String c r =>
      if Ascii.eqb c null then None
      else match p with
      | InText n =>
          if Ascii.eqb c quote then
            match n with 0 => scan (InText 1) r | 1 => scan (InText 2) r | _ => None end
          else if Ascii.eqb c backslash then scan Escaped r
          else scan (InText 0) r
      | Escaped =>
          if Ascii.eqb c "x" || Ascii.eqb c "u" || Ascii.eqb c "U" || Ascii.eqb c "N" then None
          else scan (InText 0) r
      | _ => None
      end
  end.

Lemma scan_app s : forall p t, scan p (s +++ t) = match scan p s with Some q => scan q t | None => None end.
Proof.
  induction s as [|c s IH]; intros p t; auto. cbn [String.append scan]. destruct (Ascii.eqb c null); auto.
  destruct p; auto.
  - destruct (Ascii.eqb c quote).
    + destruct n as [|[|n]]; auto.
    + destruct (Ascii.eqb c backslash); auto.
  - destruct (_ || _); auto.
Qed.

Lemma lex_scan s : forall p q ind ts k, scan p s = Some q -> lex p ind ts (s +++ k) = lex q ind ts k.
Proof.
  induction s as [|c s IH]; intros p q ind ts k E.
  - inversion E. reflexivity.
  - cbn [String.append scan lex] in *. destruct (Ascii.eqb c null); [discriminate|].
    destruct p; try discriminate.
    + destruct (Ascii.eqb c quote).
      * destruct n as [|[|n]]; try discriminate; auto.
      * destruct (Ascii.eqb c backslash); auto.
    + destruct (Ascii.eqb c "x"); [discriminate|]. destruct (Ascii.eqb c "u"); [discriminate|].
      destruct (Ascii.eqb c "U"); [discriminate|]. destruct (Ascii.eqb c "N"); [discriminate|]. cbn in E. auto.
Qed.

Lemma harmless_tail c s : harmless (String c s) -> harmless s.
Proof.
  intros (A & B & C). split; [|split].
  - intros a b ->. apply (A (String c a) b). reflexivity.
  - intros a b ->. apply (B (String c a) b). reflexivity.
  - intros a x b ->. apply (C (String c a) x b). reflexivity.
Qed.

Lemma harmless_prefix a b : harmless (a +++ b) -> harmless a.
Proof.
  intros (A & B & C). split; [|split].
  - intros x y ->. apply (A x (y +++ b)). now rewrite !sapp_assoc.
  - intros x y ->. apply (B x (y +++ b)). now rewrite !sapp_assoc.
  - intros x c y ->. apply (C x c (y +++ b)). rewrite !sapp_assoc. reflexivity.
Qed.

Fixpoint some_quotes (n : nat) (s : string) : string :=
  match n with 0 => s | S n => String quote (some_quotes n s) end.

Definition ready (p : place) (s : string) : Prop :=
  match p with
  | InText n => n <= 2 /\ harmless (some_quotes n s)
  | Escaped => harmless (String backslash s)
  | _ => False
  end.

Lemma quotes_tail n s : harmless (some_quotes n s) -> harmless s.
Proof. induction n; cbn; auto. intros H. apply harmless_tail in H. auto. Qed.

Lemma scan_ready s : forall p, ready p s -> exists q, scan p s = Some q /\ ready q "".
Proof.
  assert (NL : forall n s, harmless (some_quotes n (String null s)) -> False).
  { intros n x H. apply quotes_tail in H. destruct H as (_ & H & _). apply (H "" x). reflexivity. }
  induction s as [|c s IH]; intros p R; [exists p; split; auto|].
  cbn [scan]. destruct (Ascii.eqb_spec c null) as [->|NN].
  { exfalso. destruct p; cbn in R; try contradiction; [destruct R as [_ R]; eapply NL; eauto|].
    apply harmless_tail in R. eapply (NL 0); exact R. }
  destruct p; cbn in R; try contradiction.
  - destruct R as [L R]. destruct (Ascii.eqb_spec c quote) as [->|NQ].
    + destruct n as [|[|n]].
      * apply IH. split; [lia|exact R].
      * apply IH. split; [lia|exact R].
      * exfalso. assert (n = 0) by lia. subst n. destruct R as (R & _). apply (R "" s). reflexivity.
    + apply quotes_tail in R. destruct (Ascii.eqb_spec c backslash) as [->|NB].
      * apply IH. exact R.
      * apply IH. split; [lia|]. now apply harmless_tail in R.
  - assert (N : ~ In c ["x"; "u"; "U"; "N"]%char).
    { destruct R as (_ & _ & R). apply (R "" c s). reflexivity. }
    destruct (Ascii.eqb_spec c "x") as [->|]; [exfalso; apply N; cbn; tauto|].
    destruct (Ascii.eqb_spec c "u") as [->|]; [exfalso; apply N; cbn; tauto|].
    destruct (Ascii.eqb_spec c "U") as [->|]; [exfalso; apply N; cbn; tauto|].
    destruct (Ascii.eqb_spec c "N") as [->|]; [exfalso; apply N; cbn; tauto|].
    cbn [orb]. apply IH. split; [lia|]. apply harmless_tail in R. now apply harmless_tail in R.
Qed.

(** Texts in a string after which the string goes on as before. *)
Definition enclosed (s : string) : Prop := scan (InText 0) s = Some (InText 0).

Lemma enclosed_app s t : enclosed s -> enclosed t -> enclosed (s +++ t).
Proof. unfold enclosed. intros H. now rewrite scan_app, H. Qed.

Lemma enclosed_harmless s c : harmless s -> In c ["."; ")"; "]"]%char -> enclosed (s +++ String c "").
Proof.
  intros H I. unfold enclosed. rewrite scan_app.
  destruct (scan_ready s (InText 0)) as (q & -> & R); [split; [lia|exact H]|].
  destruct q; cbn in R; try contradiction; destruct I as [<-|[<-|[<-|[]]]]; cbn; auto;
    destruct R as [L _]; destruct n as [|[|[|n]]]; reflexivity.
Qed.

Definition plain (s : string) : Prop :=
  str_forallb (fun c => negb (Ascii.eqb c null || Ascii.eqb c quote || Ascii.eqb c backslash)) s = true.

Lemma enclosed_plain s : plain s -> enclosed s.
Proof.
  unfold enclosed, plain. induction s as [|c s IH]; auto. cbn [str_forallb scan].
  intros H. apply andb_true_iff in H. destruct H as [H1 H2]. apply negb_true_iff in H1.
  apply orb_false_iff in H1. destruct H1 as [H1 H3]. apply orb_false_iff in H1. destruct H1 as [H1 H4].
  rewrite H1, H4, H3. auto.
Qed.

(** ** Words *)

Definition word (s : string) : Prop := s <> "" /\ str_forallb is_word_char s = true.

Lemma identifier_word s : is_identifier s = true -> word s.
Proof.
  destruct s as [|c s]; cbn [is_identifier]; [discriminate|]. intros H. apply andb_true_iff in H.
  split; [discriminate|]. exact (proj2 H).
Qed.

Lemma usable_word s : usable s -> word s /\ is_keyword s = false.
Proof.
  intros [I K]. split; [apply identifier_word; now apply is_identifier_spec|].
  destruct (is_keyword s) eqn:E; auto. exfalso. apply K. now apply keywords_spec.
Qed.

Lemma word_char_plain c : is_word_char c = true ->
  Ascii.eqb c null = false /\ Ascii.eqb c line_feed = false /\ Ascii.eqb c " " = false /\
  Ascii.eqb c quote = false /\ Ascii.eqb c backslash = false /\ Ascii.eqb c "." = false.
Proof.
  intros H.
  repeat split; match goal with |- Ascii.eqb c ?x = false => destruct (Ascii.eqb_spec c x) as [->|]; [vm_compute in H; discriminate|reflexivity] end.
Qed.

Lemma word_plain s : str_forallb is_word_char s = true -> plain s.
Proof.
  unfold plain. induction s as [|c s IH]; auto. cbn [str_forallb]. intros H. apply andb_true_iff in H.
  destruct H as [H1 H2]. apply word_char_plain in H1. destruct H1 as (-> & _ & _ & -> & -> & _). cbn. auto.
Qed.

Lemma lex_word w : forall a ind ts k, str_forallb is_word_char w = true ->
  lex (InWord a) ind ts (w +++ k) = lex (InWord (a +++ w)) ind ts k.
Proof.
  induction w as [|c w IH]; intros a ind ts k H.
  - cbn. now rewrite sapp_nil.
  - cbn [str_forallb] in H. apply andb_true_iff in H. destruct H as [H1 H2].
    cbn [String.append lex]. pose proof (word_char_plain c H1) as (-> & -> & -> & _).
    rewrite H1, IH by auto. now rewrite sapp_assoc.
Qed.

Lemma close_word_word w ts : word w -> close_word w ts = ts ++ [TWord w].
Proof. intros [N _]. destruct w; [congruence|reflexivity]. Qed.

(** A word and the sign, space or line end after it. *)
Definition is_sign (c : ascii) : bool :=
  negb (Ascii.eqb c null || Ascii.eqb c line_feed || Ascii.eqb c " " || is_word_char c || Ascii.eqb c quote || is_foreign c).

Lemma lex_word_sign w c ind ts k : word w -> is_sign c = true ->
  lex (InWord "") ind ts (w +++ String c k) = lex (InWord "") ind (ts ++ [TWord w; TSign c]) k.
Proof.
  intros W S. rewrite lex_word by apply W. cbn [lex String.append]. unfold is_sign in S.
  apply negb_true_iff in S. rewrite !orb_false_iff in S. destruct S as (((((-> & ->) & ->) & ->) & ->) & ->).
  rewrite close_word_word by auto. now rewrite <- app_assoc.
Qed.

Lemma lex_word_space w ind ts k : word w ->
  lex (InWord "") ind ts (w +++ String " " k) = lex (InWord "") ind (ts ++ [TWord w]) k.
Proof.
  intros W. rewrite lex_word by apply W. cbn [lex String.append].
  change (Ascii.eqb " " null) with false. change (Ascii.eqb " " line_feed) with false. change (Ascii.eqb " " " ") with true.
  cbv iota. now rewrite close_word_word.
Qed.

Lemma lex_word_end w ind ts k : word w ->
  lex (InWord "") ind ts (w +++ String line_feed k) = add_line (ind, ts ++ [TWord w]) (lex AtStart 0 [] k).
Proof.
  intros W. rewrite lex_word by apply W. cbn [lex String.append].
  change (Ascii.eqb line_feed null) with false. change (Ascii.eqb line_feed line_feed) with true.
  cbv iota. now rewrite close_word_word.
Qed.

(** ** The descriptions *)

Lemma strip_dots_prefix s : exists t, s = strip_dots s +++ t.
Proof.
  induction s as [|c s (t & E)]; [exists ""; reflexivity|]. cbn [strip_dots].
  destruct (strip_dots s) as [|c' r] eqn:D.
  - destruct (Ascii.eqb c "."); eexists; [reflexivity|]. cbn. reflexivity.
  - exists t. cbn. f_equal. exact E.
Qed.

Lemma plain_harmless s : plain s -> harmless s.
Proof.
  unfold plain. intros H. assert (N : forall a c b, s = a +++ String c b -> c <> null /\ c <> quote /\ c <> backslash).
  { intros a c b ->. induction a as [|x a IH]; cbn [String.append str_forallb] in H; apply andb_true_iff in H; destruct H as [H1 H2]; auto.
    apply negb_true_iff in H1. rewrite !orb_false_iff in H1. destruct H1 as [[H1 H3] H4].
    repeat split; intros ->; discriminate. }
  split; [|split].
  - intros a b E. destruct (N a quote (String quote (String quote b)) E) as (_ & K & _). congruence.
  - intros a b E. destruct (N a null b E) as (K & _). congruence.
  - intros a c b E. destruct (N a backslash (String c b) E) as (_ & _ & K). congruence.
Qed.

Lemma described_harmless desc name : (forall s, desc = Some s -> harmless s) -> word name ->
  harmless (described desc name).
Proof.
  intros D W. unfold described.
  assert (H : harmless (match desc with Some (String _ _ as s) => s | _ => name end)).
  { destruct desc as [[|c s]|]; try (apply plain_harmless, word_plain, W). now apply D. }
  destruct (strip_dots_prefix (match desc with Some (String _ _ as s) => s | _ => name end)) as (t & E).
  rewrite E in H. now apply harmless_prefix in H.
Qed.

Lemma indicator_enclosed m t : Forall harmless (types_named m) -> type_indicator m = Ok t ->
  enclosed (t +++ ")").
Proof.
  assert (T : forall t, harmless t -> enclosed (("tuple[" +++ t +++ "]") +++ ")")).
  { intros x H. rewrite !sapp_assoc. apply enclosed_app; [reflexivity|]. rewrite <- sapp_assoc.
    apply enclosed_app; [|reflexivity]. apply enclosed_harmless; auto. cbn. tauto. }
  assert (P : forall d, match native_type d with Some x => enclosed (x +++ ")") | None => True end).
  { destruct d; cbn; auto; try reflexivity. destruct k; auto; reflexivity. }
  unfold type_indicator, types_named. intros F.
  assert (G : forall dt i, Forall harmless ((match dt with Some t => [t] | None => [] end) ++
      (match i with DElems _ e _ => match e_data_type e with Some t => [t] | None => [] end | _ => [] end)) ->
    match i with
    | DElems KSequence e _ => match e_data_type e with Some t => Ok ("tuple[" +++ t +++ "]") | None => Raise TypeError end
    | _ => match native_type i, dt with Some t, _ => Ok t | None, Some t => Ok t | None, None => Raise TypeError end
    end = Ok t -> enclosed (t +++ ")")).
  { clear F. intros dt i F E.
    assert (G : match native_type i, dt with Some t, _ => Ok t | None, Some t => Ok t | None, None => Raise TypeError end = Ok t ->
      enclosed (t +++ ")")).
    { specialize (P i). destruct (native_type i); [intros Q; inversion Q; subst; exact P|].
      destruct dt; [|discriminate]. intros Q. inversion Q; subst. inversion F; subst.
      apply enclosed_harmless; auto. cbn; tauto. }
    destruct i; auto. destruct k; auto.
    destruct (e_data_type e) eqn:D; [|discriminate]. inversion E; subst. apply T.
    apply Forall_app in F. destruct F as [_ F]. now inversion F. }
  destruct m eqn:M;
    match type of M with
    | _ = DMember _ _ _ ?dt _ ?i => apply (G dt i); exact F
    | _ = ?d => apply (G (Some "") d); cbn [app]; constructor; auto; now apply plain_harmless
    end.
Qed.

Lemma description_enclosed m s : word (dt_name m) ->
  (forall s, m_desc (dt_meta m) = Some s -> harmless s) -> Forall harmless (types_named m) ->
  member_description m = Ok s -> enclosed s.
Proof.
  intros W D T E. unfold member_description in E. destruct (type_indicator m) as [t| |] eqn:TI; try discriminate.
  cbn [bind] in E. injection E as <-.
  apply (enclosed_app "    "); [reflexivity|]. apply enclosed_app; [apply enclosed_plain, word_plain, W|].
  apply (enclosed_app " ("); [reflexivity|].
  match goal with |- enclosed ?x =>
    change (enclosed (t +++ (")" +++ (": " +++ (described (m_desc (dt_meta m)) (dt_name m) +++ ".")))))
  end.
  rewrite <- (sapp_assoc t ")"). apply enclosed_app; [eapply indicator_enclosed; eauto|].
  apply (enclosed_app ": "); [reflexivity|]. apply enclosed_harmless; [|cbn; tauto]. now apply described_harmless.
Qed.

Lemma descriptions_enclosed ms l : Forall (fun m => word (dt_name m)) ms ->
  Forall harmless (flat_map (fun m => match m_desc (dt_meta m) with Some s => [s] | None => [] end ++ types_named m) ms) ->
  member_descriptions ms = Ok l -> Forall enclosed l.
Proof.
  revert l. induction ms as [|m ms IH]; intros l W H E; cbn in E; [inversion E; constructor|].
  inversion W as [|? ? W1 W2]; subst. cbn [flat_map] in H. apply Forall_app in H. destruct H as [H1 H2].
  apply Forall_app in H1. destruct H1 as [H0 H1].
  destruct (member_description m) as [s| |] eqn:D; try discriminate. cbn in E.
  destruct (member_descriptions ms) as [l'| |]; try discriminate. inversion E; subst. constructor; eauto.
  eapply description_enclosed; eauto. intros x X. rewrite X in H0. now inversion H0.
Qed.

Lemma insert_perm s l : Permutation (insert_sorted s l) (s :: l).
Proof.
  induction l as [|x l IH]; cbn; auto. destruct (String.leb s x); auto.
  rewrite IH. apply perm_swap.
Qed.

Lemma sorted_perm l : Permutation (sorted l) l.
Proof. induction l; cbn; auto. rewrite insert_perm. now constructor. Qed.

Lemma join_enclosed l : Forall enclosed l -> enclosed (join newline l).
Proof.
  induction 1 as [|s l H F IH]; [reflexivity|]. cbn [join]. destruct l; auto.
  apply enclosed_app; [exact H|]. apply enclosed_app; [reflexivity|exact IH].
Qed.

(** ** The code *)

Fixpoint param_tokens (names : list string) : list token :=
  match names with
  | [] => [TSign ")"; TSign ":"]
  | n :: r => TSign "," :: TWord n :: TSign "=" :: TWord "None" :: param_tokens r
  end.

Lemma word_none : word "None".
Proof. split; [discriminate|reflexivity]. Qed.

Lemma lex_arguments ms : forall m ts k, Forall (fun m => word (dt_name m)) (m :: ms) ->
  lex (InWord "") 2 (ts ++ [TSign ","]) (join ", " (map member_argument (m :: ms)) +++ "):" +++ newline +++ k) =
  add_line (2, ts ++ param_tokens (map dt_name (m :: ms))) (lex AtStart 0 [] k).
Proof.
  induction ms as [|m' ms IH]; intros m ts k F; inversion F as [|? ? W F']; subst.
  - cbn [map join member_argument]. unfold member_argument. rewrite sapp_assoc.
    change ("=None" +++ "):" +++ newline +++ k) with (String "=" ("None" +++ String ")" (":" +++ newline +++ k))).
    rewrite lex_word_sign by auto. rewrite lex_word_sign by (auto; apply word_none).
    assert (E : forall x ts, lex (InWord "") 2 ts (":" +++ newline +++ x) = add_line (2, ts ++ [TSign ":"]) (lex AtStart 0 [] x)) by reflexivity.
    rewrite E, <- !app_assoc. reflexivity.
  - change (join ", " (map member_argument (m :: m' :: ms))) with
      (member_argument m +++ ", " +++ join ", " (map member_argument (m' :: ms))).
    unfold member_argument at 1. rewrite !sapp_assoc.
    match goal with |- context [dt_name m +++ "=None" +++ ", " +++ ?x] =>
      change (dt_name m +++ "=None" +++ ", " +++ x) with
        (dt_name m +++ String "=" ("None" +++ String "," (String " " x))) end.
    rewrite lex_word_sign by auto. rewrite lex_word_sign by (auto; apply word_none).
    cbn [lex]. change (Ascii.eqb " " null) with false. change (Ascii.eqb " " line_feed) with false.
    change (Ascii.eqb " " " ") with true. cbv iota. cbn [close_word].
    rewrite <- !app_assoc. cbn [app].
    change (ts ++ [TSign ","; TWord (dt_name m); TSign "="; TWord "None"; TSign ","]) with
      (ts ++ [TSign ","; TWord (dt_name m); TSign "="; TWord "None"] ++ [TSign ","]).
    rewrite app_assoc. rewrite IH by auto. cbn [map param_tokens]. rewrite <- app_assoc. reflexivity.
Qed.

Definition assignment (n : string) : string := "    self." +++ n +++ " = " +++ n.
Definition assignment_line (n : string) : line := (4, [TWord "self"; TSign "."; TWord n; TSign "="; TWord n]).

Lemma lex_assignment n k : word n ->
  lex AtStart 0 [] (assignment n +++ newline +++ k) = add_line (assignment_line n) (lex AtStart 0 [] k).
Proof.
  intros W. unfold assignment. rewrite !sapp_assoc.
  assert (E : forall x, lex AtStart 0 [] ("    self." +++ x) = lex (InWord "") 4 [TWord "self"; TSign "."] x) by reflexivity.
  rewrite E. change (" = " +++ ?x) with (String " " ("= " +++ x)). rewrite lex_word_space by auto.
  assert (E2 : forall x ts, lex (InWord "") 4 ts ("= " +++ x) = lex (InWord "") 4 (ts ++ [TSign "="]) x) by reflexivity.
  rewrite E2. change (newline +++ k) with (String line_feed k). rewrite lex_word_end by auto. reflexivity.
Qed.

Lemma lex_assignments l : forall n, Forall word (n :: l) ->
  lex AtStart 0 [] (join newline (map assignment (n :: l)) +++ newline +++ "") = Lexed (map assignment_line (n :: l)).
Proof.
  induction l as [|n' l IH]; intros n F; inversion F; subst.
  - cbn [map join]. now rewrite lex_assignment.
  - change (join newline (map assignment (n :: n' :: l))) with
      (assignment n +++ newline +++ join newline (map assignment (n' :: l))).
    rewrite !sapp_assoc. rewrite lex_assignment by auto. rewrite IH by auto. reflexivity.
Qed.

Definition code_lines (name : string) (names l : list string) : list line :=
  [(0, [TWord "class"; TWord name; TSign "("; TWord "object"; TSign ")"; TSign ":"]);
   (2, [TText]);
   (2, TWord "def" :: TWord "__init__" :: TSign "(" :: TWord "self" :: param_tokens names);
   (4, [TText]);
   (4, [TWord "super"; TSign "("; TWord name; TSign ","; TWord "self"; TSign ")"; TSign "."; TWord "__init__";
        TSign "("; TSign ")"])] ++ map assignment_line l.

Lemma lex_template name td attributes m ms n l :
  word name -> Forall (fun m => word (dt_name m)) (m :: ms) -> Forall word (n :: l) ->
  enclosed (td +++ ".") -> enclosed attributes ->
  lines_of (class_template name td attributes (join ", " (map member_argument (m :: ms)))
     (join newline (map assignment (n :: l)))) = Lexed (code_lines name (map dt_name (m :: ms)) (n :: l)).
Proof.
  intros W F FL T A. unfold lines_of, class_template.
  set (args := join ", " _). set (asg := join newline (map _ _)).
  cbn [join]. rewrite !sapp_assoc.
  assert (E1 : forall x, lex AtStart 0 [] ("class " +++ x) = lex (InWord "") 0 [TWord "class"] x) by reflexivity.
  rewrite E1. change ("(object):" +++ ?x) with (String "(" ("object):" +++ x)). rewrite lex_word_sign by auto.
  assert (E2 : forall x ts, lex (InWord "") 0 ts ("object):" +++ newline +++ x) =
     add_line (0, ((ts ++ [TWord "object"]) ++ [TSign ")"]) ++ [TSign ":"]) (lex AtStart 0 [] x)) by reflexivity.
  rewrite E2. cbn [app].
  assert (E3 : forall x, lex AtStart 0 [] ("  " +++ quotes +++ x) = lex (InText 0) 2 [] x) by reflexivity.
  rewrite E3. rewrite <- (sapp_assoc td). rewrite (lex_scan _ _ _ _ _ _ T).
  assert (E4 : forall x, lex (InText 0) 2 [] (newline +++ newline +++ "  Attributes:" +++ newline +++ x) = lex (InText 0) 2 [] x) by reflexivity.
  change ("" +++ ?x) with x. rewrite E4. rewrite (lex_scan _ _ _ _ _ _ A).
  assert (E5 : forall x, lex (InText 0) 2 [] (newline +++ "  " +++ quotes +++ newline +++ newline +++ x) =
     add_line (2, [TText]) (lex AtStart 0 [] x)) by reflexivity.
  change ("" +++ ?x) with x. rewrite E5.
  assert (E6 : forall x, lex AtStart 0 [] ("  def __init__(self, " +++ x) =
     lex (InWord "") 2 ([TWord "def"; TWord "__init__"; TSign "("; TWord "self"] ++ [TSign ","]) x) by reflexivity.
  rewrite E6. unfold args. rewrite lex_arguments by auto.
  assert (E7 : forall x, lex AtStart 0 [] ("    " +++ quotes +++ "Initializes an instance of " +++ x) = lex (InText 0) 4 [] x) by reflexivity.
  rewrite E7. assert (P : enclosed name) by apply enclosed_plain, word_plain, W. rewrite (lex_scan _ _ _ _ _ _ P).
  assert (E8 : forall x, lex (InText 0) 4 [] ("." +++ quotes +++ newline +++ x) = add_line (4, [TText]) (lex AtStart 0 [] x)) by reflexivity.
  rewrite E8.
  assert (E9 : forall x, lex AtStart 0 [] ("    super(" +++ x) = lex (InWord "") 4 [TWord "super"; TSign "("] x) by reflexivity.
  rewrite E9. change (", self).__init__()" +++ ?x) with (String "," (" self).__init__()" +++ x)).
  rewrite lex_word_sign by auto. cbn [app].
  assert (E10 : forall x ts, lex (InWord "") 4 ts (" self).__init__()" +++ newline +++ x) =
     add_line (4, (((((ts ++ [TWord "self"]) ++ [TSign ")"]) ++ [TSign "."]) ++ [TWord "__init__"]) ++ [TSign "("]) ++ [TSign ")"])
       (lex AtStart 0 [] x)) by reflexivity.
  rewrite E10. unfold asg. rewrite lex_assignments by auto. reflexivity.
Qed.

(** ** The class *)

Lemma words_spec l : words l = true <-> Forall (fun w => is_keyword w = false) l.
Proof.
  unfold words. rewrite forallb_forall, Forall_forall. split; intros H w I; specialize (H w I).
  - now apply negb_true_iff in H.
  - now apply negb_true_iff.
Qed.

Lemma read_params_tokens names : Forall (fun w => is_keyword w = false) names ->
  read_params (param_tokens names) = Some names.
Proof.
  induction 1 as [|n names K F IH]; [reflexivity|]. cbn [param_tokens read_params].
  assert (W : words [n] = true) by (apply words_spec; auto). rewrite W, IH. reflexivity.
Qed.

Lemma read_assigns_lines l : Forall (fun w => is_keyword w = false) l ->
  read_assigns (map assignment_line l) = Some (map (fun a => (a, a)) l).
Proof.
  induction 1 as [|n l K F IH]; [reflexivity|]. unfold assignment_line in *. cbn [map read_assigns].
  assert (W : words [n; n] = true) by (apply words_spec; auto). rewrite W, IH. reflexivity.
Qed.

Definition the_class (name : string) (names l : list string) : pyclass :=
  mkClass name names (name, "self") (map (fun a => (a, a)) l).

Lemma read_class_lines name names l : is_keyword name = false ->
  Forall (fun w => is_keyword w = false) names -> Forall (fun w => is_keyword w = false) l ->
  read_class (code_lines name names l) = Some (the_class name names l).
Proof.
  intros K F G. unfold code_lines. cbn [app read_class].
  assert (W : words [name; name; "self"] = true) by (apply words_spec; repeat (constructor; auto)).
  rewrite W, read_params_tokens, read_assigns_lines by auto. reflexivity.
Qed.

(** Names that were validated. *)
Definition validated (name : string) (ms : list dtype) : Prop :=
  usable name /\ map dt_name ms <> [] /\ Forall usable (map dt_name ms) /\
  Forall (fun n => forall r, n <> String "_" r) (map dt_name ms) /\ NoDup (map dt_name ms) /\ Forall describable ms.

Lemma descriptions_ok ms : template_members ms = Ok tt -> exists l, member_descriptions ms = Ok l.
Proof.
  induction ms as [|m ms IH]; cbn [template_members member_descriptions]; eauto.
  unfold template_member, member_description. destruct (type_indicator m); cbn; try discriminate.
  intros H. destruct (IH H) as (l & ->). cbn. eauto.
Qed.

Lemma executed name desc ms : validated name ms -> Forall harmless (texts_of desc ms) ->
  exists text l, class_text name desc ms = Ok text /\ Permutation (map dt_name ms) l /\
    map assignment l = sorted (map assignment (map dt_name ms)) /\
    exec_class text =
      Some (if str_nodup ("self" :: map dt_name ms) && negb (String.eqb name "__debug__")
            then Ok (the_class name (map dt_name ms) l) else Raise SyntaxError).
Proof.
  intros (UN & NE & US & UU & ND & DS) H.
  apply usable_word in UN. destruct UN as [WN KN].
  assert (W : Forall word (map dt_name ms)).
  { eapply Forall_impl; [|exact US]. intros a A. now apply usable_word. }
  assert (K : Forall (fun w => is_keyword w = false) (map dt_name ms)).
  { eapply Forall_impl; [|exact US]. intros a A. now apply usable_word. }
  assert (WM : Forall (fun m => word (dt_name m)) ms) by now rewrite Forall_map in W.
  unfold texts_of in H. apply Forall_app in H. destruct H as [HD HM].
  destruct (descriptions_ok ms) as (ds & D); [now apply (proj1 (template_members_spec ms))|].
  pose proof (descriptions_enclosed _ _ WM HM D) as DE.
  assert (AP : Permutation (sorted (map member_assignment ms)) (map assignment (map dt_name ms))).
  { rewrite sorted_perm, map_map. unfold member_assignment, assignment. apply Permutation_refl. }
  apply Permutation_map_inv in AP. destruct AP as (l & AE & AP).
  exists (class_template name (described desc name) (join newline (sorted ds)) (join ", " (map member_argument ms))
     (join newline (map assignment l))), l.
  unfold class_text. rewrite D. cbn [bind]. rewrite AE. split; [reflexivity|]. split; [exact AP|].
  split; [rewrite <- AE, map_map; reflexivity|].
  unfold exec_class. destruct ms as [|m ms]; [now contradiction NE|].
  destruct l as [|n l]; [apply Permutation_sym, Permutation_nil in AP; discriminate|].
  rewrite lex_template; auto.
  2:{ eapply Permutation_Forall; [exact AP|exact W]. }
  2:{ apply enclosed_harmless; [|cbn; tauto]. apply described_harmless; auto. intros s ->. now inversion HD. }
  2:{ apply join_enclosed. eapply Permutation_Forall; [apply Permutation_sym, sorted_perm|exact DE]. }
  rewrite read_class_lines; auto. 2:{ eapply Permutation_Forall; [exact AP|exact K]. }
  unfold compiles. cbn [pc_params pc_name the_class].
  assert (B : str_in "__debug__" (map dt_name (m :: ms)) = false).
  { destruct (str_in "__debug__" _) eqn:B; auto. apply str_in_spec in B. rewrite Forall_forall in UU.
    exfalso. apply (UU _ B "_debug__"). reflexivity. }
  rewrite str_in_cons, B, orb_false_r, (String.eqb_sym "__debug__"). reflexivity.
Qed.

(** ** Calling the class *)

Lemma strip_private s : is_private s = true -> strip_underscores s <> "".
Proof.
  intros P. apply is_private_spec in P. destruct P as [[r ->] E].
  cbn. intros H. assert (A : forall s, strip_underscores s = "" -> forall x, exists y, x +++ s = y +++ "__" \/ s = "" \/ s = "_").
  { clear. induction s as [|c s IH]; cbn; intros H x; [exists ""; auto|].
    destruct (Ascii.eqb_spec c "_") as [->|]; [|discriminate].
    destruct (IH H (x +++ "_")) as (y & [Y|[-> | ->]]); [|exists ""; auto|exists x; now left].
    exists y. left. rewrite <- Y. rewrite sapp_assoc. reflexivity. }
  destruct (A r H "__") as (y & [Y|[-> | ->]]).
  - now apply (E y).
  - now apply (E "").
  - now apply (E "_").
Qed.

Lemma make_attrs_fst names : forall args, map fst (make_attrs names args) = names.
Proof. induction names as [|n names IH]; intros [|v args]; cbn; f_equal; auto. Qed.

Lemma not_private n : (forall r, n <> String "_" r) -> is_private n = false.
Proof.
  intros H. destruct (is_private n) eqn:E; auto. apply is_private_spec in E. destruct E as [[r ->] _].
  exfalso. apply (H ("_" +++ r)). reflexivity.
Qed.

Lemma dict_get_arg n names args : dict_get n (make_attrs names args) = None <-> ~ In n names.
Proof. rewrite dict_get_none, make_attrs_fst. tauto. Qed.

Definition clean (names : list string) : Prop :=
  ~ In "self" names /\ Forall (fun n => forall r, n <> String "_" r) names /\ NoDup names.

Lemma look_up_arg name names l args n v : clean names -> dict_get n (make_attrs names args) = Some v ->
  look_up (the_class name names l) args n = Some (ItIs v).
Proof.
  intros (S & U & _) G. assert (I : In n names).
  { apply dict_get_in, (in_map fst) in G. now rewrite make_attrs_fst in G. }
  unfold look_up, mangled. rewrite Forall_forall in U. rewrite (not_private n) by auto. cbn [andb pc_params the_class].
  rewrite G. destruct (String.eqb_spec n "self") as [->|]; [contradiction|reflexivity].
Qed.

Lemma assign_args name names args l0 : clean names -> forall l attrs, incl l names -> NoDup (map fst attrs ++ l) ->
  exists more, assign (the_class name names l0) args (map (fun a => (a, a)) l) attrs = Some (attrs ++ more) /\
    map fst more = l /\ Forall (fun x => dict_get (fst x) (make_attrs names args) = Some (snd x)) more.
Proof.
  intros C. induction l as [|n l IH]; intros attrs I N.
  - exists []. now rewrite app_nil_r.
  - cbn [map assign]. assert (J : In n names) by (apply I; left; reflexivity).
    destruct (dict_get n (make_attrs names args)) as [v|] eqn:G.
    2:{ apply dict_get_arg in G. contradiction. }
    rewrite (look_up_arg _ _ _ _ _ _ C G).
    assert (MN : mangled (pc_name (the_class name names l0)) n = n).
    { unfold mangled. destruct C as (_ & U & _). rewrite Forall_forall in U. now rewrite (not_private n) by auto. }
    rewrite MN, dict_set_new.
    2:{ apply dict_get_none. intros K. apply NoDup_remove_2 in N. apply N. apply in_or_app. auto. }
    destruct (IH (attrs ++ [(n, v)])) as (more & E & F & A).
    + intros x X. apply I. now right.
    + rewrite map_app. cbn. now rewrite <- app_assoc.
    + exists ((n, v) :: more). rewrite E, <- app_assoc. cbn. rewrite F. repeat split; auto.
Qed.

Lemma same_attrs {A} (d e : dict A) : NoDup (map fst d) -> Permutation (map fst d) (map fst e) ->
  Forall (fun x => dict_get (fst x) d = Some (snd x)) e -> Permutation d e.
Proof.
  intros N P F. assert (NE : NoDup (map fst e)) by now apply (Permutation_NoDup P).
  apply NoDup_Permutation_bis.
  - now apply NoDup_map_inv in N.
  - apply Permutation_length in P. rewrite !map_length in P. rewrite P. reflexivity.
  - intros [k v] I. assert (J : In k (map fst e)).
    { eapply Permutation_in; [exact P|]. now apply (in_map fst) in I. }
    apply in_map_iff in J. destruct J as ([k' v'] & K & J). cbn in K. subst k'.
    rewrite Forall_forall in F. pose proof (F _ J) as G. cbn in G.
    assert (G' : dict_get k d = Some v) by now apply dict_get_nodup.
    congruence.
Qed.

Lemma call_instance name names l args : clean names -> Permutation names l ->
  match instance name names args with
  | Ok (VStruct n attrs) =>
      exists attrs', call_class (the_class name names l) args = Some (Ok (VStruct n attrs')) /\ Permutation attrs attrs'
  | r => call_class (the_class name names l) args = Some r
  end.
Proof.
  intros C P. pose proof C as (NS & U & ND).
  set (c := the_class name names l).
  assert (SF : look_up c args "self" = Some ItIsSelf) by reflexivity.
  assert (SP : look_up c args "super" =
    match dict_get "super" (make_attrs names args) with
    | Some v => Some (ItIs v)
    | None => Some (if String.eqb "super" name then ItIsClass else ItIsSuper)
    end).
  { unfold look_up, mangled. change (is_private "super") with false. cbn [andb].
    change (String.eqb "super" "self") with false. cbn [pc_params pc_name c the_class].
    destruct (dict_get _ _); auto. destruct (String.eqb "super" name); auto. }
  assert (CL : look_up c args name =
    if is_private name then None
    else if String.eqb name "self" then Some ItIsSelf
    else match dict_get name (make_attrs names args) with Some v => Some (ItIs v) | None => Some ItIsClass end).
  { unfold look_up, mangled. cbn [pc_params pc_name c the_class]. destruct (is_private name) eqn:PR.
    - assert (SN : String.eqb (strip_underscores name) "" = false) by (apply String.eqb_neq, strip_private; auto).
      rewrite SN. cbn [andb negb String.append]. set (x := String "_" _).
      assert (X1 : String.eqb x "self" = false) by (apply String.eqb_neq; discriminate).
      assert (X2 : String.eqb x "super" = false) by (apply String.eqb_neq; discriminate).
      assert (X3 : dict_get x (make_attrs names args) = None).
      { apply dict_get_arg. intros I. rewrite Forall_forall in U. now apply (U _ I (strip_underscores name +++ name)). }
      assert (X4 : String.eqb x name = false).
      { apply String.eqb_neq. intros E. apply (f_equal String.length) in E. unfold x in E. cbn in E.
        rewrite strlen_app in E. lia. }
      now rewrite X1, X2, X3, X4.
    - cbn [andb]. destruct (String.eqb name "self"); auto. now rewrite String.eqb_refl. }
  assert (DG : forall n, str_in n names = match dict_get n (make_attrs names args) with Some _ => true | None => false end).
  { intros n. destruct (dict_get n _) as [v|] eqn:G.
    - apply str_in_spec. apply dict_get_in, (in_map fst) in G. now rewrite make_attrs_fst in G.
    - apply dict_get_arg in G. destruct (str_in n names) eqn:E; auto. apply str_in_spec in E. contradiction. }
  unfold instance, constructible, constructor_error, call_class. cbn [c pc_super the_class fst snd]. fold c.
  rewrite SF, SP, CL, !DG.
  destruct (is_private name) eqn:PR.
  { rewrite andb_false_r. destruct (dict_get "super" _); [reflexivity|]. destruct (String.eqb "super" name); reflexivity. }
  destruct (String.eqb_spec name "self") as [->|NSF].
  { cbn [negb andb]. change (String.eqb "self" "super") with false. change (String.eqb "super" "self") with false. cbn [andb].
    destruct (dict_get "super" _); reflexivity. }
  destruct (String.eqb_spec name "super") as [->|NSP].
  { cbn [negb andb]. rewrite String.eqb_refl. destruct (dict_get "super" _) eqn:G; cbn [negb andb]; [reflexivity|].
    cbn [pc_params c the_class]. reflexivity. }
  assert (E2 : String.eqb "super" name = false) by (apply String.eqb_neq; congruence). rewrite E2.
  cbn [negb andb]. destruct (dict_get "super" _) eqn:G1; cbn [negb andb].
  { destruct (dict_get name _); reflexivity. }
  destruct (dict_get name _) eqn:G2; cbn [negb andb]; [reflexivity|].
  unfold new_struct. destruct (assign_args name names args l C l []) as (more & E & F & A).
  { intros x X. eapply Permutation_in; [apply Permutation_sym; exact P|exact X]. }
  { cbn. now apply (Permutation_NoDup P). }
  exists more. cbn [pc_assigns pc_name c the_class]. fold c. cbn [app] in E. change (the_class name names l) with c in E.
  rewrite E. split; [reflexivity|]. apply same_attrs; auto; rewrite make_attrs_fst; auto. now rewrite F.
Qed.

(** ** The theorems *)

Lemma created_validated name ms : create_class name ms = Ok name ->
  validated name ms /\ clean (map dt_name ms) /\ name <> "__debug__".
Proof.
  intros E. destruct (class_created name ms) as (A & _). apply A in E.
  destruct E as ([U D] & NE & US & UU & ND & DS & NS). unfold validated, clean. tauto.
Qed.

Lemma clean_nodup names : clean names -> str_nodup ("self" :: names) = true.
Proof. intros (A & _ & B). apply str_nodup_spec. now constructor. Qed.

Lemma template_raises ms : template_members ms = Raise TypeError -> member_descriptions ms = Raise TypeError.
Proof.
  induction ms as [|m ms IH]; cbn [template_members member_descriptions]; [discriminate|].
  unfold template_member, member_description. destruct (type_indicator m); cbn; try congruence.
  intros H. now rewrite IH.
Qed.

Lemma make_attrs_padded names : forall args,
  make_attrs names args = combine names (args ++ repeat VNone (List.length names - List.length args)).
Proof.
  induction names as [|n names IH]; intros args; [reflexivity|].
  destruct args as [|v args]; cbn [make_attrs List.length Nat.sub app].
  - cbn [repeat combine]. rewrite IH. cbn [app List.length]. now rewrite Nat.sub_0_r.
  - cbn [combine]. now rewrite IH.
Qed.

(** C52 *)
Lemma class_executed name desc ms : Forall harmless (texts_of desc ms) ->
  let names := map dt_name ms in
  (create_class name ms = Ok name ->
   exists text c, class_text name desc ms = Ok text /\ exec_class text = Some (Ok c) /\
     pc_name c = name /\ pc_params c = names /\
     forall args, (List.length args <= List.length names)%nat ->
       (clear_names name names ->
        exists attrs, call_class c args = Some (Ok (VStruct name attrs)) /\
          Permutation attrs (combine names (args ++ repeat VNone (List.length names - List.length args)%nat))) /\
       (~ clear_names name names ->
        exists e, constructor_raises name names e /\ call_class c args = Some (Raise e))) /\
  (create_class name ms = Raise SyntaxError ->
   exists text, class_text name desc ms = Ok text /\ exec_class text = Some (Raise SyntaxError)) /\
  (create_class name ms = Raise TypeError -> class_text name desc ms = Raise TypeError).
Proof.
  intros H names. split; [|split].
  - intros E. apply created_validated in E. destruct E as (V & C & D).
    destruct (executed name desc ms V H) as (text & l & T & P & _ & X).
    rewrite (clean_nodup _ C) in X. apply String.eqb_neq in D. rewrite D in X. cbn [andb negb] in X.
    exists text, (the_class name names l). split; [exact T|]. split; [exact X|].
    split; [reflexivity|]. split; [reflexivity|]. intros args L.
    pose proof (call_instance name names l args C P) as CI. split.
    + intros CN. rewrite instance_clear in CI by auto. unfold new_struct in CI. destruct CI as (attrs & A & B).
      exists attrs. split; auto. rewrite <- make_attrs_padded. now apply Permutation_sym.
    + intros CN. exists (constructor_error name names). split; [apply error_raises|].
      unfold instance in CI. now rewrite (unclear _ _ CN) in CI.
  - intros E. destruct (class_created name ms) as (_ & _ & A & _). apply A in E.
    destruct E as (U & NE & US & UU & ND & DS & N).
    destruct (executed name desc ms) as (text & l & T & P & _ & X); [unfold validated; tauto|auto|].
    exists text. split; auto. rewrite X. f_equal.
    destruct (str_nodup _ && _) eqn:B; auto. apply andb_true_iff in B. destruct B as [B1 B2].
    apply str_nodup_spec in B1. inversion B1; subst. apply negb_true_iff, String.eqb_neq in B2. tauto.
  - intros E. unfold class_text. rewrite template_raises; [reflexivity|].
    unfold create_class in E. destruct (validate_class name (map dt_name ms)) as [[]|e|] eqn:V; cbn [bind] in E; try discriminate.
    + destruct (proj2 (template_members_spec ms)) as [T|T]; rewrite T in E; cbn [bind] in E; auto.
      destruct (_ && _); discriminate.
    + inversion E; subst e. exfalso. revert V. unfold validate_class.
      destruct (is_identifier name); [|discriminate]. destruct (is_keyword name); [discriminate|].
      destruct (map dt_name ms) as [|n r]; [discriminate|].
      destruct (proj2 (validate_members_spec (n :: r) [])) as [Z|Z]; cbn [negb]; rewrite Z; discriminate.
Qed.

(** The classes that the mapper is given are those of the class text. *)
Lemma class_modelled name desc ms text c args :
  create_class name ms = Ok name -> Forall harmless (texts_of desc ms) ->
  class_text name desc ms = Ok text -> exec_class text = Some (Ok c) -> (List.length args <= List.length ms)%nat ->
  match instance name (map dt_name ms) args with
  | Ok (VStruct n attrs) => exists attrs', call_class c args = Some (Ok (VStruct n attrs')) /\ Permutation attrs attrs'
  | r => call_class c args = Some r
  end.
Proof.
  intros E H T X L. apply created_validated in E. destruct E as (V & C & D).
  destruct (executed name desc ms V H) as (text' & l & T' & P & _ & X').
  rewrite (clean_nodup _ C) in X'. apply String.eqb_neq in D. rewrite D in X'. cbn [andb negb] in X'.
  assert (text' = text) by congruence. subst text'. assert (c = the_class name (map dt_name ms) l) by congruence. subst c.
  now apply call_instance.
Qed.

Lemma app_same_length a : forall b x y, String.length a = String.length b -> a +++ x = b +++ y -> a = b.
Proof.
  induction a as [|c a IH]; intros [|d b] x y L E; try discriminate; auto.
  cbn in L, E. inversion E; subst. f_equal. eapply IH; eauto.
Qed.

Lemma assignment_inj a b : assignment a = assignment b -> a = b.
Proof.
  unfold assignment. intros E. cbn [String.append] in E. injection E as E.
  apply (app_same_length a b) with (2 := E).
  apply (f_equal String.length) in E. rewrite !strlen_app in E. cbn in E. lia.
Qed.

Lemma map_inj {A B} (f : A -> B) (I : forall x y, f x = f y -> x = y) : forall l m, map f l = map f m -> l = m.
Proof.
  induction l as [|x l IH]; intros [|y m] E; try discriminate; auto. cbn in E. inversion E. f_equal; auto.
Qed.

(** C52: descriptions and the data types that members name do not matter. *)
Lemma class_documented name desc desc' ms ms' :
  create_class name ms = Ok name -> create_class name ms' = Ok name -> map dt_name ms = map dt_name ms' ->
  Forall harmless (texts_of desc ms) -> Forall harmless (texts_of desc' ms') ->
  exists text text' c, class_text name desc ms = Ok text /\ class_text name desc' ms' = Ok text' /\
    exec_class text = Some (Ok c) /\ exec_class text' = Some (Ok c).
Proof.
  intros E E' M H H'. apply created_validated in E. destruct E as (V & C & D).
  apply created_validated in E'. destruct E' as (V' & C' & _).
  destruct (executed name desc ms V H) as (text & l & T & P & S & X).
  destruct (executed name desc' ms' V' H') as (text' & l' & T' & P' & S' & X').
  assert (l = l') by (apply (map_inj assignment assignment_inj); congruence). subst l'.
  rewrite (clean_nodup _ C) in X. rewrite (clean_nodup _ C') in X'. apply String.eqb_neq in D. rewrite D in X, X'. cbn [andb negb] in X, X'.
  exists text, text', (the_class name (map dt_name ms) l). repeat split; auto. now rewrite M.
Qed.

(** C52: text of a description can become code of the class. *)
Lemma description_code_refuted : exists name desc ms text ls,
  create_class name ms = Ok name /\ class_text name (Some desc) ms = Ok text /\
  lines_of text = Lexed ls /\ In (2%nat, [TWord "import"; TWord "os"]) ls /\
  exists a b, desc = String.append a (String.append "import os" b).
Proof.
  set (m := mkMeta "x" [] None).
  exists "point", ("A point." +++ quotes +++ newline +++ "  import os" +++ newline +++ "  " +++ quotes +++ "Notes"),
    [DMember m BONative None (Some "byte") None (DInteger (mkFixed m BONative (Some 1%Z) "bytes") true)].
  eexists. eexists. split; [vm_compute; reflexivity|]. split; [vm_compute; reflexivity|].
  split; [vm_compute; reflexivity|]. split; [right; right; left; reflexivity|].
  exists ("A point." +++ quotes +++ newline +++ "  "), (newline +++ "  " +++ quotes +++ "Notes"). reflexivity.
Qed.

(** C52: a description can make the class text invalid. *)
Lemma description_escape_refuted : exists name desc ms text,
  create_class name ms = Ok name /\ class_text name (Some desc) ms = Ok text /\
  exec_class text = Some (Raise SyntaxError) /\ desc = "Stored in C:\Users".
Proof.
  set (m := mkMeta "x" [] None).
  exists "point", "Stored in C:\Users",
    [DMember m BONative None (Some "byte") None (DInteger (mkFixed m BONative (Some 1%Z) "bytes") true)].
  eexists. split; [vm_compute; reflexivity|]. split; [vm_compute; reflexivity|].
  split; [vm_compute; reflexivity|reflexivity].
Qed.

(** ** Checking texts *)

Fixpoint harmlessb (s : string) : bool :=
  negb (String.prefix quotes s) &&
  match s with
  | EmptyString => true
  | String c r =>
      negb (Ascii.eqb c null) &&
      negb (Ascii.eqb c backslash &&
            match r with String d _ => existsb (Ascii.eqb d) ["x"; "u"; "U"; "N"]%char | EmptyString => false end) &&
      harmlessb r
  end.

Lemma harmless_sound s : harmlessb s = true -> harmless s.
Proof.
  induction s as [|c s IH]; cbn [harmlessb]; intros H; apply andb_true_iff in H; destruct H as [P H].
  - split; [|split]; intros [|x a]; discriminate.
  - apply andb_true_iff in H. destruct H as [H H3]. apply andb_true_iff in H. destruct H as [H1 H2].
    destruct (IH H3) as (A & B & C). apply negb_true_iff in P, H1, H2. split; [|split].
    + intros [|x a] b E.
      * rewrite E in P. assert (Q : String.prefix quotes ("" +++ """""""" +++ b) = true) by (apply prefix_spec; exists b; reflexivity).
        congruence.
      * inversion E; subst. now apply (A a b).
    + intros [|x a] b E; inversion E; subst; [discriminate|]. now apply (B a b).
    + intros [|x a] d b E; inversion E; subst.
      * cbn [String.append] in H2. change (Ascii.eqb "\" backslash) with true in H2. cbn [andb] in H2.
        intros I. assert (Z : existsb (Ascii.eqb d) ["x"; "u"; "U"; "N"]%char = true); [|congruence].
        apply existsb_exists. exists d. split; auto. apply Ascii.eqb_refl.
      * now apply (C a d b).
Qed.

Lemma harmless_list l : forallb harmlessb l = true -> Forall harmless l.
Proof. rewrite forallb_forall, Forall_forall. intros H s I. apply harmless_sound. auto. Qed.
