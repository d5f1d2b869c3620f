(** Every definition of a file of plain documents is covered by the model of the
    maps. *)
From Coq Require Import String Ascii List ZArith NArith Bool Lia.
From Verif Require Import Base Ieee PyVal PyStruct DataTypes ClassFactory DataMaps SpecPrim SpecMap SpecCreate SpecReads
  Yaml Reader SpecReader SpecDescribe Fabric Codec SpecFabric SpecPlain ContainerProofs DescribeProofs ReaderProofs FabricProofs SameProofs FileProofs.
Import ListNotations.
Open Scope Z_scope.
Local Open Scope string_scope.
Local Open Scope list_scope.

Lemma plain_text_text v : plain_text v -> exists s, SpecFabric.text v s.
Proof.
  intros (cs & -> & F). assert (exists s, ascii_text cs = Some s) as [s S].
  { induction F as [|c cs C F [s S]]; [exists EmptyString; reflexivity|]. cbn [ascii_text]. rewrite S. unfold ascii_char.
    replace ((0 <=? c) && (c <? 128))%Z with true by (symmetry; apply andb_true_iff; rewrite Z.leb_le, Z.ltb_lt; lia). eauto. }
  exists s. apply t_text_iff. exact S.
Qed.

Lemma plain_null_text v : v = YNull \/ plain_text v -> exists o, opt_text v o.
Proof.
  intros [->|P]; [exists None; reflexivity|]. apply plain_text_text in P. destruct P as [s P]. exists (Some s). exact P.
Qed.

Lemma plain_words_text v : v = YNull \/ plain_words v -> exists o, opt_unicode_text v o.
Proof.
  intros [->|(cs & -> & F)]; [exists None; reflexivity|].
  assert (exists b, utf8_encode cs = Some b) as [b B].
  { induction F as [|c cs [C1 C2] F [b B]]; [exists []; reflexivity|]. cbn [utf8_encode]. rewrite B.
    assert (U : exists l, utf8 c l).
    { assert (D : c < 128 \/ 128 <= c < 2048 \/ 2048 <= c < 65536 \/ 65536 <= c) by lia.
      destruct D as [D|[D|[D|D]]]; eexists; [apply UTF8_1|apply UTF8_2|apply UTF8_3|apply UTF8_4]; lia. }
    destruct U as [l U]. apply utf8_iff in U. destruct U as (a & -> & _). eauto. }
  exists (Some (string_of_list_byte b)). apply t_description_iff. cbn [t_description]. now rewrite B.
Qed.

Lemma plain_values l : Forall plain_scalar l -> exists l', Forall2 same_value l l'.
Proof.
  induction 1 as [|x l X _ [l' L]]; [exists []; constructor|].
  assert (exists y, same_value x y) as [y S] by (destruct x; try contradiction; eexists; constructor).
  eauto.
Qed.

Lemma plain_scalar_value x : plain_scalar x -> exists y, same_value x y.
Proof. intros H. destruct x; try contradiction; eexists; constructor. Qed.

Lemma plain_texts x : plain_list plain_text x -> exists l, SpecFabric.texts x l.
Proof.
  intros (l & -> & F). induction F as [|v l V F (l' & k & E & S)].
  - exists [], []. split; constructor.
  - injection E as <-. apply plain_text_text in V. destruct V as [s V]. exists (s :: l'), (v :: l). split; [reflexivity|]. constructor; auto.
Qed.

Lemma plain_at top v key x : plain top v -> entry v key x -> plain_field top key x.
Proof. intros P E. inversion P; subst; auto. Qed.

Lemma plain_get top v key x : plain top v -> field v key x -> plain_field top key x \/ x = YNull.
Proof. intros P [E|(_ & _ & ->)]; auto. left. eapply plain_at; eauto. Qed.

Lemma plain_attributes top v a : plain top v -> field v "attributes" a -> ~ falsy a -> plain false a.
Proof.
  intros P [E|(_ & _ & ->)] N; [inversion P; subst; auto|]. destruct (N eq_refl).
Qed.

Lemma plain_items top v key x l y : plain top v -> In key ["members"; "layout"; "values"] -> field v key x ->
  ~ falsy x -> y_iter x = Ok l -> In y l -> (key = "values" -> top = true) -> plain false y.
Proof.
  intros P K [E|(_ & _ & ->)] N I Y T; [|destruct (N eq_refl)].
  assert (exists k, x = YList k) as [k ->].
  { pose proof (plain_at _ _ _ _ P E) as F. destruct K as [<-|[<-|[<-|[]]]]; cbn in F.
    1,2: destruct F as [->|(k & -> & _)]; [destruct (N eq_refl)|eauto].
    destruct F as [->|(k & -> & _)]; [destruct (N eq_refl)|eauto]. }
  injection I as ->. inversion P; subst. eauto.
Qed.

Lemma plain_meta top v m : plain top v -> says_meta v m -> exists m', same_meta m m'.
Proof.
  intros P (N & (a & A & G) & D & _).
  assert (exists n, same_name (rm_name m) n) as [n N'].
  { destruct (plain_get _ _ _ _ P N) as [[->|[T E]]| ->].
    - exists "". left; auto.
    - apply plain_text_text in T. destruct T as [s T]. exists s. right. split; [exact T|]. intros ->. apply E. apply T.
    - exists "". left; auto. }
  assert (exists l, SpecFabric.texts (rm_aliases m) l) as [l L].
  { destruct G as [[F ->]|[F ->]].
    - destruct (plain_get _ _ _ _ P A) as [[->|T]| ->]; try (destruct (F eq_refl)). apply plain_texts; auto.
    - exists [], []. split; constructor. }
  assert (exists o, opt_unicode_text (rm_desc m) o) as [o O].
  { apply plain_words_text. destruct (plain_get _ _ _ _ P D) as [H|H]; auto. }
  exists (mkMeta n l o). split; auto.
Qed.

Lemma order_same v : a_byte_order v -> exists bo, same_order v bo.
Proof.
  intros (s & -> & [<-|[<-|[<-|[]]]]); [exists BOBig|exists BOLittle|exists BONative]; reflexivity.
Qed.

Lemma says_order_ok names v bo : says_order names v bo -> a_byte_order bo.
Proof. intros (a & _ & [[_ ->]|(_ & _ & _ & O)]); [exists "native"; cbn; tauto|exact O]. Qed.

Lemma plain_size v size units top default sizes : plain top v -> says_size default sizes v size units ->
  default = Y "native" \/ (exists z, default = YInt z) ->
  (exists s, same_size size s) /\ exists u, SpecFabric.text units u.
Proof.
  assert (B : exists u, SpecFabric.text (Y "bytes") u).
  { exists "bytes". split; [reflexivity|]. repeat constructor. }
  intros P (a & A & [(F & -> & ->)|(F & S & SZ & U)]) D.
  - split; [|exact B]. destruct D as [->|[z ->]]; [exists None; reflexivity|exists (Some z); reflexivity].
  - pose proof (plain_attributes _ _ _ P A F) as PA. split.
    + destruct SZ as [->|(z & _ & Q)]; [exists None; reflexivity|].
      destruct S as [E|(_ & _ & ->)].
      * pose proof (plain_at _ _ _ _ PA E) as K. cbn in K. destruct K as [[k ->]|(s & -> & _)]; [exists (Some k); reflexivity|].
        inversion Q.
      * destruct D as [->|[k ->]]; [exists None; reflexivity|exists (Some k); reflexivity].
    + destruct U as [E|(_ & _ & ->)]; [|exact B]. apply plain_text_text. exact (plain_at _ _ _ _ PA E).
Qed.

Lemma plain_fixed top v member type default sizes f : plain top v -> says_fixed member type default sizes v f ->
  default = Y "native" \/ (exists z, default = YInt z) ->
  (exists f', same_fixed f f') /\ a_byte_order (rf_bo f).
Proof.
  intros P (_ & M & O & S) D. apply (plain_meta _ _ _ P) in M. destruct M as [m M]. apply says_order_ok in O.
  destruct (plain_size _ _ _ _ _ _ P S D) as [[s SZ] [u U]]. destruct (order_same _ O) as [bo B].
  split; [|exact O]. exists (mkFixed m bo s u). split; [|split; [|split]]; auto.
Qed.

(** Definitions before the present one. *)
Definition known_defs (prior : list rdef) : Prop := Forall (fun r => well_formed r /\ exists d, same r d) prior.

Lemma known_in prior r : known_defs prior -> In r prior -> a_byte_order (rd_byte_order r) /\ exists d, same r d.
Proof.
  intros K I. unfold known_defs in K. rewrite Forall_forall in K. destruct (K r I) as [W S]. split; [|exact S]. apply well_formed_order, W.
Qed.

Lemma amount_same env x n e : x = YNull \/ plain_integer x \/ plain_text x -> says_amount env x n e ->
  exists e', both SpecFabric.text e e'.
Proof.
  intros P [(_ & _ & ->)|[(_ & z & _ & _ & ->)|(N & I & _ & ->)]]; try (exists None; exact Logic.I).
  destruct P as [->|[[z ->]|T]]; [destruct (N eq_refl)|discriminate|].
  apply plain_text_text in T. destruct T as [s T]. exists (Some s). exact T.
Qed.

Lemma bytes_scalar limit x y : plain_scalar x -> says_bytes limit x y -> plain_scalar y.
Proof. intros P [(s & b & _ & -> & _)|[_ ->]]; [exact I|exact P]. Qed.

Lemma plain_elems env prior top member k v e elem : plain top v -> known_defs prior ->
  says_elements env prior member k v e elem ->
  (exists d, same (RElems k e elem) d) /\ a_byte_order (re_bo e).
Proof.
  intros P K (_ & M & T & TN & SF & BO & (size & number & term & F1 & F2 & F3 & _ & _ & A1 & A2 & A3) & EN).
  apply (plain_meta _ _ _ P) in M. destruct M as [m M].
  destruct (known_in _ _ K (stands_for_in _ _ _ _ SF)) as [O [d D]].
  destruct (order_same _ O) as [bo B].
  assert (exists s, SpecFabric.text (re_data_type e) s) as [t Tt].
  { apply plain_text_text. destruct (plain_get _ _ _ _ P T) as [[H|H]|H]; auto; rewrite H in TN; destruct (TN eq_refl). }
  assert (exists e', both SpecFabric.text (re_data_size_expr e) e') as [ds DS].
  { eapply amount_same; [|exact A1]. destruct (plain_get _ _ _ _ P F1) as [H|H]; auto. }
  assert (exists e', both SpecFabric.text (re_number_expr e) e') as [ne NE].
  { eapply amount_same; [|exact A2]. destruct (plain_get _ _ _ _ P F2) as [H|H]; auto. }
  assert (exists o, both same_value (re_terminator e) o) as [tm TM].
  { destruct A3 as [[_ ->]|(N & y & -> & Y)]; [exists None; exact I|].
    destruct (plain_get _ _ _ _ P F3) as [H|H]; [|destruct (N H)]. cbn in H.
    destruct (plain_scalar_value y (bytes_scalar _ _ _ H Y)) as [z Z]. exists (Some z). exact Z. }
  assert (exists s, SpecFabric.text (re_encoding e) s) as [en EN'].
  { assert (A : exists s, SpecFabric.text (Y "ascii") s) by (exists "ascii"; split; [reflexivity|repeat constructor]).
    destruct k; try (rewrite EN; exact A). destruct EN as [EN NF].
    apply plain_text_text. destruct (plain_get _ _ _ _ P EN) as [[H|H]|H]; auto; rewrite H in NF; destruct (NF eq_refl). }
  split; [|rewrite BO; exact O].
  exists (DElems k (mkElems m bo (re_data_size e) ds (Some t) tm (re_number e) ne en) d).
  constructor; [|exact D]. unfold same_elems. cbn. rewrite BO. tauto.
Qed.

Lemma plain_inline env prior top member v d : plain top v -> known_defs prior ->
  says_inline env prior member v d -> (exists d', same d d') /\ a_byte_order (rd_byte_order d).
Proof.
  intros P K S. assert (NA : Y "native" = Y "native" \/ exists z, Y "native" = YInt z) by auto. destruct S.
  - destruct (plain_fixed _ _ _ _ _ _ _ P H0 NA) as [[f' F] O]. split; [eexists; constructor; eauto|exact O].
  - destruct (plain_fixed _ _ _ _ _ _ _ P H0 NA) as [[f' F] O]. split; [eexists; constructor; eauto|exact O].
  - destruct (plain_fixed _ _ _ _ _ _ _ P H0 NA) as [[f' F] O]. split; [eexists; constructor; eauto|exact O].
  - destruct (plain_fixed _ _ _ _ _ _ _ P H0 NA) as [[f' F] O]. split; [|exact O].
    assert (exists s, SpecFabric.text fmt s) as [s S].
    { destruct H1 as (a & _ & [[_ ->]|(_ & _ & (s & -> & I))]).
      - exists "signed". split; [reflexivity|repeat constructor].
      - exists s. split; [reflexivity|]. destruct I as [<-|[<-|[]]]; repeat constructor. }
    exists (DInteger f' (String.eqb s "unsigned")). econstructor; eauto. apply String.eqb_eq.
  - destruct (plain_fixed _ _ _ _ _ _ _ P H0 ltac:(eauto)) as [[f' F] O]. split; [eexists; constructor; eauto|exact O].
  - apply (plain_meta _ _ _ P) in H2. destruct H2 as [m' M]. destruct H4 as (z & Z & Q).
    assert (O : a_byte_order (Y "native")) by (exists "native"; cbn; tauto).
    split; [|exact O]. destruct (plain_get _ _ _ _ P H3) as [[->|[k ->]]| ->]; try (inversion Q; fail).
    exists (DPadding m' BONative (Some k)). constructor; [exact M|reflexivity].
  - destruct (plain_elems _ _ _ _ _ _ _ _ P K H0) as [D O]. split; auto.
Qed.

Lemma plain_says_values v vs : plain false v -> says_values v vs -> exists vs', both (Forall2 same_value) vs vs'.
Proof.
  intros P (value & values & F1 & F2 & [(N & _ & y & -> & B)|[(_ & _ & ->)|(_ & N & l & ys & I & -> & F)]]).
  - destruct (plain_get _ _ _ _ P F1) as [H|H]; [|destruct (N H)]. cbn in H.
    destruct (plain_scalar_value y (bytes_scalar _ _ _ H B)) as [z Z]. exists (Some [z]). constructor; auto.
  - exists None. exact I.
  - destruct (plain_get _ _ _ _ P F2) as [[->|(l' & -> & H)]| ->]; try (destruct (N eq_refl)).
    injection I as ->. assert (G : Forall plain_scalar ys).
    { clear -F H. induction F as [|x y l ys B F IH]; [constructor|]. inversion H; subst. constructor; auto. eapply bytes_scalar; eauto. }
    destruct (plain_values _ G) as [zs Z]. exists (Some zs). exact Z.
Qed.

Lemma plain_condition cs v c : plain false v -> says_condition cs v c -> exists c', opt_text c c'.
Proof. intros P [F _]. apply plain_null_text. destruct (plain_get _ _ _ _ P F) as [H|H]; auto. Qed.

Scheme says_member_ind' := Minimality for says_member Sort Prop
  with says_members_ind' := Minimality for says_members Sort Prop.
Combined Scheme says_both from says_member_ind', says_members_ind'.

Lemma plain_container top type v m bo l : plain top v -> says_container type v m bo l ->
  (exists m', same_meta m m') /\ (exists bo', same_order bo bo') /\ a_byte_order bo /\ forall x, In x l -> plain false x.
Proof.
  intros P (_ & _ & M & O & x & F & N & I). split; [eapply plain_meta; eauto|]. apply says_order_ok in O.
  split; [apply order_same; auto|]. split; [exact O|]. intros y Y. eapply (plain_items top v "members"); eauto; [cbn; tauto|discriminate].
Qed.

Lemma plain_members env prior : known_defs prior ->
  (forall cs v d, says_member env prior cs v d -> plain false v -> exists d', same d d') /\
  (forall cs l ms names ss, says_members env prior cs l ms names ss -> (forall x, In x l -> plain false x) -> exists ms', Forall2 same ms ms').
Proof.
  intros K. apply says_both.
  - intros cs v name aliases vs m bo c dt d Fn Nn Ft Fd Nd SF Ks C V Rn Rd Ru Fa Ga -> P.
    destruct (known_in _ _ K (stands_for_in _ _ _ _ SF)) as [O [d' D]]. destruct (order_same _ O) as [bo B].
    destruct (plain_says_values _ _ P V) as [vs' V']. destruct (plain_condition _ _ _ P C) as [c' C'].
    assert (M : exists m', same_meta m m').
    { apply (plain_meta false v (mkRMeta (rm_name m) (rm_aliases m) (rm_desc m) (match map_get (Y "urls") (match v with YMap l => l | _ => [] end) with Some x => x | None => YNull end))) in P.
      - destruct P as [m' M]. exists m'. exact M.
      - split; [rewrite Rn; exact Fn|]. split; [eauto|]. split; [exact Rd|]. cbn.
        destruct Ks as (l & -> & _). destruct (map_get (Y "urls") l) as [u|] eqn:U; [left; exists l; auto|]. right.
        split; [eauto|]. split; [|reflexivity]. intros y (l' & [= <-] & G). congruence. }
    destruct M as [m' M].
    assert (exists o, opt_text dt o) as [dt' DT].
    { apply plain_null_text. destruct (plain_get _ _ _ _ P Fd) as [H|H]; auto. }
    exists (DMember m' bo c' dt' vs' d'). constructor; auto.
  - intros cs v name c vs d _ _ _ _ _ _ _ S P. apply (plain_inline _ _ _ _ _ _ P K S).
  - intros cs v name c vs d Fn Nn _ C V _ S P. destruct (plain_inline _ _ _ _ _ _ P K S) as [[d' D] O].
    destruct (order_same _ O) as [bo B]. destruct (plain_says_values _ _ P V) as [vs' V']. destruct (plain_condition _ _ _ P C) as [c' C'].
    assert (exists n, SpecFabric.text name n /\ n <> "") as (n & T & E).
    { destruct (plain_get _ _ _ _ P Fn) as [[H|[H E]]|H]; try (rewrite H in Nn; destruct (Nn eq_refl)).
      apply plain_text_text in H. destruct H as [n T]. exists n. split; [exact T|]. intros ->. apply E, T. }
    exists (DMember (mkMeta n [] None) bo c' None vs' d'). constructor; auto; [|reflexivity].
    split; [right; auto|]. split; [exists []; split; constructor|reflexivity].
  - intros cs v m bo l ms names ss C _ IH _ P. destruct (plain_container _ _ _ _ _ _ P C) as ([m' M] & [bo' B] & _ & L).
    destruct (IH L) as [ms' F]. exists (DUnion m' bo' ms'). constructor; auto.
  - intros. exists []. constructor.
  - intros cs v s l ms names ss _ _ _ IH P. apply IH. intros; apply P; cbn; auto.
  - intros cs v s d l ms names ss _ _ _ IH1 _ IH2 P. destruct (IH1 (P v (or_introl eq_refl))) as [d' D].
    destruct IH2 as [ms' F]; [intros; apply P; cbn; auto|]. exists (d' :: ms'). constructor; auto.
Qed.

(** *** Enumerations *)

Lemma text_eqb a b s t : SpecFabric.text a s -> SpecFabric.text b t -> s = t -> y_eqb a b = true.
Proof. intros [-> _] [-> _] ->. apply y_eqb_text. reflexivity. Qed.

Lemma value_eqb a b x y : same_value a x -> same_value b y -> py_eq x y = y_eqb a b.
Proof. intros A B. inversion A; subst; inversion B; subst; reflexivity. Qed.

(** What the maps of an enumeration hold. *)
Record holding (en : enum_def) (vs : list enum_value) : Prop := {
  hold_names : forall n, dict_mem n (en_per_name en) = true -> In n (map ev_name vs);
  hold_aliases : forall a, dict_mem a (en_per_alias en) = true -> exists v, In v vs /\ In a (ev_aliases v);
  hold_numbers : map fst (en_per_number en) = map ev_number vs }.

Lemma dict_set_mem {A} k (v : A) d n : dict_mem n (dict_set k v d) = true -> n = k \/ dict_mem n d = true.
Proof.
  unfold dict_mem. rewrite dict_get_set. destruct (String.eqb n k) eqn:E; [|auto]. apply String.eqb_eq in E. auto.
Qed.

Lemma aliases_mem {A} (v : A) als a : forall d, dict_mem a (fold_left (fun d x => dict_set x v d) als d) = true ->
  In a als \/ dict_mem a d = true.
Proof.
  induction als as [|b als IH]; intros d H; cbn [fold_left] in H; [auto|]. apply IH in H. destruct H as [H|H]; [cbn; auto|].
  apply dict_set_mem in H. destruct H as [->|H]; cbn; auto.
Qed.

Lemma adding_one en vs v : holding en vs ->
  ~ In (ev_name v) (map ev_name vs) ->
  (forall w, In w vs -> py_eq (ev_number v) (ev_number w) = false) ->
  (forall w a, In w vs -> In a (ev_aliases w) -> In a (ev_aliases v) -> False) ->
  exists en', enum_add en v = (Ok tt, en') /\ holding en' (vs ++ [v]).
Proof.
  intros [HN HA HU] N U A. unfold enum_add.
  destruct (dict_mem (ev_name v) (en_per_name en)) eqn:E1; [destruct (N (HN _ E1))|].
  assert (num_get (ev_number v) (en_per_number en) = None) as ->.
  { unfold num_get. destruct (find _ _) as [kv|] eqn:E; [|reflexivity]. apply find_some in E. destruct E as [I Q].
    apply (in_map fst) in I. rewrite HU in I. apply in_map_iff in I. destruct I as (w & W & I). rewrite <- W, (U w I) in Q. discriminate. }
  destruct (existsb _ _) eqn:E3.
  { apply existsb_exists in E3. destruct E3 as (a & I & M). destruct (HA _ M) as (w & W & J). destruct (A w a W J I). }
  eexists. split; [reflexivity|]. constructor; cbn [en_values en_per_name en_per_number en_per_alias].
  - intros n M. rewrite map_app. apply in_or_app. apply dict_set_mem in M. destruct M as [->|M]; [right; cbn; auto|left; auto].
  - intros a M. apply aliases_mem in M. destruct M as [I|M].
    + exists v. split; [apply in_or_app; cbn; auto|exact I].
    + destruct (HA _ M) as (w & W & J). exists w. split; [apply in_or_app; auto|exact J].
  - rewrite !map_app, HU. reflexivity.
Qed.

Lemma adding_all vs' : forall en ws, holding en ws ->
  (forall i j x y, (i < j)%nat -> nth_error (ws ++ vs') i = Some x -> nth_error (ws ++ vs') j = Some y ->
     ev_name y <> ev_name x /\ py_eq (ev_number y) (ev_number x) = false /\
     forall a, In a (ev_aliases x) -> In a (ev_aliases y) -> False) ->
  exists en', adding en vs' en'.
Proof.
  induction vs' as [|v vs IH]; intros en ws H D; [exists en; constructor|].
  assert (X : forall w, In w ws -> ev_name v <> ev_name w /\ py_eq (ev_number v) (ev_number w) = false /\
    forall a, In a (ev_aliases w) -> In a (ev_aliases v) -> False).
  { intros w W. apply In_nth_error in W. destruct W as [i W]. apply (D i (List.length ws)).
    - apply nth_error_Some. congruence.
    - rewrite nth_error_app1; [exact W|]. apply nth_error_Some. congruence.
    - rewrite nth_error_app2 by lia. rewrite PeanoNat.Nat.sub_diag. reflexivity. }
  destruct (adding_one en ws v H) as (en1 & A & H1).
  - intros I. apply in_map_iff in I. destruct I as (w & E & I). destruct (X w I) as [N _]. congruence.
  - intros w W. apply X, W.
  - intros w a W. apply X, W.
  - destruct (IH en1 (ws ++ [v]) H1) as [en2 A2].
    + rewrite <- app_assoc. exact D.
    + exists en2. econstructor; eauto.
Qed.

Lemma forall2_nth {A B} (R : A -> B -> Prop) l l' : Forall2 R l l' -> forall i y, nth_error l' i = Some y ->
  exists x, nth_error l i = Some x /\ R x y.
Proof.
  induction 1 as [|a b l l' H F IH]; intros [|i] y E; try discriminate; cbn in *; eauto. injection E as <-. eauto.
Qed.

Lemma plain_enum v m x l vs : plain true v -> says_meta v m -> field v "values" x -> ~ falsy x -> y_iter x = Ok l ->
  Forall2 says_enum_value l vs ->
  distinct (map rv_name vs) -> distinct (map rv_number vs) -> unique_aliases vs ->
  exists d, same (REnumeration m vs) d.
Proof.
  intros P M F N I FV DN DU UA. apply (plain_meta _ _ _ P) in M. destruct M as [m' M].
  assert (PL : forall y, In y l -> plain false y).
  { intros y Y. eapply (plain_items true v "values"); eauto. cbn; tauto. }
  assert (exists vs', Forall2 same_enum vs vs') as [vs' FS].
  { clear -FV PL. induction FV as [|y e l vs S F IH]; [exists []; constructor|].
    destruct IH as [vs' F']; [intros; apply PL; cbn; auto|].
    pose proof (PL y (or_introl eq_refl)) as P. destruct S as (S1 & N1 & _ & S2 & N2 & _ & S3 & (a & S4 & G) & _).
    assert (exists n, SpecFabric.text (rv_name e) n) as [n T].
    { destruct (plain_get _ _ _ _ P S1) as [[H|[H _]]|H]; try (rewrite H in N1; destruct (N1 eq_refl)). apply plain_text_text; auto. }
    assert (exists z, same_value (rv_number e) z) as [z Z].
    { destruct (plain_get _ _ _ _ P S2) as [H|H]; [|destruct (N2 H)]. apply plain_scalar_value, H. }
    assert (exists k, SpecFabric.texts (rv_aliases e) k) as [k K].
    { destruct G as [[Q ->]|[Q ->]].
      - destruct (plain_get _ _ _ _ P S4) as [[->|H]| ->]; try (destruct (Q eq_refl)). apply plain_texts; auto.
      - exists [], []. split; constructor. }
    assert (exists o, opt_unicode_text (rv_desc e) o) as [o O].
    { apply plain_words_text. destruct (plain_get _ _ _ _ P S3) as [H|H]; auto. }
    exists (mkEnumValue n z k o :: vs'). constructor; [split; auto|exact F']. }
  destruct (adding_all vs' (mkEnum [] [] [] []) []) as [en A].
  - constructor; cbn; [discriminate|discriminate|reflexivity].
  - cbn [app]. intros i j x' y' L X Y. destruct (forall2_nth _ _ _ FS _ _ X) as (a & EA & (A1 & A2 & A3 & _)).
    destruct (forall2_nth _ _ _ FS _ _ Y) as (b & EB & (B1 & B2 & B3 & _)). split; [|split].
    + intros E. specialize (DN i j (rv_name a) (rv_name b) L (map_nth_error _ _ _ EA) (map_nth_error _ _ _ EB)).
      rewrite (text_eqb _ _ _ _ B1 A1 E) in DN. discriminate.
    + rewrite (value_eqb _ _ _ _ B2 A2). apply (DU i j); auto using map_nth_error.
    + intros al I1 I2. destruct A3 as (la & LA & FA). destruct B3 as (lb & LB & FB).
      apply In_nth_error in I1. destruct I1 as [p I1]. apply In_nth_error in I2. destruct I2 as [q I2].
      destruct (forall2_nth _ _ _ FA _ _ I1) as (ya & Ya & Ta). destruct (forall2_nth _ _ _ FB _ _ I2) as (yb & Yb & Tb).
      assert (Q : y_eqb yb ya = false).
      { apply (UA i j a b la lb); auto; try (rewrite LA; reflexivity); try (rewrite LB; reflexivity); eapply nth_error_In; eauto. }
      rewrite (text_eqb _ _ _ _ Tb Ta eq_refl) in Q. discriminate.
  - exists (DEnumeration m' en). econstructor; eauto.
Qed.

(** *** Documents *)

Lemma targets_same env prior l ms : known_defs prior -> Forall2 (stands_for env prior) l ms -> exists ms', Forall2 same ms ms'.
Proof.
  intros K F. induction F as [|n r l ms S F [ms' F']]; [exists []; constructor|].
  destruct (known_in _ _ K (stands_for_in _ _ _ _ S)) as [_ [d D]]. exists (d :: ms'). constructor; auto.
Qed.

Lemma plain_says env prior v r : known_defs prior -> plain_document v -> says env prior v r -> exists d, same r d.
Proof.
  intros K P S. unfold plain_document in P. destruct S.
  - apply (plain_inline _ _ _ _ _ _ P K H).
  - destruct (plain_container _ _ _ _ _ _ P H) as ([m' M] & [bo' B] & _ & L).
    destruct (proj2 (plain_members env prior K) _ _ _ _ _ H0 L) as [ms' F]. exists (DStructure m' bo' ms'). constructor; auto.
  - destruct (plain_container _ _ _ _ _ _ P H) as ([m' M] & [bo' B] & _ & L).
    destruct (proj2 (plain_members env prior K) _ _ _ _ _ H0 L) as [ms' F]. exists (DUnion m' bo' ms'). constructor; auto.
  - apply (plain_meta _ _ _ P) in H1. destruct H1 as [m' M].
    destruct (plain_get _ _ _ _ P H2) as [Q|Q]; [|destruct (H3 Q)]. destruct (plain_scalar_value _ Q) as [y Y].
    exists (DConstant m' y). constructor; auto.
  - eapply plain_enum; eauto.
  - apply (plain_meta _ _ _ P) in H1. destruct H1 as [m' M].
    assert (exists b, both same_order bo b) as [b B].
    { destruct H7 as [[_ ->]|(b & _ & -> & O)]; [exists None; exact I|]. apply says_order_ok in O. destruct (order_same _ O) as [b' B]. exists (Some b'). exact B. }
    assert (PL : forall y, In y l -> plain false y).
    { destruct H2 as [E|(_ & _ & ->)]; [|injection H3 as <-; intros ? []].
      pose proof (plain_at _ _ _ _ P E) as Q. cbn in Q. destruct Q as [->|(k & -> & _)]; [discriminate|]. injection H3 as ->.
      intros y Y. inversion P as [t w _ _ G]. subst. apply (G "layout" l); auto. cbn; tauto. }
    assert (exists l', Forall2 same_layout layout l') as [l' L].
    { clear -H4 PL. induction H4 as [|y e l ls S F IH]; [exists []; constructor|]. destruct IH as [l' L]; [intros; apply PL; cbn; auto|].
      pose proof (PL y (or_introl eq_refl)) as P. destruct S as (S1 & N1 & S2 & _).
      assert (exists n, SpecFabric.text (fst e) n) as [n T].
      { destruct (plain_get _ _ _ _ P S1) as [[H|H]|H]; try (rewrite H in N1; destruct (N1 eq_refl)). apply plain_text_text; auto. }
      destruct (plain_get _ _ _ _ P S2) as [[H|[z H]]|H].
      - exists ((n, None) :: l'). constructor; [split; auto|exact L].
      - exists ((n, Some z) :: l'). constructor; [split; auto|exact L].
      - exists ((n, None) :: l'). constructor; [split; auto|exact L]. }
    exists (DFormat m' b l'). constructor; auto.
  - apply (plain_meta _ _ _ P) in H1. destruct H1 as [m' M].
    destruct (known_in _ _ K (stands_for_in _ _ _ _ H4)) as [_ [b B]]. destruct (targets_same _ _ _ _ K H8) as [ms' F].
    exists (DFamily m' b ms'). constructor; auto.
  - apply (plain_meta _ _ _ P) in H1. destruct H1 as [m' M].
    destruct (known_in _ _ K (stands_for_in _ _ _ _ H4)) as [O [b B]]. destruct (targets_same _ _ _ _ K H12) as [ms' F].
    destruct (order_same _ O) as [bo BO].
    assert (exists i, SpecFabric.text identifier i) as [i ID].
    { destruct (plain_get _ _ _ _ P H5) as [[Q|Q]|Q]; try (rewrite Q in H6; destruct (H6 eq_refl)). apply plain_text_text; auto. }
    destruct H8 as [[_ ->]|(d & _ & -> & SF)].
    + exists (DGroup m' bo b i None ms'). constructor; auto; [tauto|discriminate].
    + destruct (known_in _ _ K (stands_for_in _ _ _ _ SF)) as [_ [d' D]].
      exists (DGroup m' bo b i (Some d') ms'). constructor; auto; [split; discriminate|]. intros x' y' [= <-] [= <-]. exact D.
Qed.

Lemma says_file_app env prior docs ds : says_file env prior docs ds -> known_defs prior -> Forall well_formed (prior ++ ds) ->
  Forall plain_document docs -> Forall (fun r => exists d, same r d) ds.
Proof.
  induction 1 as [|prior v r docs ds S N F SF IH]; intros K W P; [constructor|]. inversion P as [|? ? PV PD]; subst.
  destruct (plain_says _ _ _ _ K PV S) as [d D]. constructor; [eauto|]. apply IH; auto.
  - unfold known_defs. apply Forall_app. split; [exact K|]. constructor; [|constructor]. split; [|eauto].
    rewrite Forall_app in W. destruct W as [_ W]. inversion W; auto.
  - rewrite <- app_assoc. exact W.
Qed.

(** Every definition of plain documents has exactly one counterpart. *)
Lemma plain_covered env docs ds : says_file env [] docs ds -> Forall plain_document docs ->
  Forall (fun r => exists d, same r d /\ forall d', same r d' -> d' = d) ds.
Proof.
  intros S P. pose proof (file_definitions_well_formed _ _ _ S) as W.
  pose proof (says_file_app _ _ _ _ S (Forall_nil _) W P) as F. revert F. apply Forall_impl. intros r [d D]. exists d. split; [exact D|].
  intros d' D'. apply typed_same in D, D'. congruence.
Qed.

(** The model says what happens for every name. *)
Lemma plain_makes orc env docs r name : Forall plain_document docs -> fabric env (Some (docs, YEnd)) = Ok r ->
  create_map orc env r name <> Uncovered.
Proof.
  intros P F. destruct (proj1 (proj1 (fabric_created env docs YEnd)) (ex_intro _ r F)) as (_ & ds & S).
  pose proof (plain_covered _ _ _ S P) as C. rewrite Forall_forall in C.
  destruct (fabric_of_file _ _ _ S) as (r' & F' & Ho & E). rewrite F in F'. injection F' as <-.
  unfold create_map. destruct (rlookup env r name) as [[d|]| |] eqn:L; try discriminate.
  apply (lookup_iff env r name d Ho) in L. rewrite E in L. destruct (C d (stands_for_in _ _ _ _ L)) as (t & T & _).
  apply typed_same in T. rewrite T. destruct (create orc t None); discriminate.
Qed.
