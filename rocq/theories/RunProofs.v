(** The bytes of a sequence of integers, read as a stream. *)
From Coq Require Import String List ZArith Bool Lia.
From Verif Require Import Base Ieee PyVal PyStruct DataTypes ClassFactory DataMaps.
From Verif Require Import SpecPrim SpecMap SpecCreate SpecReads SpecViews BytesProofs PrimProofs StreamProofs FoldProofs ReadsProofs FitProofs ViewsProofs.
Import ListNotations.
Open Scope Z_scope.
#[local] Arguments Z.add : simpl never.
#[local] Arguments Z.mul : simpl never.
#[local] Arguments Z.sub : simpl never.

Lemma app_split {A} (a : list A) : forall b c d, List.length a = List.length c -> a ++ b = c ++ d -> a = c /\ b = d.
Proof.
  induction a as [|x a IH]; intros b [|y c] d L E; try discriminate L; [auto|].
  cbn in E. injection E as -> E. destruct (IH b c d) as [-> ->]; auto.
Qed.

Lemma made_of_unique s en n : 0 < n -> forall w vs vs', made_of s en n w vs -> made_of s en n w vs' -> vs = vs'.
Proof.
  intros P w vs vs' M. revert vs'. induction M as [|p w vs L M IH]; intros vs' M'.
  - remember [] as z eqn:E. destruct M' as [|p w vs' L' M']; [reflexivity|].
    apply app_eq_nil in E. destruct E as [-> ->]. cbn in L'. lia.
  - remember (p ++ w) as z eqn:E. destruct M' as [|p' w' vs' L' M'].
    + symmetry in E. apply app_eq_nil in E. destruct E as [-> ->]. cbn in L. lia.
    + assert (Q : List.length p' = List.length p) by (unfold len in *; lia).
      destruct (app_split p' w' p w Q E) as [-> ->]. f_equal. now apply IH.
Qed.

Lemma element_integer e f u n : sized f n ->
  exists f', element_type e (DInteger f u) = DInteger f' u /\ sized f' n /\ f_bo f' = inherited (e_bo e) (f_bo f).
Proof.
  intros S. unfold element_type. cbn [dt_byte_order is_composite]. destruct (e_bo e), (f_bo f) eqn:B;
    try (exists f; split; [reflexivity|]; split; [exact S|]; rewrite B; reflexivity);
    eexists; (split; [reflexivity|]); (split; [exact S|reflexivity]).
Qed.

Lemma elements_run orc bs f u n : In n [1; 2; 4; 8] -> sized f n ->
  forall rs off, 0 <= off <= len bs -> reads_elements orc bs (DInteger f u) off rs ->
  span rs = n * len rs /\ off + n * len rs <= len bs /\
  made_of (negb u) (order_on (o_host orc) (f_bo f)) n (window bs off (n * len rs)) (map fst rs).
Proof.
  intros I S. assert (P : 0 < n) by (cbn in I; intuition lia).
  induction rs as [|[v k] rs IH]; intros off Ho R.
  - cbn [span fold_right map]. replace (n * len []) with 0 by (cbn; lia). split; [reflexivity|]. split; [lia|].
    unfold window. cbn. constructor.
  - inversion R as [|d o v' k' rs' L R1 R2]; subst. apply (reads_integer orc bs f u n) in R1; auto.
    destruct R1 as (-> & L1 & ->). destruct (IH (off + n)) as (A & B & C); [lia|exact R2|].
    assert (E : n * len ((VInt (stored_integer (negb u) (order_on (o_host orc) (f_bo f)) (window bs off n)), n) :: rs) = n + n * len rs).
    { unfold len. cbn [List.length]. lia. }
    pose proof (len_nonneg rs). rewrite E. split; [cbn [span fold_right snd]; unfold span in A; lia|]. split; [lia|].
    rewrite window_plus by nia. cbn [map fst]. constructor; [apply len_window; lia|exact C].
Qed.

Lemma elements_there orc bs f u n : In n [1; 2; 4; 8] -> sized f n ->
  forall k off, 0 <= off -> off + n * Z.of_nat k <= len bs ->
  exists rs, reads_elements orc bs (DInteger f u) off rs /\ len rs = Z.of_nat k.
Proof.
  intros I S. assert (P : 0 < n) by (cbn in I; intuition lia).
  induction k as [|k IH]; intros off Ho L.
  - exists []. split; [constructor|reflexivity].
  - destruct (IH (off + n)) as (rs & R & E); [lia|lia|]. eexists ((_, n) :: rs). split.
    + econstructor; [nia| |exact R]. apply (reads_integer orc bs f u n); auto. split; [reflexivity|]. split; [nia|reflexivity].
    + unfold len in *. cbn [List.length]. lia.
Qed.

Lemma prefix_within n (rs : list (pyval * Z)) s : 0 < n -> (forall r, In r rs -> snd r = n) -> n * len rs <= s ->
  forall before after, rs = before ++ after -> after <> [] -> span before < s.
Proof.
  intros P F L before after -> N.
  assert (E : span before = n * len before).
  { clear L N. induction before as [|r before IH]; [cbn; lia|]. unfold span, len in *. cbn [fold_right List.length] in *.
    rewrite (F r) by now left. rewrite IH; [lia|]. intros x X. apply F. now right. }
  assert (Q : len (before ++ after) = len before + len after) by (unfold len; rewrite app_length; lia).
  destruct after as [|a after]; [congruence|]. unfold len in *. cbn [List.length] in *. nia.
Qed.

Lemma elements_sizes orc bs f u n : In n [1; 2; 4; 8] -> sized f n ->
  forall rs off, reads_elements orc bs (DInteger f u) off rs -> forall r, In r rs -> snd r = n.
Proof.
  intros I S. induction rs as [|[v k] rs IH]; intros off R r Hr; [destruct Hr|].
  inversion R as [|d o v' k' rs' L R1 R2]; subst. apply (reads_integer orc bs f u n) in R1; auto. destruct R1 as (-> & _).
  destruct Hr as [<-|Hr]; [reflexivity|]. eapply IH; eauto.
Qed.

Lemma measure_given orc a b vals k : measure orc a b vals k -> is_some a || is_some b = true.
Proof. intros [(A & -> & _)|(_ & x & -> & _)]; [reflexivity|]. apply orb_true_r. Qed.

(** C86 *)
Lemma sequence_as_stream orc e f u n mq ms bs off vals depth v k :
  extensional orc -> everywhere regular (DElems KSequence e (DInteger f u)) ->
  In n [1; 2; 4; 8] -> sized f n -> e_terminator e = None -> (e_data_size_expr e = None \/ n = 1) ->
  create orc (DElems KSequence e (DInteger f u)) None = Ok (Some mq) ->
  create orc (DElems KStream e (DInteger f u)) None = Ok (Some ms) ->
  0 <= off <= len bs -> depth <= 10 ->
  ((exists fuel, SpecMap.maps orc fuel mq bs off vals depth v k) <->
   exists w vs, v = VTuple vs /\
     made_of (negb u) (order_on (o_host orc) (inherited (e_bo e) (f_bo f))) n w vs /\
     exists fuel, SpecMap.maps orc fuel ms bs off vals depth (VBytes w) k).
Proof.
  intros X R I S T Z Cq Cs Ho D. assert (P : 0 < n) by (cbn in I; intuition lia).
  pose proof R as [[[(SD & S1 & S2 & S3) W] [_ O]] Re].
  assert (R' : everywhere regular (DElems KStream e (DInteger f u))).
  { cbn [everywhere]. split; [|exact Re]. split; [|exact Logic.I]. split; [|exact W]. repeat split; auto.
    intros t Q. congruence. }
  assert (B : get_byte_size (DInteger f u) = Some n) by (cbn; apply sized_byte_size; exact S).
  destruct (element_integer e f u n S) as (f' & E & S' & BO).
  rewrite <- (reading_maps orc _ mq bs off vals depth v k X R Cq Ho) by (cbn; lia).
  rewrite <- BO.
  assert (M : forall s, measure orc (e_data_size e) (e_data_size_expr e) vals s -> s mod n = 0 /\ 0 <= s).
  { intros s [(A & Q & N)|(A & x & Q & N & V)].
    - split; [apply (O s n Q B)|exact N].
    - assert (n = 1) as -> by (destruct Z; [congruence|assumption]). split; [apply Z.mod_1_r|].
      destruct V as [[_ V]|(b & _ & ->)]; [exact V|]. destruct b; cbn; lia. }
  assert (HS : forall s, measure orc (e_data_size e) (e_data_size_expr e) vals s -> has_data_size e = true).
  { intros s. apply measure_given. }
  assert (ST : forall w, (exists fuel, SpecMap.maps orc fuel ms bs off vals depth (VBytes w) k) <->
    reads orc bs (DElems KStream e (DInteger f u)) off vals (VBytes w) k).
  { intros w. symmetry. apply reading_maps; auto. cbn. lia. }
  split.
  - intros Q. inversion Q; subst; try congruence.
    + rewrite E in *. match goal with H : reads_elements _ _ _ _ rs |- _ => rename H into RE end.
      destruct (elements_run orc bs f' u n I S' rs off Ho RE) as (A & L & G). rewrite A.
      exists (window bs off (n * len rs)), (map fst rs). split; [reflexivity|]. split; [exact G|]. rewrite A in ST. apply ST.
      apply ReadStream; auto.
      * intros [_ [N|N]]; [|congruence]. unfold has_number in N.
        match goal with H : measure _ _ _ _ (len rs) |- _ => apply measure_given in H; congruence end.
      * right. split; auto. exists (len rs), n. repeat split; auto; lia.
    + match goal with H : get_byte_size _ = Some ?b |- _ => assert (b = n) by congruence; subst b end.
      rewrite E in *. match goal with H : reads_elements _ _ _ _ rs |- _ => rename H into RE end.
      match goal with H : measure _ _ _ _ s |- _ => rename H into MS end. destruct (M s MS) as [MD NN].
      destruct (elements_run orc bs f' u n I S' rs off Ho RE) as (A & L & G).
      assert (Q1 : n * len rs = s).
      { match goal with H : len rs = s / n |- _ => rewrite H end. symmetry. apply Z.div_exact; lia. }
      rewrite A in *. rewrite Q1 in *.
      exists (window bs off s), (map fst rs). split; [reflexivity|]. split; [exact G|]. apply ST.
      apply ReadStream; auto; [intros [N _]; congruence|]. left. auto.
  - intros (w & vs & -> & G & F). apply ST in F. inversion F; subst; [|congruence].
    match goal with H : stream_size _ _ _ _ k |- _ => destruct H as [[SZ MS]|(SZ & j & b & Bj & MS & KJ)] end.
    + destruct (M k MS) as [MD NN].
      assert (Q1 : k = n * (k / n)) by (apply Z.div_exact; lia).
      assert (Q2 : 0 <= k / n) by (apply Z.div_pos; lia).
      destruct (elements_there orc bs f' u n I S' (Z.to_nat (k / n)) off) as (rs & RE & LR); [lia|rewrite Z2Nat.id by lia; lia|].
      rewrite Z2Nat.id in LR by lia.
      destruct (elements_run orc bs f' u n I S' rs off Ho RE) as (A & L & G').
      rewrite LR, <- Q1 in *. rewrite (made_of_unique _ _ _ P _ _ _ G G').
      rewrite <- A. eapply ReadSized with (s := k); eauto; [rewrite E; exact RE|].
      apply (prefix_within n); [exact P|eapply elements_sizes; eauto|lia].
    + rewrite B in Bj. injection Bj as <-. pose proof (measure_nonneg _ _ _ _ _ MS) as NN.
      destruct (elements_there orc bs f' u n I S' (Z.to_nat j) off) as (rs & RE & LR); [lia|rewrite Z2Nat.id by lia; lia|].
      rewrite Z2Nat.id in LR by lia.
      destruct (elements_run orc bs f' u n I S' rs off Ho RE) as (A & L & G').
      rewrite LR in *. replace k with (n * j) in * by lia. rewrite (made_of_unique _ _ _ P _ _ _ G G').
      rewrite <- A. eapply ReadCounted; eauto; [rewrite LR; exact MS|rewrite E; exact RE].
Qed.
