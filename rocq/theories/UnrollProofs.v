(** A sequence is read like the structure that lists its elements. *)
From Coq Require Import String List ZArith Bool Lia.
From Verif Require Import Base PyVal PyStruct DataTypes ClassFactory DataMaps.
From Verif Require Import BytesProofs SpecPrim PrimProofs SpecMap SpecCreate SpecReads SpecFold SpecGrow SpecRegroup SpecSize SpecUnroll
  CreateProofs StreamProofs SteadyProofs FoldProofs ReadsProofs FitProofs TellProofs GrowProofs DisturbProofs RegroupProofs RelabelProofs.
From Verif Require PartsProofs.
Import ListNotations.
Open Scope Z_scope.
#[local] Arguments Z.mul : simpl never.
#[local] Arguments Z.add : simpl never.
#[local] Arguments Z.div : simpl never.

Lemma simple_nameless el : is_composite el = false -> nameless el.
Proof. destruct el; cbn; auto; discriminate. Qed.

Lemma unrolled_type e el c m : same_order_inside (e_bo e) el -> type_of m = el ->
  twin (element_type e el) (used_type c (e_bo e) m) /\ twin (used_type c (e_bo e) m) (element_type e el).
Proof.
  intros S T. unfold element_type, used_type. rewrite T.
  destruct (e_bo e) eqn:B; [split; left; reflexivity| |]; destruct (dt_byte_order el) as [[]|] eqn:O; try (split; left; reflexivity);
    (destruct S as [S|[S|S]]; [discriminate S|now destruct S|]); rewrite S;
    (split; right; do 2 eexists; (split; [apply nameless_copy, simple_nameless, S|]); (split; [apply copy_order; exact O|]); symmetry; apply copy_again).
Qed.

Lemma only_condition orc el m vals b : only el m -> condition_is orc m vals b <-> b = true.
Proof. intros (_ & C & _). unfold condition_is. rewrite C. tauto. Qed.

Definition some_of (r : pyval * Z) : reading := Some r.

Lemma unrolled_total rs : total (map some_of rs) = span rs.
Proof. unfold total, span. induction rs as [|[v n] r IH]; cbn; auto. rewrite IH. reflexivity. Qed.

Lemma unrolled_values rs : map value_of (map some_of rs) = map fst rs.
Proof. induction rs as [|[v n] r IH]; cbn; congruence. Qed.

Lemma elements_members orc bs e el cls names vals : same_order_inside (e_bo e) el -> everywhere wordless (element_type e el) ->
  forall ms, Forall (only el) ms -> forall rs done off, List.length rs = List.length ms ->
  reads_elements orc bs (element_type e el) off rs ->
  reads_members orc bs cls (e_bo e) names vals done ms off (map some_of rs).
Proof.
  intros S W ms F. induction F as [|m ms O F IH]; intros [|[v n] rs] done off L R; try discriminate L.
  - constructor.
  - inversion R; subst. cbn [map]. apply ReadPresent.
    + now apply (only_condition orc el).
    + apply (reads_twin _ _ (element_type e el)); [|now apply unrolled_type; [|apply O]]. eapply deaf; eauto.
    + unfold allowed. now rewrite (proj2 (proj2 O)).
    + apply IH; auto.
Qed.

Lemma members_elements orc bs e el cls names vals : same_order_inside (e_bo e) el -> everywhere wordless (element_type e el) ->
  (forall off v n, 0 <= off <= len bs -> reads orc bs (element_type e el) off [] v n -> 0 < n /\ off + n <= len bs) ->
  forall ms, Forall (only el) ms -> forall rs done off, 0 <= off <= len bs ->
  reads_members orc bs cls (e_bo e) names vals done ms off rs ->
  exists q, rs = map some_of q /\ reads_elements orc bs (element_type e el) off q.
Proof.
  intros S W I ms F. induction F as [|m ms O F IH]; intros rs done off Ho R.
  - inversion R; subst. exists []. split; [reflexivity|constructor].
  - inversion R; subst.
    + match goal with Q : reads _ _ (used_type _ _ _) _ _ _ _ |- _ => rename Q into Q1 end.
      assert (Q2 : reads orc bs (element_type e el) off [] v n).
      { eapply (deaf orc bs (element_type e el)); [exact W|]. eapply (reads_twin _ _ (used_type cls (e_bo e) m)); [exact Q1|].
        now apply unrolled_type; [|apply O]. }
      destruct (I _ _ _ Ho Q2) as [P L].
      match goal with Q : reads_members _ _ _ _ _ _ _ ms _ _ |- _ => apply IH in Q; [|lia]; destruct Q as (q & -> & Q) end.
      exists ((v, n) :: q). split; [reflexivity|]. constructor; auto. lia.
    + match goal with Q : condition_is _ _ _ false |- _ => apply (only_condition orc el) in Q; [discriminate Q|exact O] end.
Qed.

Lemma occupies_copy n b d : occupies d -> is_composite d = false -> occupies (set_name_bo n b d).
Proof. destruct d; cbn; auto; discriminate. Qed.

Lemma occupies_element e el : occupies el -> occupies (element_type e el).
Proof.
  intros O. unfold element_type. destruct (e_bo e); auto; destruct (dt_byte_order el) as [[]|]; auto;
  destruct (is_composite el) eqn:C; auto; now apply occupies_copy.
Qed.

Lemma combine_values (a : list string) (b c : list pyval) : List.length b = List.length a -> List.length c = List.length a ->
  combine a b = combine a c -> b = c.
Proof.
  revert b c. induction a as [|x a IH]; intros [|y b] [|z c] B C E; try discriminate; auto.
  cbn in E. injection E as E1 E2. f_equal; auto.
Qed.

Lemma levels_all el ms : Forall (fun m => levels m = el) ms -> ms <> [] -> 0 <= el -> fold_right (fun m a => Z.max (levels m) a) 0 ms = el.
Proof. intros F. induction F as [|m ms E F IH]; intros N P; [contradiction|]. cbn. rewrite E. destruct ms; [cbn; lia|rewrite IH; [lia|discriminate|lia]]. Qed.

(** C73: a fixed number of elements is read like as many members of a structure. *)
Lemma unrolled orc e el mt ms s t bs off vals depth vs n :
  extensional orc -> exactly (len ms) e -> ms <> [] -> Forall (only el) ms ->
  same_order_inside (e_bo e) el -> everywhere wordless el -> occupies el ->
  everywhere regular (DElems KSequence e el) -> everywhere regular (DStructure mt (e_bo e) ms) ->
  create orc (DElems KSequence e el) None = Ok (Some s) ->
  create orc (DStructure mt (e_bo e) ms) None = Ok (Some t) ->
  0 <= off <= len bs -> depth + levels (DElems KSequence e el) <= 11 -> List.length vs = List.length ms ->
  (exists fuel, maps orc fuel s bs off vals depth (VTuple vs) n) <->
  (exists fuel, maps orc fuel t bs off vals depth
     (VStruct (m_name mt) (combine (map dt_name ms) vs)) n).
Proof.
  intros X (E1 & E2 & E3 & E4) Ne F S W O R1 R2 C1 C2 Ho D L.
  assert (LV : levels (DStructure mt (e_bo e) ms) = levels (DElems KSequence e el)).
  { cbn. f_equal. apply levels_all; auto; [|apply levels_nonneg]. eapply Forall_impl; [|exact F]. intros m (T & _). rewrite <- T. now destruct m. }
  rewrite <- (reading_maps orc _ s bs off vals depth (VTuple vs) n X R1 C1 Ho D).
  rewrite <- (reading_maps orc _ t bs off vals depth _ n X R2 C2 Ho); [|rewrite LV; exact D].
  pose proof (wordless_element e el W) as W'.
  split; intros R.
  - assert (Q : exists rs, vs = map fst rs /\ n = span rs /\ reads_elements orc bs (element_type e el) off rs).
    { remember (DElems KSequence e el) as d eqn:Ed. remember (VTuple vs) as v eqn:Ev.
      destruct R; inversion Ed; inversion Ev; subst; eauto.
      congruence. }
    destruct Q as (rs & -> & -> & Q). rewrite <- unrolled_values, <- unrolled_total. rewrite map_length in L.
    apply ReadStructure. now apply (elements_members _ _ e el).
  - destruct (element_map _ _ _ _ R1 C1) as (x & Cx). pose proof (regular_element _ _ _ R1) as Rx.
    apply reads_structure in R. destruct R as (rs & R & E & ->).
    assert (I : forall off v n, 0 <= off <= len bs -> reads orc bs (element_type e el) off [] v n -> 0 < n /\ off + n <= len bs).
    { intros o v k Hk Q.
      apply (reading_maps orc _ x bs o [] (1 - levels (element_type e el)) v k X Rx Cx Hk) in Q; [|lia]. destruct Q as (fuel & Q).
      split.
      - eapply (PartsProofs.occupies_space orc X (element_type e el)); eauto; [now apply regular_sound|now apply occupies_element].
      - eapply contained_inside; [eapply created_contained; eauto|exact Hk|exact Q]. }
    pose proof (members_length _ _ _ _ _ _ _ _ _ _ R) as ML.
    destruct (members_elements _ _ _ _ _ _ _ S W' I _ F _ _ _ Ho R) as (q & -> & Q).
    injection E as E. rewrite unrolled_values in E. apply combine_values in E; try (rewrite ?map_length in *; congruence). subst vs.
    rewrite unrolled_total. rewrite map_length in ML. apply ReadCounted; auto.
    + unfold has_data_size. now rewrite E1, E2.
    + left. rewrite E4. assert (LL : len ms = len q) by (unfold len; now rewrite ML). rewrite LL. split; [|split; [reflexivity|unfold len; lia]].
      unfold len. destruct q; [destruct ms; [contradiction|discriminate ML]|cbn; lia].
Qed.
