(** How the length of a sequence is given does not change what it is read as. *)
From Coq Require Import String List ZArith Bool Lia.
From Verif Require Import Base PyVal PyStruct DataTypes ClassFactory DataMaps.
From Verif Require Import BytesProofs SpecPrim PrimProofs SpecMap SpecCreate SpecReads SpecFold SpecGrow SpecRegroup SpecSize SpecExtent
  CreateProofs StreamProofs SteadyProofs SizeProofs FoldProofs ReadsProofs FitProofs TellProofs GrowProofs DisturbProofs RegroupProofs.
Import ListNotations.
Open Scope Z_scope.
#[local] Arguments Z.mul : simpl never.
#[local] Arguments Z.add : simpl never.
#[local] Arguments Z.div : simpl never.

Lemma exact_element e el : everywhere exact el -> everywhere exact (element_type e el).
Proof.
  intros O. unfold element_type. destruct (e_bo e); auto; destruct (dt_byte_order el) as [[]|]; auto;
  destruct (is_composite el) eqn:C; auto; destruct el; try exact O; discriminate C.
Qed.

Lemma element_bytes e el : get_byte_size (element_type e el) = get_byte_size el.
Proof.
  unfold element_type. destruct (e_bo e); auto; destruct (dt_byte_order el) as [[]|]; auto;
  destruct (is_composite el) eqn:C; auto; destruct el; auto; discriminate C.
Qed.

(** Every reading of a sequence is one of consecutive elements. *)
Lemma sequence_elements orc bs e el off vals vs n : reads orc bs (DElems KSequence e el) off vals (VTuple vs) n ->
  exists rs, vs = map fst rs /\ n = span rs /\ reads_elements orc bs (element_type e el) off rs.
Proof.
  intros R. remember (DElems KSequence e el) as d eqn:Ed. remember (VTuple vs) as v eqn:Ev.
  destruct R; inversion Ed; inversion Ev; subst; eauto.
  exists (rs ++ [(w, k)]). rewrite map_app, span_app. repeat split; auto. unfold span. cbn. lia.
Qed.

Lemma elements_twin orc bs d off rs : reads_elements orc bs d off rs -> forall d', twin d d' -> reads_elements orc bs d' off rs.
Proof.
  intros R. induction R; intros d' T; constructor; auto. eapply reads_twin; eauto.
Qed.

Lemma elements_span orc bs d b : (forall off v n, 0 <= off <= len bs -> reads orc bs d off [] v n -> n = b) -> 0 <= b ->
  forall off rs, reads_elements orc bs d off rs -> 0 <= off -> span rs = len rs * b.
Proof.
  intros S P off rs R. induction R as [|d off v n rs L Q R IH]; intros Ho; [reflexivity|].
  apply S in Q as E; [|lia]. subst n. rewrite len_cons. change (span ((v, b) :: rs)) with (b + span rs). rewrite IH by (auto; lia). lia.
Qed.

Lemma elements_prefix orc bs d a : forall off c, reads_elements orc bs d off (a ++ c) -> reads_elements orc bs d off a.
Proof.
  induction a as [|[v n] a IH]; intros off c R; [constructor|]. inversion R; subst. constructor; eauto.
Qed.

Lemma elements_asked orc bs e el off vals rs b : 
  (has_data_size e = true -> forall o v n, 0 <= o <= len bs -> reads orc bs (element_type e el) o [] v n -> get_byte_size el = Some b -> n = b) ->
  asks_for orc e el vals (map fst rs) -> 0 <= off -> get_byte_size el = Some b \/ has_data_size e = false ->
  reads_elements orc bs (element_type e el) off rs ->
  reads orc bs (DElems KSequence e el) off vals (VTuple (map fst rs)) (span rs).
Proof.
  intros X A Ho B R. destruct A as [(H & T & M)|[(H & t & before & w & T & E & F & W)|(H & s & b' & G & P & M & L)]].
  - apply ReadCounted; auto. unfold len in M. rewrite map_length in M. exact M.
  - destruct (exists_last (l := rs)) as (q & [w' k] & ->); [intros ->; destruct before; discriminate E|].
    rewrite map_app in E. cbn in E. apply app_inj_tail in E. destruct E as [<- <-].
    rewrite map_app, span_app. replace (span [(w', k)]) with k by (unfold span; cbn; lia). cbn.
    apply (ReadTerminated orc bs e el t); auto. rewrite Forall_map in F. exact F.
  - destruct B as [B|B]; [|congruence]. assert (b' = b) by congruence. subst b'. clear G.
    unfold len in L. rewrite map_length in L.
    pose proof (elements_span orc bs (element_type e el) b (fun o v n Q1 Q2 => X H o v n Q1 Q2 B) (Z.lt_le_incl _ _ P)) as SP.
    apply (ReadSized orc bs e el s b); auto.
    intros before after -> Ne. rewrite (SP off before); auto; [|eapply elements_prefix; eauto].
    assert (len after <> 0) by (destruct after; [contradiction|rewrite len_cons; pose proof (len_nonneg after); lia]).
    pose proof (len_nonneg after). rewrite app_length, Nat2Z.inj_add in L. fold (len before) (len after) in L.
    pose proof (Z.mul_div_le s b P). nia.
Qed.

(** C74: sequences of the same elements. *)
Lemma same_elements orc e e' el m m' bs off vals vals' depth vs n :
  extensional orc -> e_bo e' = e_bo e -> (has_data_size e' = true -> everywhere exact el) ->
  everywhere regular (DElems KSequence e el) -> everywhere regular (DElems KSequence e' el) ->
  create orc (DElems KSequence e el) None = Ok (Some m) ->
  create orc (DElems KSequence e' el) None = Ok (Some m') ->
  0 <= off <= len bs -> depth + levels (DElems KSequence e el) <= 11 ->
  asks_for orc e' el vals' vs ->
  (exists fuel, maps orc fuel m bs off vals depth (VTuple vs) n) ->
  exists fuel, maps orc fuel m' bs off vals' depth (VTuple vs) n.
Proof.
  intros X B Ex R1 R2 C1 C2 Ho D A M.
  apply (reading_maps orc _ m bs off vals depth _ n X R1 C1 Ho D) in M.
  apply (reading_maps orc _ m' bs off vals' depth _ n X R2 C2 Ho D).
  apply sequence_elements in M. destruct M as (rs & -> & -> & Q).
  apply elements_twin with (d' := element_type e' el) in Q; [|now apply twin_element].
  destruct (element_map _ _ _ _ R2 C2) as (x & Cx). pose proof (regular_element _ _ _ R2) as Rx.
  apply (elements_asked orc bs e' el off vals' rs (match get_byte_size el with Some b => b | None => 0 end)); auto; [|lia|].
  - intros H o v k Hk Rd G.
    apply (reading_maps orc _ x bs o [] (1 - levels (element_type e' el)) v k X Rx Cx Hk) in Rd; [|lia]. destruct Rd as (fuel & Rd).
    eapply (exact_size orc fuel (element_type e' el)); eauto; [now apply regular_sound|apply exact_element; auto|now rewrite element_bytes|lia].
  - destruct A as [(H & _)|[(H & _)|(H & s & b & G & _)]]; auto. left. now rewrite G.
Qed.

Lemma stream_window orc bs e el off vals v n : 
  reads orc bs (DElems KStream e el) off vals v n -> v = VBytes (window bs off n).
Proof. intros R. remember (DElems KStream e el) as d eqn:Ed. destruct R; inversion Ed; subst; reflexivity. Qed.

Lemma inside orc d m bs off vals depth v n : extensional orc -> everywhere regular d -> create orc d None = Ok (Some m) ->
  0 <= off <= len bs -> (exists fuel, maps orc fuel m bs off vals depth v n) -> 0 <= n /\ off + n <= len bs.
Proof. intros X R C Ho (fuel & M). eapply contained_inside; [eapply created_contained; eauto|exact Ho|exact M]. Qed.

Lemma first_at_out t bs off n k : 0 <= off -> 0 <= n -> off + n <= len bs -> first_at t (window bs off n) 0 k -> n = (k + 1) * len t ->
  first_at t bs off k.
Proof.
  intros Ho Hn Hb F L.
  pose proof (first_at_mid t (firstn (Z.to_nat off) bs) (window bs off n) (skipn (Z.to_nat n) (skipn (Z.to_nat off) bs)) k F) as Q.
  rewrite window_len in Q by lia. specialize (Q ltac:(lia)).
  unfold window in Q. rewrite firstn_skipn, firstn_skipn in Q. rewrite len_firstn in Q.
  replace (Z.min _ _) with off in Q by lia. exact Q.
Qed.

Lemma stream_asked orc bs e el off vals n : 0 <= off -> 0 <= n -> off + n <= len bs ->
  asks_for_bytes orc e el vals (window bs off n) -> reads orc bs (DElems KStream e el) off vals (VBytes (window bs off n)) n.
Proof.
  intros Ho Hn Hb [(U & S)|(U & t & k & T & F & L)].
  - rewrite window_len in S by lia. replace (Z.max 0 (Z.min n (len bs - off))) with n in S by lia. now apply ReadStream.
  - rewrite window_len in L by lia. assert (E : n = (k + 1) * len t) by lia. pose proof (first_at_out t bs off n k Ho Hn Hb F E) as F'.
    rewrite E. now apply ReadStreamTerminated.
Qed.

(** C74: streams of the same bytes. *)
Lemma same_bytes orc e e' el el' m m' bs off vals vals' depth l n :
  extensional orc ->
  everywhere regular (DElems KStream e el) -> everywhere regular (DElems KStream e' el') ->
  create orc (DElems KStream e el) None = Ok (Some m) ->
  create orc (DElems KStream e' el') None = Ok (Some m') ->
  0 <= off <= len bs -> depth <= 11 -> asks_for_bytes orc e' el' vals' l ->
  (exists fuel, maps orc fuel m bs off vals depth (VBytes l) n) ->
  exists fuel, maps orc fuel m' bs off vals' depth (VBytes l) n.
Proof.
  intros X R1 R2 C1 C2 Ho D A M. destruct (inside _ _ _ _ _ _ _ _ _ X R1 C1 Ho M) as [P I].
  apply (reading_maps orc _ m bs off vals depth _ n X R1 C1 Ho) in M; [|cbn; lia].
  apply (reading_maps orc _ m' bs off vals' depth _ n X R2 C2 Ho); [cbn; lia|].
  pose proof (stream_window _ _ _ _ _ _ _ _ M) as E. injection E as ->.
  apply stream_asked; auto. lia.
Qed.

(** C74: strings of the same bytes. *)
Lemma same_text orc e e' el el' m m' bs off vals vals' depth v n :
  extensional orc -> e_terminator e' = e_terminator e -> e_encoding e' = e_encoding e ->
  everywhere regular (DElems KString e el) -> everywhere regular (DElems KString e' el') ->
  create orc (DElems KString e el) None = Ok (Some m) ->
  create orc (DElems KString e' el') None = Ok (Some m') ->
  0 <= off <= len bs -> depth <= 11 -> asks_for_bytes orc e' el' vals' (window bs off n) ->
  (exists fuel, maps orc fuel m bs off vals depth v n) ->
  exists fuel, maps orc fuel m' bs off vals' depth v n.
Proof.
  intros X T N R1 R2 C1 C2 Ho D A M. destruct (inside _ _ _ _ _ _ _ _ _ X R1 C1 Ho M) as [P I].
  apply (reading_maps orc _ m bs off vals depth _ n X R1 C1 Ho) in M; [|cbn; lia].
  apply (reading_maps orc _ m' bs off vals' depth _ n X R2 C2 Ho); [cbn; lia|].
  remember (DElems KString e el) as d eqn:Ed. destruct M; inversion Ed; subst.
  pose proof (stream_window _ _ _ _ _ _ _ _ M) as E. injection E as ->.
  eapply ReadString; [|rewrite T; eassumption|rewrite N; eassumption]. apply stream_asked; auto. lia.
Qed.
