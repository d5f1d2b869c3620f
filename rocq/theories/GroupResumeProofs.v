(** Groups that are interrupted and resumed. *)
From Coq Require Import String List ZArith Bool Lia.
From Verif Require Import Base PyVal PyStruct DataTypes ClassFactory DataMaps.
From Verif Require Import BytesProofs ContainerProofs SpecPrim SpecMap SpecCreate SpecResume MapProofs ContextProofs StructProofs
  LayoutProofs CreateProofs SteadyProofs WindowProofs ResumeProofs GroupProofs.
Import ListNotations.
Open Scope Z_scope.

#[local] Arguments Z.add : simpl never.
#[local] Arguments Z.sub : simpl never.

(** What going on with context [c] at [q] has to do with mapping at [off]. *)
Definition going_on orc fuel m bs off vals depth q c : Prop :=
  fst (mapbs orc fuel m bs q (Some c) depth) =
    fst (mapbs orc fuel m bs off (Some (ctx_new vals)) depth) /\
  (fst (mapbs orc fuel m bs q (Some c) depth) = Raise ByteStreamTooSmallError ->
   exists p' c', snd (mapbs orc fuel m bs q (Some c) depth) = Some c' /\
     susp orc fuel bs m off vals depth p' c') /\
  (forall v, fst (mapbs orc fuel m bs q (Some c) depth) = Ok v ->
   exists n c', snd (mapbs orc fuel m bs q (Some c) depth) = Some c' /\
     maps orc fuel m bs off vals depth v n /\ c_state c' = st_empty /\ c_byte_size c' = Some (n - (q - off))).

Lemma going_first orc fuel m bs off vals depth c : extensional orc -> resumable m -> all_maps steady m ->
  c_state c = st_empty -> same_values (c_values c) vals -> going_on orc fuel m bs off vals depth off c.
Proof.
  intros X R S C V. destruct (fresh orc fuel m bs off c depth vals X C V) as [F G]. split; [exact F|]. split.
  - intros T. clear F G. pose proof (mapbs_keeps orc fuel m bs off (Some c) depth) as K.
    destruct (mapbs orc fuel m bs off (Some c) depth) as [r [c'|]] eqn:E; cbn [fst snd] in *; [|destruct K].
    rewrite T in E. destruct (susp_first orc fuel m X R S _ _ _ _ _ _ C V E) as (p & P). eauto.
  - intros v T. destruct (G v T) as (n & c' & M & E & B & CC & _). exists n, c'. repeat split; auto. rewrite B. f_equal. lia.
Qed.

Lemma id_match {A} (id : pyval) (a : A) (f : pyval -> A) : id <> VNone ->
  (match id with
   | VNone => a | VBool b => f (VBool b) | VInt z => f (VInt z) | VFloat b => f (VFloat b) | VStr s => f (VStr s)
   | VBytes b => f (VBytes b) | VUUID b => f (VUUID b) | VTuple l => f (VTuple l) | VStruct n l => f (VStruct n l)
   | VBuiltins => f VBuiltins
   end) = f id.
Proof. intros N. destruct id; congruence. Qed.

Section Group.
Variables (orc : oracle) (fuel : nat) (d : dtype) (i : string) (x : dmap) (df : option dmap)
  (es : list (pyval * option dmap)) (off : Z) (vals : env) (depth : Z).
Hypothesis (X : extensional orc).
Hypothesis (WX : whole x) (RX : resumable x).
Let g := MGroup d i (Some x) df es.
Hypothesis (SG : all_maps steady g).
Hypothesis (RM : forall y, (df = Some y \/ exists k, In (k, Some y) es) -> resumable y).

Let default := match df with Some x => Some (mapbs orc fuel x) | None => None end.
Let maps' := map (fun x => (fst x, match snd x with Some y => Some (mapbs orc fuel y) | None => None end)) es.

Definition told (bs : bytes) (id : pyval) (y : option dmap) : Prop :=
  identified orc fuel i (Some x) bs off depth id /\ id <> VNone /\ chosen df es id y.

Definition group_held (bs : bytes) (c : ctx) (p : Z) : Prop :=
  exists sub, s_context (c_state c) = Some sub /\
   ((s_member_identifier (c_state c) = None /\ susp orc fuel bs x off [] depth p sub) \/
    (exists id y, s_member_identifier (c_state c) = Some id /\ told bs id (Some y) /\ susp orc fuel bs y off [] depth p sub)).

Lemma chosen_in id y : chosen df es id (Some y) -> df = Some y \/ exists k, In (k, Some y) es.
Proof.
  intros [(b & k & a & E & _)|[_ E]]; [|now left]. right. exists k. rewrite E. apply in_or_app. right. now left.
Qed.

Lemma chosen_steady id y : chosen df es id (Some y) -> all_maps steady y.
Proof.
  intros C. pose proof SG as S. unfold g in S. apply all_maps_group in S. destruct S as (_ & _ & SD & SE).
  destruct (chosen_in _ _ C) as [E|[k I]]; [rewrite E in SD; exact SD|]. rewrite Forall_forall in SE. exact (SE _ I).
Qed.

Lemma base_steady : all_maps steady x.
Proof. pose proof SG as S. unfold g in S. apply all_maps_group in S. destruct S as (_ & SB & _). exact SB. Qed.

Lemma member_get id y : chosen df es id y ->
  (match val_get id maps' with Some m => m | None => default end) =
  match y with Some y => Some (mapbs orc fuel y) | None => None end.
Proof.
  intros C. rewrite (chosen_unique _ _ _ _ _ C (chosen_find df es id)). unfold maps', default.
  rewrite (val_get_map (fun o => match o with Some y => Some (mapbs orc fuel y) | None => None end)).
  destruct (val_get id es); reflexivity.
Qed.

(** What a group makes of the result of a member. *)
Definition passed (r : res pyval) : res pyval :=
  match r with Ok v => Ok v | Raise e => Raise (wrapped e) | OutOfFuel => OutOfFuel end.

Lemma passed_small r : passed r = Raise ByteStreamTooSmallError <-> r = Raise ByteStreamTooSmallError.
Proof. destruct r as [v|e|]; cbn; [split; discriminate| |split; discriminate]. destruct e; cbn; split; congruence. Qed.

Lemma passed_ok r v : passed r = Ok v <-> r = Ok v.
Proof. destruct r; cbn; split; congruence. Qed.

Lemma member_phase bs q c id y : told bs id (Some y) -> s_member_identifier (c_state c) = Some id ->
  going_on orc fuel y bs off [] depth q (opt_default (ctx_new []) (s_context (c_state c))) ->
  let r := map_group_member default maps' id bs q (Some c) depth in
  fst r = passed (fst (mapbs orc fuel y bs off (Some (ctx_new [])) depth)) /\
  (fst r = Raise ByteStreamTooSmallError -> exists c' p, snd r = Some c' /\ group_held bs c' p) /\
  (forall v, fst r = Ok v -> exists n c', snd r = Some c' /\ maps orc fuel y bs off [] depth v n /\
     c_state c' = st_empty /\ c_byte_size c' = Some (n - (q - off))).
Proof.
  intros T I (G1 & G2 & G3) r. subst r. unfold map_group_member. rewrite (member_get id (Some y)) by apply T.
  cbn [ctx_state]. set (sub := opt_default _ _) in *.
  rewrite <- G1. clear G1.
  destruct (mapbs orc fuel y bs q (Some sub) depth) as [[v|e|] c1]; cbn [fst snd] in *.
  - split; [reflexivity|]. split; [discriminate|]. intros w W. destruct (G3 w W) as (n & c2 & -> & M & C & B).
    exists n. eexists. split; [reflexivity|]. cbn. auto.
  - destruct e; cbn [passed wrapped]; cbn [fst snd]; (split; [reflexivity|]); (split; [|discriminate]); try discriminate.
    intros _. destruct (G2 eq_refl) as (p & c2 & -> & SU). eexists. exists p. split; [reflexivity|].
    exists c2. split; [reflexivity|]. right. exists id, y. cbn. auto.
  - split; [reflexivity|]. split; discriminate.
Qed.

(** What mapping the group gives, in terms of its parts. *)
Definition outcome (bs : bytes) : res pyval :=
  match fst (mapbs orc fuel x bs off (Some (ctx_new [])) depth) with
  | Ok v =>
      if is_VNone (py_getattr v i) then Raise MappingError else
      match (match val_get (py_getattr v i) es with Some y => y | None => df end) with
      | None => Raise MappingError
      | Some y => passed (fst (mapbs orc fuel y bs off (Some (ctx_new [])) depth))
      end
  | Raise e => Raise (wrapped e)
  | OutOfFuel => OutOfFuel
  end.

Lemma outcome_told bs id y : told bs id (Some y) ->
  outcome bs = passed (fst (mapbs orc fuel y bs off (Some (ctx_new [])) depth)).
Proof.
  intros ((x' & v & n & E & M & G) & N & C). inversion E; subst x'. unfold outcome. rewrite (maps_fst _ _ _ _ _ _ _ _ _ M), G.
  destruct (is_VNone id) eqn:V; [destruct id; try discriminate; congruence|].
  rewrite <- (chosen_unique _ _ _ _ _ C (chosen_find df es id)). reflexivity.
Qed.

Definition group_result (bs : bytes) (q : Z) (r : res pyval * option ctx) : Prop :=
  fst r = outcome bs /\
  (fst r = Raise ByteStreamTooSmallError -> exists c' p, snd r = Some c' /\ group_held bs c' p) /\
  (forall v, fst r = Ok v -> exists n c', snd r = Some c' /\ maps orc fuel g bs off vals depth v n /\
     c_state c' = st_empty /\ c_byte_size c' = Some (n - (q - off))).

Lemma told_maps bs id y v n : told bs id (Some y) -> maps orc fuel y bs off [] depth v n ->
  maps orc fuel g bs off vals depth v n.
Proof.
  intros (I & N & C) M. apply (proj1 (group_layout orc fuel d i (Some x) df es bs off vals depth X)).
  exists id, y. auto.
Qed.

Lemma base_phase bs c : s_member_identifier (c_state c) = None ->
  (s_context (c_state c) = None \/
   exists sub, s_context (c_state c) = Some sub /\ same_values (c_values sub) [] /\ leaf_state orc x [] sub) ->
  group_result bs off (mapbs orc fuel g bs off (Some c) depth).
Proof.
  intros I S. unfold g. cbn [mapbs]. fold default maps'. unfold map_group. cbn [ctx_state]. rewrite I.
  set (sub := opt_default (ctx_new []) (s_context (c_state c))).
  assert (A : same_values (c_values sub) [] /\ leaf_state orc x [] sub).
  { unfold sub. destruct S as [->|(s & -> & V & L)]; cbn [opt_default]; [|auto]. split; [apply same_values_refl|now apply leaf_clean]. }
  destruct A as [V L].
  destruct (whole_again orc fuel x X WX RX bs off [] depth sub V L) as (A1 & A2 & A3).
  assert (K := mapbs_keeps orc fuel x bs off (Some sub) depth).
  unfold group_result, outcome. rewrite <- A1.
  destruct (mapbs orc fuel x bs off (Some sub) depth) as [[bv|e|] c1]; cbn [fst snd] in *.
  - destruct (A3 bv eq_refl) as (n & c2 & -> & M & C & B). clear A2 A3.
    assert (V2 : same_values (c_values c2) []).
    { apply keeps_same in K. eapply same_values_trans; [apply K|exact V]. }
    destruct (is_VNone (py_getattr bv i)) eqn:IN.
    { destruct (py_getattr bv i); try discriminate. cbn. split; [reflexivity|]. split; discriminate. }
    set (id := py_getattr bv i) in *.
    assert (NV : id <> VNone) by (intros Q; rewrite Q in IN; discriminate).
    set (c3 := on_state (upd_identifier (Some id)) (on_state (share_context (opt_default sub (Some c2))) (Some c))).
    set (c1 := on_state (share_context (opt_default sub (Some c2))) (Some c)) in *.
    pose proof (id_match id (Raise MappingError : res pyval, c1)
      (fun z => map_group_member default maps' z bs off (on_state (upd_identifier (Some z)) c1) depth) NV) as Q.
    cbv beta in Q.
    rewrite Q. clear Q.
    pose proof (chosen_find df es id) as CF.
    destruct (match val_get id es with Some y => y | None => df end) as [y|].
    + assert (T : told bs id (Some y)). { split; [exists x, bv, n; auto|]. auto. }
      assert (G : going_on orc fuel y bs off [] depth off
        (opt_default (ctx_new []) (s_context (share_context c2 (c_state c))))).
      { apply going_first; auto.
        - apply RM. eapply chosen_in; eauto.
        - eapply chosen_steady; eauto.
        - unfold share_context. destruct (s_context (c_state c)) eqn:SC; [exact C|]. rewrite SC. reflexivity.
        - unfold share_context. destruct (s_context (c_state c)) eqn:SC; [exact V2|]. rewrite SC. apply same_values_refl. }
      destruct (member_phase bs off (set_state (upd_identifier (Some id) (share_context c2 (c_state c))) 
         (set_state (share_context c2 (c_state c)) c)) id y T eq_refl G) as (M1 & M2 & M3).
      change c3 with (Some (set_state (upd_identifier (Some id) (share_context c2 (c_state c))) 
         (set_state (share_context c2 (c_state c)) c))).
      split; [exact M1|]. split; [exact M2|]. intros v W. destruct (M3 v W) as (k & c' & E & MM & CC & BB).
      exists k, c'. split; [exact E|]. split; [eapply told_maps; eauto|auto].
    + unfold map_group_member. rewrite (member_get id None CF). split; [reflexivity|]. split; discriminate.
  - destruct e; cbn [wrapped fst snd]; (split; [reflexivity|]); (split; [|discriminate]); try discriminate.
    intros _. destruct (A2 eq_refl) as (c2 & -> & L2). eexists. exists off. split; [reflexivity|].
    exists c2. split; [reflexivity|]. left. cbn. split; [exact I|]. apply susp_whole; auto.
    + unfold fails. now rewrite <- A1.
    + apply keeps_same in K. eapply same_values_trans; [apply K|exact V].
  - split; [reflexivity|]. split; discriminate.
Qed.

Lemma fresh_phase bs : group_result bs off (mapbs orc fuel g bs off (Some (ctx_new vals)) depth).
Proof. apply base_phase; [reflexivity|now left]. Qed.

Lemma identified_grow bs s id : 0 <= off <= len bs -> identified orc fuel i (Some x) bs off depth id ->
  identified orc fuel i (Some x) (bs ++ s) off depth id.
Proof.
  intros Ho (x' & v & n & E & M & G). inversion E; subst x'. exists x, v, n. split; [auto|]. split; [|auto].
  destruct (steady_contained orc x X base_steady fuel bs off [] depth Ho) as [CM _].
  destruct (CM v n M) as (r & R1 & R2 & _ & W). apply W.
  - left. rewrite len_app. pose proof (len_nonneg s). lia.
  - now apply WindowProofs.window_app; lia.
Qed.

Lemma group_stalls bs c p : group_held bs c p -> stalls orc fuel bs g off vals depth p.
Proof.
  intros (sub & _ & [[_ SU]|(id & y & _ & (I & N & C) & SU)]).
  - apply stalls_base. eapply susp_stalls; eauto.
  - eapply stalls_chosen; eauto. eapply susp_stalls; eauto.
Qed.

Lemma group_stalls_det bs p q : stalls orc fuel bs g off vals depth p -> stalls orc fuel bs g off vals depth q -> p = q.
Proof.
  assert (ND : forall p, stalls orc fuel bs x off [] depth p -> forall id, ~ identified orc fuel i (Some x) bs off depth id).
  { intros p' P id (x' & v & n & E & M & _). inversion E; subst x'.
    eapply (stalls_not_maps orc fuel bs x); eauto. apply base_steady. }
  assert (DI : forall id id', identified orc fuel i (Some x) bs off depth id -> identified orc fuel i (Some x) bs off depth id' -> id = id').
  { intros id id' (x1 & v1 & n1 & E1 & M1 & G1) (x2 & v2 & n2 & E2 & M2 & G2). inversion E1; inversion E2; subst.
    destruct (maps_det _ _ _ _ _ _ _ _ _ _ _ M1 M2) as [-> _]. reflexivity. }
  intros P Q. unfold g in *. inversion P; inversion Q; subst; try contradiction.
  - eapply (stalls_det orc fuel bs x); eauto. apply base_steady.
  - exfalso. eapply ND; eauto.
  - exfalso. eapply ND; eauto.
  - assert (id = id0) by eauto. subst id0.
    match goal with A : chosen df es id _, B : chosen df es id _ |- _ => idtac end.
    assert (Some y = Some y0) by (eapply chosen_unique; eauto).
    match goal with Q : Some y = Some y0 |- _ => inversion Q; subst end.
    eapply (stalls_det orc fuel bs y0); eauto; [eapply chosen_steady; eauto|]. apply RM. eapply chosen_in; eauto.
Qed.

Lemma group_held_resume bs c p s : 0 <= off <= len bs -> group_held bs c p ->
  off <= p <= len bs /\ group_result (bs ++ s) p (mapbs orc fuel g (bs ++ s) p (Some c) depth).
Proof.
  intros Ho (sub & SC & [[I SU]|(id & y & I & T & SU)]).
  - assert (P : p = off /\ same_values (c_values sub) [] /\ leaf_state orc x [] sub).
    { pose proof WX as W. clear - SU W. destruct SU; [auto|destruct W]. }
    destruct P as (-> & V & L). split; [lia|]. apply base_phase; [exact I|]. right. exists sub. auto.
  - destruct T as (ID & N & C).
    assert (Sy : all_maps steady y) by (eapply chosen_steady; eauto).
    assert (Ry : resumable y) by (apply RM; eapply chosen_in; eauto).
    destruct (susp_resume orc fuel bs y off [] depth p sub X SU Ry Sy Ho) as [Op RS]. split; [exact Op|].
    assert (T' : told (bs ++ s) id (Some y)) by (split; [apply identified_grow; auto|auto]).
    assert (G : going_on orc fuel y (bs ++ s) off [] depth p (opt_default (ctx_new []) (s_context (c_state c)))).
    { rewrite SC. exact (RS s). }
    destruct (member_phase (bs ++ s) p c id y T' I G) as (M1 & M2 & M3).
    unfold g. cbn [mapbs]. fold default maps'. unfold map_group. cbn [ctx_state]. rewrite I.
    split; [rewrite (outcome_told _ _ _ T'); exact M1|]. split; [exact M2|].
    intros v W. destruct (M3 v W) as (k & c' & E & MM & CC & BB).
    exists k, c'. split; [exact E|]. split; [eapply told_maps; eauto|auto].
Qed.

Lemma held_interrupted bs c : interrupted orc fuel g off vals depth bs c ->
  0 <= off <= len bs /\ exists p, group_held bs c p.
Proof.
  induction 1 as [bs c Ho M|bs c s p c' H IH ST M].
  - split; [auto|]. destruct (fresh_phase bs) as (_ & F & _). rewrite M in F.
    destruct (F eq_refl) as (c' & p & E & P). inversion E; subst. eauto.
  - destruct IH as (Ho & q & HD). split; [rewrite len_app; pose proof (len_nonneg s); lia|].
    pose proof (group_stalls_det _ _ _ ST (group_stalls _ _ _ HD)). subst q.
    destruct (group_held_resume bs c p s Ho HD) as [_ (_ & F & _)]. rewrite M in F.
    destruct (F eq_refl) as (c2 & p' & E & P). inversion E; subst. eauto.
Qed.
End Group.

(** C29 for groups *)
Lemma group_resume orc fuel t d i x df es off vals depth bs c :
  extensional orc -> everywhere sound t -> create orc t None = Ok (Some (MGroup d i (Some x) df es)) ->
  whole x -> resumable x ->
  (forall y, df = Some y \/ (exists k, In (k, Some y) es) -> resumable y) ->
  interrupted orc fuel (MGroup d i (Some x) df es) off vals depth bs c ->
  exists p, off <= p <= len bs /\ stalls orc fuel bs (MGroup d i (Some x) df es) off vals depth p /\
    (forall q, stalls orc fuel bs (MGroup d i (Some x) df es) off vals depth q -> q = p) /\
    forall s,
      let r := mapbs orc fuel (MGroup d i (Some x) df es) (bs ++ s) p (Some c) depth in
      fst r = fst (mapbs orc fuel (MGroup d i (Some x) df es) (bs ++ s) off (Some (ctx_new vals)) depth) /\
      forall v n, maps orc fuel (MGroup d i (Some x) df es) (bs ++ s) off vals depth v n ->
        exists c', r = (Ok v, Some c') /\ c_state c' = st_empty /\ c_byte_size c' = Some (off + n - p).
Proof.
  intros X E C W R RM I. pose proof (all_steady _ _ _ E C) as S.
  destruct (held_interrupted orc fuel d i x df es off vals depth X W R S RM bs c I) as (Ho & p & HD). exists p.
  pose proof (fun s => group_held_resume orc fuel d i x df es off vals depth X W R S RM bs c p s Ho HD) as RS.
  split; [apply (RS [])|]. split; [eapply group_stalls; eauto|]. split.
  - intros q Q. eapply group_stalls_det; eauto. eapply group_stalls; eauto.
  - intros s. destruct (RS s) as [_ (R1 & _ & R3)]. cbn zeta.
    assert (F : fst (mapbs orc fuel (MGroup d i (Some x) df es) (bs ++ s) p (Some c) depth) =
      fst (mapbs orc fuel (MGroup d i (Some x) df es) (bs ++ s) off (Some (ctx_new vals)) depth)).
    { rewrite R1. symmetry. apply (fresh_phase orc fuel d i x df es off vals depth X W R S RM (bs ++ s)). }
    split; [exact F|]. intros v n M.
    pose proof (maps_fst _ _ _ _ _ _ _ _ _ M) as MF. rewrite <- F in MF.
    destruct (R3 v MF) as (n' & c' & H1 & H2 & H3 & H4). destruct (maps_det _ _ _ _ _ _ _ _ _ _ _ M H2) as [_ <-].
    exists c'. split; [|split; auto].
    + destruct (mapbs orc fuel (MGroup d i (Some x) df es) (bs ++ s) p (Some c) depth). cbn in *. congruence.
    + rewrite H4. f_equal. lia.
Qed.
