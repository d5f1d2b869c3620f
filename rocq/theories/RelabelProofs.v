(** Definitions without expressions are read alike under any names. *)
From Coq Require Import String List ZArith Bool Lia.
From Verif Require Import Base PyVal PyStruct DataTypes ClassFactory DataMaps.
From Verif Require Import BytesProofs SpecPrim PrimProofs SpecMap SpecCreate SpecReads SpecFold SpecGrow SpecEdit SpecRegroup SpecRelabel
  CreateProofs StreamProofs SteadyProofs FoldProofs ReadsProofs FitProofs TellProofs GrowProofs EditProofs DisturbProofs RegroupProofs.
Import ListNotations.
Open Scope Z_scope.
#[local] Arguments Z.mul : simpl never.
#[local] Arguments Z.add : simpl never.
#[local] Arguments Z.div : simpl never.

(** *** What does not depend on names *)

Lemma order_unnamed d : dt_byte_order (unnamed d) = dt_byte_order d.
Proof. destruct d; reflexivity. Qed.

Lemma composite_unnamed d : is_composite (unnamed d) = is_composite d.
Proof. induction d; cbn; auto. now rewrite IHd. Qed.

Lemma align_unnamed d : pad_align (unnamed d) = pad_align d.
Proof. destruct d; reflexivity. Qed.

Lemma size_unnamed d : get_byte_size (unnamed d) = get_byte_size d.
Proof.
  induction d using dtype_rect'; cbn; auto.
  - rewrite IHd. reflexivity.
  - assert (G : forall acc, (fix go (l : list dtype) (acc : Z) : option Z :=
             match l with [] => Some acc | m :: r => match struct_size_step acc (pad_align m) (get_byte_size m) with Some a => go r a | None => None end end) (map unnamed ms) acc
        = (fix go (l : list dtype) (acc : Z) : option Z :=
             match l with [] => Some acc | m :: r => match struct_size_step acc (pad_align m) (get_byte_size m) with Some a => go r a | None => None end end) ms acc).
    { induction H as [|x l Hx Hl IH]; intros acc; cbn [map]; auto. rewrite align_unnamed, Hx. destruct (struct_size_step _ _ _); auto. }
    destruct ms; [reflexivity|]. exact (G 0).
  - assert (G : forall acc, (fix go (l : list dtype) (acc : Z) : option Z :=
             match l with [] => Some acc | m :: r => match get_byte_size m with Some s => go r (Z.max acc s) | None => None end end) (map unnamed ms) acc
        = (fix go (l : list dtype) (acc : Z) : option Z :=
             match l with [] => Some acc | m :: r => match get_byte_size m with Some s => go r (Z.max acc s) | None => None end end) ms acc).
    { induction H as [|x l Hx Hl IH]; intros acc; cbn [map]; auto. rewrite Hx. destruct (get_byte_size x); auto. }
    destruct ms; [reflexivity|]. exact (G 0).
  - now rewrite IHd.
Qed.

Lemma expressions_unnamed d : expressions (unnamed d) = expressions d.
Proof. destruct d; reflexivity. Qed.

Lemma wordless_unnamed d : everywhere wordless (unnamed d) <-> everywhere wordless d.
Proof.
  assert (W : forall x, wordless (unnamed x) <-> wordless x) by (intros x; unfold wordless; now rewrite expressions_unnamed).
  assert (L : forall l, Forall (fun d => everywhere wordless (unnamed d) <-> everywhere wordless d) l ->
    ((fix go (l : list dtype) : Prop := match l with [] => True | m :: r => everywhere wordless m /\ go r end) (map unnamed l) <->
     (fix go (l : list dtype) : Prop := match l with [] => True | m :: r => everywhere wordless m /\ go r end) l)).
  { induction 1 as [|x l Hx Hl IH]; cbn [map]; tauto. }
  induction d using dtype_rect'; try (specialize (W (DElems k e d))); try (specialize (L _ H)); cbn [unnamed everywhere];
    try tauto.
  all: try (pose proof (W (DMember m bo c dt v d)); cbn [unnamed] in *; tauto).
  all: try (unfold wordless; cbn [expressions]; tauto).
Qed.

Lemma levels_unnamed d : levels (unnamed d) = levels d.
Proof.
  induction d using dtype_rect'; cbn; auto.
  - destruct k; auto. now rewrite IHd.
  - f_equal. induction H as [|x l Hx Hl IH]; cbn; auto. now rewrite Hx, IH.
Qed.

Lemma type_unnamed m : type_of (unnamed m) = unnamed (type_of m).
Proof. destruct m; reflexivity. Qed.

Lemma copy_unnamed n b d : unnamed (set_name_bo n b d) = set_name_bo EmptyString b (unnamed d).
Proof. destruct d; reflexivity. Qed.

Lemma used_unnamed c c' bo m m' : unnamed m' = unnamed m -> unnamed (used_type c' bo m') = unnamed (used_type c bo m).
Proof.
  intros E. assert (T : unnamed (type_of m') = unnamed (type_of m)) by (rewrite <- !type_unnamed; now rewrite E).
  assert (B : dt_byte_order (type_of m') = dt_byte_order (type_of m)) by (rewrite <- (order_unnamed (type_of m')), T; apply order_unnamed).
  unfold used_type. rewrite B. destruct bo; auto; destruct (dt_byte_order (type_of m)) as [[]|]; auto; rewrite !copy_unnamed; now rewrite T.
Qed.

Lemma element_unnamed e e' d d' : e_bo e' = e_bo e -> unnamed d' = unnamed d -> unnamed (element_type e' d') = unnamed (element_type e d).
Proof.
  intros Eb E.
  assert (B : dt_byte_order d' = dt_byte_order d) by (rewrite <- (order_unnamed d'), E; apply order_unnamed).
  assert (K : is_composite d' = is_composite d) by (rewrite <- (composite_unnamed d'), E; apply composite_unnamed).
  unfold element_type. rewrite Eb, B, K. destruct (e_bo e); auto; destruct (dt_byte_order d) as [[]|]; auto; destruct (is_composite d); auto;
    rewrite !copy_unnamed; now rewrite E.
Qed.

Lemma values_unnamed m m' : unnamed m' = unnamed m -> member_values m' = member_values m.
Proof.
  intros E. assert (G : forall d, member_values (unnamed d) = member_values d) by (intros []; reflexivity).
  now rewrite <- (G m'), E.
Qed.

Lemma eq_anonymous : forall v w, py_eq (anonymous v) w = py_eq v w.
Proof.
  fix IH 1. intros v w. destruct v; try reflexivity; destruct w; try reflexivity; cbn.
  match goal with |- _ ?a ?b = _ => revert b end. induction l as [|x l IHl]; intros [|y r]; cbn [map]; auto. now rewrite IH, IHl.
Qed.

Lemma eq_alike v v' w : anonymous v' = anonymous v -> py_eq v' w = py_eq v w.
Proof. intros E. now rewrite <- (eq_anonymous v'), E, eq_anonymous. Qed.

(** *** The same reading under other names *)

Definition same_element (a b : pyval * Z) : Prop := anonymous (fst b) = anonymous (fst a) /\ snd b = snd a.
Definition same_reading (a b : reading) : Prop := anonymous (value_of b) = anonymous (value_of a) /\ size_of b = size_of a.

Lemma same_span rs rs' : Forall2 same_element rs rs' -> span rs' = span rs.
Proof. induction 1 as [|a b l k [_ H] _ IH]; auto. unfold span in *. cbn [fold_right]. now rewrite H, IH. Qed.

Lemma same_values rs rs' : Forall2 same_element rs rs' -> map anonymous (map fst rs') = map anonymous (map fst rs).
Proof. induction 1 as [|a b l k [H _] _ IH]; cbn [map]; auto. now rewrite H, IH. Qed.

Lemma same_len {A B} (R : A -> B -> Prop) l k : Forall2 R l k -> len k = len l.
Proof. unfold len. induction 1 as [|a b l k _ _ IH]; auto. cbn [List.length]. lia. Qed.

Lemma same_total rs rs' : Forall2 same_reading rs rs' -> total rs' = total rs.
Proof. induction 1 as [|a b l k [_ H] _ IH]; auto. unfold total in *. cbn [fold_right]. now rewrite H, IH. Qed.

Lemma same_fields rs rs' (names names' : list string) : Forall2 same_reading rs rs' -> List.length names' = List.length names ->
  map (fun a => (EmptyString, anonymous (snd a))) (combine names' (map value_of rs')) =
  map (fun a => (EmptyString, anonymous (snd a))) (combine names (map value_of rs)).
Proof.
  intros F. revert names names'. induction F as [|a b l k [H _] _ IH]; intros [|x names] [|x' names'] L; try discriminate L; auto.
  cbn [map combine snd]. rewrite H. f_equal. apply IH. now injection L.
Qed.

Lemma elems_unnamed k e el k' e' el' : unnamed (DElems k' e' el') = unnamed (DElems k e el) ->
  k' = k /\ e_bo e' = e_bo e /\ e_data_size e' = e_data_size e /\ e_data_size_expr e' = e_data_size_expr e /\
  e_terminator e' = e_terminator e /\ e_number e' = e_number e /\ e_number_expr e' = e_number_expr e /\
  e_encoding e' = e_encoding e /\ unnamed el' = unnamed el.
Proof. intros E. cbn in E. injection E. intros. repeat split; congruence. Qed.

Lemma silent_size k e el fixed vals vals' n orc : wordless (DElems k e el) -> measure orc fixed (e_data_size_expr e) vals n -> measure orc fixed (e_data_size_expr e) vals' n.
Proof.
  intros W [H|(_ & x & X & _)]; [now left|]. exfalso. unfold wordless in W. cbn in W. rewrite X in W. discriminate W.
Qed.

Lemma silent_number k e el fixed vals vals' n orc : wordless (DElems k e el) -> measure orc fixed (e_number_expr e) vals n -> measure orc fixed (e_number_expr e) vals' n.
Proof.
  intros W [H|(_ & x & X & _)]; [now left|]. exfalso. unfold wordless in W. cbn in W. rewrite X in W. destruct (e_data_size_expr e); discriminate W.
Qed.

Lemma wordless_element e el : everywhere wordless el -> everywhere wordless (element_type e el).
Proof.
  intros K. unfold element_type. destruct (e_bo e); auto; destruct (dt_byte_order el) as [[]|]; auto; destruct (is_composite el); auto;
    destruct el; destruct K as [K K']; (split; [exact K|exact K']).
Qed.

Lemma same_size d d' : unnamed d' = unnamed d -> get_byte_size d' = get_byte_size d.
Proof. intros E. now rewrite <- (size_unnamed d'), E, size_unnamed. Qed.

Lemma last_alike rs rs' : Forall2 same_element rs rs' -> anonymous (last (map fst rs') VNone) = anonymous (last (map fst rs) VNone).
Proof.
  induction 1 as [|a b l k [H _] F IH]; auto. destruct F; cbn [map last] in *; auto.
Qed.

Lemma unnamed_reads orc bs d off e v n : reads orc bs d off e v n -> everywhere wordless d ->
  forall d' e', unnamed d' = unnamed d -> exists v', reads orc bs d' off e' v' n /\ anonymous v' = anonymous v.
Proof.
  intros Q. induction Q using reads_ind' with
    (P0 := fun d off rs => everywhere wordless d -> forall d', unnamed d' = unnamed d ->
       exists rs', reads_elements orc bs d' off rs' /\ Forall2 same_element rs rs')
    (P1 := fun cls bo names vals done ms off rs => Forall (everywhere wordless) ms ->
       forall cls' names' vals' done' ms', map unnamed ms' = map unnamed ms ->
       exists rs', reads_members orc bs cls' bo names' vals' done' ms' off rs' /\ Forall2 same_reading rs rs');
    intros W; try match goal with |- forall (_ : dtype) (_ : env), _ => intros d' e1 E; destruct d'; try discriminate E end.
  - destruct f0, f; cbn in E |- *. injection E as -> -> -> ->. eexists. split; [apply (ReadInteger _ _ (mkFixed _ _ _ _)); [exact H|exact H0|exact H1]|reflexivity].
  - destruct f0, f; cbn in E |- *. injection E as -> -> ->. eexists. split; [apply (ReadDouble _ _ (mkFixed _ _ _ _)); [exact H|exact H0]|reflexivity].
  - destruct f0, f; cbn in E |- *. injection E as -> -> ->. eexists. split; [apply (ReadSingle _ _ (mkFixed _ _ _ _)); [exact H|exact H0|exact H1]|reflexivity].
  - destruct f0, f; cbn in E |- *. injection E as -> -> -> -> ->. eexists. split; [apply (ReadBoolean _ _ (mkFixed _ _ _ _)); [exact H|exact H0|exact H1|exact H2]|reflexivity].
  - destruct f0, f; cbn in E |- *. injection E as -> -> ->. eexists. split; [eapply (ReadCharacter _ _ (mkFixed _ _ _ _)); [exact H|exact H0|exact H1|exact H2|exact H3]|reflexivity].
  - destruct f0, f; cbn in E |- *. injection E as -> -> ->. eexists. split; [apply (ReadUUID _ _ (mkFixed _ _ _ _)); [exact H|exact H0|exact H1]|reflexivity].
  - cbn in E. injection E as -> ->. eexists. split; [apply ReadPadding; assumption|reflexivity].
  - apply elems_unnamed in E. destruct E as (-> & Eb & Es & Ex & Et & En & Ey & Ec & E). destruct W as [W1 W2].
    destruct (IHQ (wordless_element _ _ W2) _ (element_unnamed _ _ _ _ Eb E)) as (rs' & R & F). rewrite <- (same_span _ _ F). eexists. split.
    + apply ReadCounted; [unfold has_data_size in *; now rewrite Es, Ex|now rewrite Et| |exact R].
      rewrite (same_len _ _ _ F), En, Ey. eapply silent_number; eauto.
    + cbn [anonymous]. now rewrite (same_values _ _ F).
  - apply elems_unnamed in E. destruct E as (-> & Eb & Es & Ex & Et & En & Ey & Ec & E). destruct W as [W1 W2].
    destruct (IHQ (wordless_element _ _ W2) _ (element_unnamed _ _ _ _ Eb E)) as (rs' & R & F).
    apply Forall2_app_inv_l in F. destruct F as (ra & rb & F & F1 & ->). inversion F1 as [|? [w' k'] ? ? [V N] F2]; subst. inversion F2; subst.
    cbn [fst snd] in V, N. subst k'. rewrite <- (same_span _ _ F). eexists. split.
    + eapply (ReadTerminated _ _ _ _ t ra w' k); [unfold has_data_size in *; now rewrite Es, Ex|now rewrite Et| | |exact R].
      * clear - F H1. induction F as [|a b l q [A _] F IH]; [constructor|]. inversion H1; subst. constructor; auto. now rewrite (eq_alike _ _ _ A).
      * now rewrite (eq_alike _ _ _ V).
    + cbn [anonymous]. rewrite !map_app. cbn [map]. now rewrite (same_values _ _ F), V.
  - apply elems_unnamed in E. destruct E as (-> & Eb & Es & Ex & Et & En & Ey & Ec & E). destruct W as [W1 W2].
    destruct (IHQ (wordless_element _ _ W2) _ (element_unnamed _ _ _ _ Eb E)) as (rs' & R & F). rewrite <- (same_span _ _ F). eexists. split.
    + apply (ReadSized _ _ _ _ s b); [unfold has_data_size in *; now rewrite Es, Ex|rewrite (same_size _ _ E); assumption|assumption| | |exact R|].
      * rewrite Es, Ex. eapply silent_size; eauto.
      * now rewrite (same_len _ _ _ F).
      * intros ba af -> Na. apply Forall2_app_inv_r in F. destruct F as (x & y & F1 & F2 & ->). rewrite (same_span _ _ F1).
        apply (H5 x y); auto. intros ->. inversion F2; subst. now apply Na.
    + cbn [anonymous]. now rewrite (same_values _ _ F).
  - apply elems_unnamed in E. destruct E as (-> & Eb & Es & Ex & Et & En & Ey & Ec & E). destruct W as [W1 W2].
    destruct (IHQ (wordless_element _ _ W2) _ (element_unnamed _ _ _ _ Eb E)) as (rs' & R & F). rewrite <- (same_span _ _ F).
    pose proof (same_size _ _ E) as Z. destruct d'; try discriminate E.
    apply elems_unnamed in E. destruct E as (-> & _ & _ & _ & Et' & _). eexists. split.
    + apply (ReadSizedVariable _ _ _ _ _ _ s t); [unfold has_data_size in *; now rewrite Es, Ex|now rewrite Z| |now rewrite Et'|exact R| |].
      * rewrite Es, Ex. eapply silent_size; eauto.
      * rewrite (same_span _ _ F), (eq_alike _ _ _ (last_alike _ _ F)). destruct H4 as [H4|[N H4]]; [now left|right]. split; auto.
        intros ->. inversion F; subst. now apply N.
      * intros ba af -> Na. apply Forall2_app_inv_r in F. destruct F as (x & y & F1 & F2 & ->). rewrite (same_span _ _ F1), (eq_alike _ _ _ (last_alike _ _ F1)).
        destruct (H5 x y eq_refl) as [A B]; [intros ->; inversion F2; subst; now apply Na|]. split; auto.
        intros Nb. apply B. intros ->. inversion F1; subst. now apply Nb.
    + cbn [anonymous]. now rewrite (same_values _ _ F).
  - apply elems_unnamed in E. destruct E as (-> & Eb & Es & Ex & Et & En & Ey & Ec & E). destruct W as [W1 W2]. eexists. split; [|reflexivity].
    apply ReadStream; auto.
    + unfold unsized_stream, has_data_size, has_number in *. now rewrite Es, Ex, En, Ey, (same_size _ _ E).
    + destruct H0 as [[A B]|(A & k & b & B & C & D)]; [left|right]; (split; [unfold has_data_size in *; now rewrite Es, Ex|]).
      * rewrite Es, Ex. eapply silent_size; eauto.
      * exists k, b. rewrite (same_size _ _ E), En, Ey. repeat split; auto. eapply silent_number; eauto.
  - apply elems_unnamed in E. destruct E as (-> & Eb & Es & Ex & Et & En & Ey & Ec & E). eexists. split; [|reflexivity].
    apply ReadStreamTerminated; auto; [|now rewrite Et].
    unfold unsized_stream, has_data_size, has_number in *. now rewrite Es, Ex, En, Ey, (same_size _ _ E).
  - apply elems_unnamed in E. destruct E as (-> & Eb & Es & Ex & Et & En & Ey & Ec & E).
    destruct (IHQ W (DElems KStream e0 d') e1) as (w & R & V).
    { cbn [unnamed]. now rewrite Eb, Es, Ex, Et, En, Ey, Ec, E. }
    destruct w; try discriminate V. injection V as ->. eexists. split; [|reflexivity].
    eapply ReadString; [exact R|rewrite Et; eassumption|rewrite Ec; eassumption].
  - cbn [unnamed] in E. injection E as -> E. destruct W as [_ W].
    destruct (IHQ (proj1 (go_forall _ _) W) (m_name m) (map dt_name members) e1 [] members E) as (rs' & R & F).
    rewrite <- (same_total _ _ F). eexists. split; [apply ReadStructure; exact R|]. cbn [anonymous]. f_equal.
    apply same_fields; auto. rewrite !map_length. rewrite <- (map_length unnamed members), E. apply map_length.
  - cbn [unnamed] in E. injection E as -> -> -> -> ->. eexists. split; [|reflexivity]. eapply ReadGroup; eauto.
  - intros d' E. exists []. split; constructor.
  - intros d' E. destruct (IHQ W d' [] E) as (v' & R & V). destruct (IHQ0 W d' E) as (rs' & R' & F).
    exists ((v', n) :: rs'). split; [constructor; auto|constructor; [split; auto|exact F]].
  - intros c' ns' vs' dn' [|? ?] E; [|discriminate E]. exists []. split; constructor.
  - intros c' ns' vs' dn' [|m' ms'] E; [discriminate E|]. injection E as Em E. inversion W as [|? ? W1 W2]; subst.
    destruct (IHQ (same_used _ _ _ _ wordless_copy W1) (used_type c' bo m') (scope c' (partly c' ns' dn') vs') (used_unnamed _ _ _ _ _ Em)) as (v' & R & V).
    destruct (IHQ0 W2 c' ns' vs' (dn' ++ [Some (v', n)]) ms' E) as (rs' & R' & F).
    exists (Some (v', n) :: rs'). split; [|constructor; [split; auto|exact F]].
    assert (W' : everywhere wordless m') by (apply wordless_unnamed; rewrite Em; now apply wordless_unnamed).
    apply ReadPresent; auto.
    + now apply wordless_condition.
    + match goal with A : allowed m v |- _ => rename A into Al end.
      unfold allowed in *. rewrite (values_unnamed _ _ Em). destruct (member_values m) as [[|x r]|]; auto.
      destruct Al as (w & I & Q1). exists w. split; auto. now rewrite (eq_alike _ _ _ V).
  - exfalso. inversion W as [|? ? W1 W2]; subst. apply wordless_condition in H; auto. discriminate.
Qed.

(** C72: definitions that differ in nothing but names, and have no expressions, are
    mapped from the same bytes, and to the same values but for the names. *)
Lemma unnamed_maps orc d d' m m' bs off vals vals' depth v n :
  extensional orc -> unnamed d' = unnamed d -> everywhere wordless d ->
  everywhere regular d -> everywhere regular d' ->
  create orc d None = Ok (Some m) -> create orc d' None = Ok (Some m') ->
  0 <= off <= len bs -> depth + levels d <= 11 ->
  (exists fuel, maps orc fuel m bs off vals depth v n) ->
  exists v', (exists fuel, maps orc fuel m' bs off vals' depth v' n) /\ anonymous v' = anonymous v.
Proof.
  intros X U W E E' C C' Ho D M.
  assert (D' : depth + levels d' <= 11) by (rewrite <- (levels_unnamed d'), U, levels_unnamed; exact D).
  apply (reading_maps _ _ _ _ _ _ depth _ _ X E C Ho D) in M.
  destruct (unnamed_reads _ _ _ _ _ _ _ M W d' vals' U) as (v' & R & V). exists v'. split; auto.
  now apply (reading_maps _ _ _ _ _ _ depth _ _ X E' C' Ho D').
Qed.

(** Neither can be mapped from bytes from which the other cannot. *)
Lemma unnamed_fails orc d d' m m' bs off vals vals' depth :
  extensional orc -> unnamed d' = unnamed d -> everywhere wordless d ->
  everywhere regular d -> everywhere regular d' ->
  create orc d None = Ok (Some m) -> create orc d' None = Ok (Some m') ->
  0 <= off <= len bs -> depth + levels d <= 11 ->
  ((exists fuel v n, maps orc fuel m bs off vals depth v n) <-> (exists fuel v n, maps orc fuel m' bs off vals' depth v n)).
Proof.
  intros X U W E E' C C' Ho D.
  assert (D' : depth + levels d' <= 11) by (rewrite <- (levels_unnamed d'), U, levels_unnamed; exact D).
  assert (W' : everywhere wordless d') by (apply wordless_unnamed; rewrite U; now apply wordless_unnamed).
  split; intros (fuel & v & n & M).
  - destruct (unnamed_maps orc d d' m m' bs off vals vals' depth v n) as (v' & (f & M') & _); eauto.
  - destruct (unnamed_maps orc d' d m' m bs off vals' vals depth v n) as (v' & (f & M') & _); eauto.
Qed.
