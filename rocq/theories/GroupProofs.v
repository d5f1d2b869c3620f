(** Structure groups. *)
From Coq Require Import String List ZArith Bool Lia.
From Verif Require Import Base PyVal PyStruct DataTypes ClassFactory DataMaps.
From Verif Require Import BytesProofs ContainerProofs SpecPrim PrimProofs SpecMap SpecCreate MapProofs ContextProofs
  StructProofs CreateProofs.
Import ListNotations.
Open Scope Z_scope.

Lemma chosen_find default entries id :
  chosen default entries id
    (match val_get id entries with Some y => y | None => default end).
Proof.
  unfold val_get. destruct (find _ entries) as [[k y]|] eqn:F.
  - left. induction entries as [|[k' y'] l IH]; [discriminate|]. cbn in F.
    destruct (py_eq id k') eqn:E.
    + inversion F; subst. exists [], k, l. cbn. auto.
    + destruct (IH F) as (b & k0 & a & -> & E' & A). cbn in *. exists ((k', y') :: b), k0, a. cbn. split; auto.
  - right. split; auto. rewrite Forall_forall. intros x Hx. eapply find_none in F; eauto.
Qed.

Lemma chosen_unique default entries id y z : chosen default entries id y -> chosen default entries id z -> y = z.
Proof.
  assert (G : forall y, chosen default entries id y ->
            y = match val_get id entries with Some y => y | None => default end).
  { clear. intros y [(b & k & a & -> & E & A)|[A ->]]; unfold val_get.
    - induction A as [|[k' y'] b H A IH]; cbn in *; [now rewrite E|]. rewrite H. exact IH.
    - induction A as [|[k' y'] b H A IH]; cbn in *; auto. rewrite H. exact IH. }
  intros H1 H2. rewrite (G _ H1), (G _ H2). reflexivity.
Qed.

Lemma val_get_map {A B} (f : A -> B) id l :
  val_get id (map (fun x => (fst x, f (snd x))) l) = option_map f (val_get id l).
Proof.
  unfold val_get. induction l as [|[k y] l IH]; cbn; auto. destruct (py_eq id k); auto.
Qed.

Definition wrapped (e : exc) : exc :=
  match e with ByteStreamTooSmallError => ByteStreamTooSmallError | _ => MappingError end.

(** The run of a member map with a fresh context, by cases. *)
Lemma member_run orc fuel d identifier base default entries bs off vals depth id :
  extensional orc ->
  let m := MGroup d identifier base default entries in
  forall x bv c', base = Some x ->
  mapbs orc fuel x bs off (Some (ctx_new [])) depth = (Ok bv, c') ->
  py_getattr bv identifier = id -> id <> VNone ->
  let r := mapbs orc fuel m bs off (Some (ctx_new vals)) depth in
  match (match val_get id entries with Some y => y | None => default end) with
  | None => fst r = Raise MappingError
  | Some y =>
      match fst (mapbs orc fuel y bs off (Some (ctx_new [])) depth) with
      | OutOfFuel => fst r = OutOfFuel
      | Raise e => fst r = Raise (wrapped e)
      | Ok v => exists n, maps orc fuel y bs off [] depth v n /\ maps orc fuel m bs off vals depth v n
      end
  end.
Proof.
  intros X m x bv c' -> E G NV r.
  assert (R : exists c2, c_state c2 = upd_identifier (Some id) st_empty /\
     r = map_group_member (match default with Some x => Some (mapbs orc fuel x) | None => None end)
           (map (fun x => (fst x, match snd x with Some y => Some (mapbs orc fuel y) | None => None end)) entries)
           id bs off (Some c2) depth).
  { eexists. split; [|subst r m; cbn [mapbs]; unfold map_group;
      cbn [ctx_state ctx_new c_state st_empty s_member_identifier s_context opt_default];
      rewrite E, G; destruct id; try congruence; reflexivity]. reflexivity. }
  destruct R as (c2 & S2 & R). unfold map_group_member in R.
  rewrite (val_get_map (fun o => match o with Some y => Some (mapbs orc fuel y) | None => None end)) in R.
  cbn [ctx_state] in R. rewrite S2 in R. cbn [s_context upd_identifier st_empty opt_default] in R.
  set (y0 := match val_get id entries with Some y => y | None => default end).
  assert (Y : match option_map (fun o => match o with Some y => Some (mapbs orc fuel y) | None => None end) (val_get id entries) with
              | Some m => m
              | None => match default with Some x => Some (mapbs orc fuel x) | None => None end
              end = match y0 with Some y => Some (mapbs orc fuel y) | None => None end).
  { unfold y0. destruct (val_get id entries); reflexivity. }
  rewrite Y in R. clear Y. destruct y0 as [y|]; [|now rewrite R].
  destruct (mapbs orc fuel y bs off (Some (ctx_new [])) depth) as [[v|e|] cy] eqn:Ey; cbn [fst].
  - assert (M : exists n, maps orc fuel y bs off [] depth v n) by (apply maps_ok; auto; now rewrite Ey).
    destruct M as (n & M). exists n. split; auto. destruct M as (cc & Q & B). rewrite Ey in Q. inversion Q; subst cy.
    eexists. split; [exact R|]. cbn. exact B.
  - rewrite R. destruct e; reflexivity.
  - now rewrite R.
Qed.

Lemma base_run orc fuel d identifier base default entries bs off vals depth :
  let m := MGroup d identifier base default entries in
  let r := mapbs orc fuel m bs off (Some (ctx_new vals)) depth in
  match base with
  | None => fst r = Raise MappingError
  | Some x =>
      match mapbs orc fuel x bs off (Some (ctx_new [])) depth with
      | (OutOfFuel, _) => fst r = OutOfFuel
      | (Raise e, _) => fst r = Raise (wrapped e)
      | (Ok v, _) => py_getattr v identifier = VNone -> fst r = Raise MappingError
      end
  end.
Proof.
  intros m r. subst m r. cbn [mapbs]. unfold map_group.
  cbn [ctx_state ctx_new c_state st_empty s_member_identifier s_context opt_default].
  destruct base as [x|]; [|reflexivity].
  destruct (mapbs orc fuel x bs off (Some (ctx_new [])) depth) as [[v|e|] c'].
  - intros ->. reflexivity.
  - destruct e; reflexivity.
  - reflexivity.
Qed.

Lemma wrapped_cases e : (e = ByteStreamTooSmallError /\ wrapped e = ByteStreamTooSmallError) \/
  (e <> ByteStreamTooSmallError /\ wrapped e = MappingError).
Proof. destruct e; cbn; auto; right; split; congruence. Qed.

Lemma group_layout orc fuel d identifier base default entries bs off vals depth :
  extensional orc ->
  let m := MGroup d identifier base default entries in
  (forall v n, maps orc fuel m bs off vals depth v n <->
     exists id y, identified orc fuel identifier base bs off depth id /\ id <> VNone /\
       chosen default entries id (Some y) /\ maps orc fuel y bs off [] depth v n) /\
  (fails orc fuel m bs off vals depth ByteStreamTooSmallError <->
     (exists x, base = Some x /\ fails orc fuel x bs off [] depth ByteStreamTooSmallError) \/
     (exists id y, identified orc fuel identifier base bs off depth id /\ id <> VNone /\
        chosen default entries id (Some y) /\ fails orc fuel y bs off [] depth ByteStreamTooSmallError)) /\
  (fails orc fuel m bs off vals depth MappingError <->
     base = None \/
     (exists x e, base = Some x /\ e <> ByteStreamTooSmallError /\ fails orc fuel x bs off [] depth e) \/
     identified orc fuel identifier base bs off depth VNone \/
     (exists id, identified orc fuel identifier base bs off depth id /\ id <> VNone /\
        (chosen default entries id None \/
         exists y e, chosen default entries id (Some y) /\ e <> ByteStreamTooSmallError /\
           fails orc fuel y bs off [] depth e))) /\
  (forall e, fails orc fuel m bs off vals depth e -> e = ByteStreamTooSmallError \/ e = MappingError).
Proof.
  intros X m.
  pose proof (base_run orc fuel d identifier base default entries bs off vals depth) as BR. cbn zeta in BR. fold m in BR.
  assert (NM : forall v n y, fst (mapbs orc fuel m bs off (Some (ctx_new vals)) depth) = y ->
             (forall w, y <> Ok w) -> ~ maps orc fuel m bs off vals depth v n).
  { intros v n y Q N M. apply maps_fst in M. congruence. }
  destruct base as [x|].
  2: { unfold fails, identified. rewrite BR. split; [|split; [|split]].
       - intros v n. split; [intros M; exfalso; eapply NM; eauto; congruence|].
         intros (id & y & (x & w & k & Q & _) & _). discriminate.
       - split; [discriminate|]. intros [(x & Q & _)|(id & y & (x & w & k & Q & _) & _)]; discriminate.
       - split; auto.
       - intros e Q. right. congruence. }
  destruct (mapbs orc fuel x bs off (Some (ctx_new [])) depth) as [[bv|ex|] c'] eqn:E.
  - assert (BM : exists k, maps orc fuel x bs off [] depth bv k) by (apply maps_ok; auto; now rewrite E).
    destruct BM as (nb & BM).
    assert (ID : forall id, identified orc fuel identifier (Some x) bs off depth id <-> py_getattr bv identifier = id).
    { intros id. split.
      - intros (x' & w & k & Q & M & <-). inversion Q; subst. apply maps_fst in M. rewrite E in M. cbn in M. congruence.
      - intros <-. exists x, bv, nb. auto. }
    assert (NB : forall e x', Some x = Some x' -> ~ fails orc fuel x' bs off [] depth e).
    { intros e x' Q F. inversion Q; subst. unfold fails in F. rewrite E in F. discriminate. }
    destruct (is_VNone (py_getattr bv identifier)) eqn:IN.
    + assert (GN : py_getattr bv identifier = VNone) by (destruct (py_getattr bv identifier); auto; discriminate).
      specialize (BR GN). change (fails orc fuel m bs off vals depth) with (fun e => fst (mapbs orc fuel m bs off (Some (ctx_new vals)) depth) = Raise e); cbv beta. rewrite BR. split; [|split; [|split]].
      * intros v n. split; [intros M; exfalso; eapply NM; eauto; congruence|].
        intros (id & y & I & N & _). apply ID in I. congruence.
      * split; [discriminate|]. intros [(x' & Q & F)|(id & y & I & N & _)]; [exfalso; eapply NB; eauto|].
        apply ID in I. congruence.
      * split; auto. intros _. right. right. left. apply ID. exact GN.
      * intros e Q. right. congruence.
    + assert (NV : py_getattr bv identifier <> VNone) by (intros Q; rewrite Q in IN; discriminate).
      pose proof (member_run orc fuel d identifier (Some x) default entries bs off vals depth _ X x bv c' eq_refl E eq_refl NV) as MR.
      cbn zeta in MR. fold m in MR. set (id := py_getattr bv identifier) in *.
      pose proof (chosen_find default entries id) as CF.
      destruct (match val_get id entries with Some y => y | None => default end) as [y|].
      * assert (CU : forall z, chosen default entries id z -> z = Some y) by (intros z Hz; eapply chosen_unique; eauto).
        destruct (mapbs orc fuel y bs off (Some (ctx_new [])) depth) as [[v0|e0|] cy] eqn:Ey; cbn [fst] in MR.
        -- destruct MR as (n0 & My & Mm). pose proof (maps_fst _ _ _ _ _ _ _ _ _ Mm) as F0.
           change (fails orc fuel m bs off vals depth) with (fun e => fst (mapbs orc fuel m bs off (Some (ctx_new vals)) depth) = Raise e); cbv beta. rewrite F0. split; [|split; [|split]].
           ++ intros v n. split.
              ** intros M. destruct (maps_det _ _ _ _ _ _ _ _ _ _ _ M Mm) as [-> ->].
                 exists id, y. split; [now apply ID|]. auto.
              ** intros (id' & y' & I & N & C & M). apply ID in I. subst id'. apply CU in C. inversion C; subst y'.
                 destruct (maps_det _ _ _ _ _ _ _ _ _ _ _ M My) as [-> ->]. exact Mm.
           ++ split; [discriminate|]. intros [(x' & Q & F)|(id' & y' & I & N & C & F)]; [exfalso; eapply NB; eauto|].
              apply ID in I. subst id'. apply CU in C. inversion C; subst y'. unfold fails in F. rewrite Ey in F. discriminate.
           ++ split; [discriminate|].
              intros [Q|[(x' & e & Q & _ & F)|[I|(id' & I & N & [C|(y' & e & C & _ & F)])]]]; try discriminate.
              ** exfalso; eapply NB; eauto.
              ** apply ID in I. congruence.
              ** apply ID in I. subst id'. apply CU in C. discriminate.
              ** apply ID in I. subst id'. apply CU in C. inversion C; subst y'. unfold fails in F. rewrite Ey in F. discriminate.
           ++ discriminate.
        -- assert (NM' : forall v n, ~ maps orc fuel m bs off vals depth v n) by (intros v n; eapply NM; [exact MR|congruence]).
           assert (FY : forall e, fails orc fuel y bs off [] depth e <-> e = e0).
           { intros e. unfold fails. rewrite Ey. cbn. split; congruence. }
           change (fails orc fuel m bs off vals depth) with (fun e => fst (mapbs orc fuel m bs off (Some (ctx_new vals)) depth) = Raise e); cbv beta. rewrite MR. split; [|split; [|split]].
           ++ intros v n. split; [intros M; exfalso; eapply NM'; eauto|].
              intros (id' & y' & I & N & C & M). apply ID in I. subst id'. apply CU in C. inversion C; subst y'.
              apply maps_fst in M. rewrite Ey in M. discriminate.
           ++ destruct (wrapped_cases e0) as [[-> ->]|[N0 ->]].
              ** split; auto. intros _. right. exists id, y. split; [now apply ID|]. split; auto. split; auto. now apply FY.
              ** split; [discriminate|]. intros [(x' & Q & F)|(id' & y' & I & N & C & F)]; [exfalso; eapply NB; eauto|].
                 apply ID in I. subst id'. apply CU in C. inversion C; subst y'. apply FY in F. congruence.
           ++ destruct (wrapped_cases e0) as [[-> ->]|[N0 ->]].
              ** split; [discriminate|].
                 intros [Q|[(x' & e & Q & _ & F)|[I|(id' & I & N & [C|(y' & e & C & Ne & F)])]]]; try discriminate.
                 --- exfalso; eapply NB; eauto.
                 --- apply ID in I. congruence.
                 --- apply ID in I. subst id'. apply CU in C. discriminate.
                 --- apply ID in I. subst id'. apply CU in C. inversion C; subst y'. apply FY in F. congruence.
              ** split; auto. intros _. right. right. right. exists id. split; [now apply ID|]. split; auto.
                 right. exists y, e0. split; auto. split; auto. now apply FY.
           ++ intros e Q. inversion Q. destruct (wrapped_cases e0) as [[-> ->]|[N0 ->]]; auto.
        -- assert (NM' : forall v n, ~ maps orc fuel m bs off vals depth v n) by (intros v n; eapply NM; [exact MR|congruence]).
           assert (FY : forall e, ~ fails orc fuel y bs off [] depth e).
           { intros e. unfold fails. rewrite Ey. cbn. congruence. }
           change (fails orc fuel m bs off vals depth) with (fun e => fst (mapbs orc fuel m bs off (Some (ctx_new vals)) depth) = Raise e); cbv beta. rewrite MR. split; [|split; [|split]].
           ++ intros v n. split; [intros M; exfalso; eapply NM'; eauto|].
              intros (id' & y' & I & N & C & M). apply ID in I. subst id'. apply CU in C. inversion C; subst y'.
              apply maps_fst in M. rewrite Ey in M. discriminate.
           ++ split; [discriminate|]. intros [(x' & Q & F)|(id' & y' & I & N & C & F)]; [exfalso; eapply NB; eauto|].
              apply ID in I. subst id'. apply CU in C. inversion C; subst y'. exfalso. eapply FY; eauto.
           ++ split; [discriminate|].
              intros [Q|[(x' & e & Q & _ & F)|[I|(id' & I & N & [C|(y' & e & C & Ne & F)])]]]; try discriminate.
              ** exfalso; eapply NB; eauto.
              ** apply ID in I. congruence.
              ** apply ID in I. subst id'. apply CU in C. discriminate.
              ** apply ID in I. subst id'. apply CU in C. inversion C; subst y'. exfalso. eapply FY; eauto.
           ++ discriminate.
      * assert (CU : forall z, chosen default entries id z -> z = None) by (intros z Hz; eapply chosen_unique; eauto).
        assert (NM' : forall v n, ~ maps orc fuel m bs off vals depth v n) by (intros v n; eapply NM; [exact MR|congruence]).
        change (fails orc fuel m bs off vals depth) with (fun e => fst (mapbs orc fuel m bs off (Some (ctx_new vals)) depth) = Raise e); cbv beta. rewrite MR. split; [|split; [|split]].
        -- intros v n. split; [intros M; exfalso; eapply NM'; eauto|].
           intros (id' & y' & I & N & C & M). apply ID in I. subst id'. apply CU in C. discriminate.
        -- split; [discriminate|]. intros [(x' & Q & F)|(id' & y' & I & N & C & F)]; [exfalso; eapply NB; eauto|].
           apply ID in I. subst id'. apply CU in C. discriminate.
        -- split; auto. intros _. right. right. right. exists id. split; [now apply ID|]. auto.
        -- intros e Q. right. congruence.
  - assert (NI : forall id, ~ identified orc fuel identifier (Some x) bs off depth id).
    { intros id (x' & w & k & Q & M & _). inversion Q; subst. apply maps_fst in M. rewrite E in M. discriminate. }
    assert (FX : forall e, fails orc fuel x bs off [] depth e <-> e = ex).
    { intros e. unfold fails. rewrite E. cbn. split; congruence. }
    change (fails orc fuel m bs off vals depth) with (fun e => fst (mapbs orc fuel m bs off (Some (ctx_new vals)) depth) = Raise e); cbv beta. rewrite BR. split; [|split; [|split]].
    + intros v n. split; [intros M; exfalso; eapply NM; eauto; congruence|].
      intros (id & y & I & _). exfalso. eapply NI; eauto.
    + destruct (wrapped_cases ex) as [[-> ->]|[N0 ->]].
      * split; auto. intros _. left. exists x. split; auto. now apply FX.
      * split; [discriminate|]. intros [(x' & Q & F)|(id' & y' & I & _)]; [|exfalso; eapply NI; eauto].
        inversion Q; subst. apply FX in F. congruence.
    + destruct (wrapped_cases ex) as [[-> ->]|[N0 ->]].
      * split; [discriminate|]. intros [Q|[(x' & e & Q & Ne & F)|[I|(id' & I & _)]]]; try discriminate;
          try (exfalso; eapply NI; eauto; fail). inversion Q; subst. apply FX in F. congruence.
      * split; auto. intros _. right. left. exists x, ex. split; auto. split; auto. now apply FX.
    + intros e Q. inversion Q. destruct (wrapped_cases ex) as [[-> ->]|[N0 ->]]; auto.
  - assert (NI : forall id, ~ identified orc fuel identifier (Some x) bs off depth id).
    { intros id (x' & w & k & Q & M & _). inversion Q; subst. apply maps_fst in M. rewrite E in M. discriminate. }
    assert (FX : forall e, ~ fails orc fuel x bs off [] depth e).
    { intros e. unfold fails. rewrite E. cbn. congruence. }
    change (fails orc fuel m bs off vals depth) with (fun e => fst (mapbs orc fuel m bs off (Some (ctx_new vals)) depth) = Raise e); cbv beta. rewrite BR. split; [|split; [|split]].
    + intros v n. split; [intros M; exfalso; eapply NM; eauto; congruence|].
      intros (id & y & I & _). exfalso. eapply NI; eauto.
    + split; [discriminate|]. intros [(x' & Q & F)|(id' & y' & I & _)]; [|exfalso; eapply NI; eauto].
      inversion Q; subst. exfalso. eapply FX; eauto.
    + split; [discriminate|]. intros [Q|[(x' & e & Q & Ne & F)|[I|(id' & I & _)]]]; try discriminate;
          try (exfalso; eapply NI; eauto; fail). inversion Q; subst. exfalso. eapply FX; eauto.
    + discriminate.
Qed.

(** ** Creation *)

Lemma member_values_lists identifier x vs : group_member_values identifier x = Ok vs -> lists identifier x vs.
Proof.
  assert (F : forall ms m, find_member identifier ms = Some m -> In m ms /\ dt_name m = identifier).
  { intros ms m H. apply find_some in H. destruct H as [H E]. apply String.eqb_eq in E. auto. }
  destruct x; cbn; try discriminate; intros H.
  - destruct (find_member identifier members) as [y|] eqn:E; [|discriminate]. apply F in E. destruct E as [I N].
    destruct y; try discriminate. destruct values as [l|]; [|discriminate]. inversion H; subst l.
    do 8 eexists. split; [left; reflexivity|]. split; [exact I|]. exact N.
  - destruct (find_member identifier members) as [y|] eqn:E; [|discriminate]. apply F in E. destruct E as [I N].
    destruct y; try discriminate. destruct values as [l|]; [|discriminate]. inversion H; subst l.
    do 8 eexists. split; [right; reflexivity|]. split; [exact I|]. exact N.
Qed.

Lemma val_get_none {A} v (l : list (pyval * A)) : val_get v l = None -> Forall (fun k => py_eq v k = false) (map fst l).
Proof.
  unfold val_get. destruct (find _ l) eqn:F; [discriminate|]. intros _. rewrite Forall_forall. intros k Hk.
  apply in_map_iff in Hk. destruct Hk as (x & <- & Hx). eapply find_none in F; eauto.
Qed.

Definition apart (v w : pyval) : Prop := py_eq w v = false.

Lemma apart_snoc l v : ForallOrdPairs apart l -> Forall (fun k => py_eq v k = false) l -> ForallOrdPairs apart (l ++ [v]).
Proof.
  induction 1 as [|a l H L IH]; intros F; cbn.
  - repeat constructor.
  - inversion F; subst. constructor; [|auto]. rewrite Forall_app. split; auto.
Qed.

Lemma group_values_spec vs (mk : maker) : forall acc out,
  group_values vs mk acc = Ok out -> ForallOrdPairs apart (map fst acc) ->
  exists l, out = acc ++ l /\ map fst l = vs /\ Forall (fun x => mk None = Ok (snd x)) l /\
    ForallOrdPairs apart (map fst out).
Proof.
  induction vs as [|v vs IH]; intros acc out H D; cbn in H.
  - inversion H; subst. exists []. rewrite app_nil_r. auto.
  - destruct (val_get v acc) eqn:G; [discriminate|]. apply bind_ok in H. destruct H as (m & Hm & H).
    apply val_get_none in G. destruct (IH _ _ H) as (l & -> & V & F & D').
    + rewrite map_app. now apply apart_snoc.
    + exists ((v, m) :: l). rewrite <- app_assoc. cbn. split; auto. split; [congruence|]. split; auto.
      rewrite <- app_assoc in D'. exact D'.
Qed.

Lemma group_maps_spec i ms : forall acc out,
  group_maps i ms acc = Ok out -> ForallOrdPairs apart (map fst acc) ->
  exists vss ll, Forall2 (fun x vs => group_member_values i (fst x) = Ok vs) ms vss /\
    out = acc ++ concat ll /\ Forall2 (fun vs l => map fst l = vs) vss ll /\
    Forall2 (fun x l => Forall (fun e => snd x None = Ok (snd e)) l) ms ll /\
    ForallOrdPairs apart (map fst out).
Proof.
  induction ms as [|[m mk] ms IH]; intros acc out H D; cbn in H.
  - inversion H; subst. exists [], []. cbn. rewrite app_nil_r. auto.
  - apply bind_ok in H. destruct H as (vs & V & H). apply bind_ok in H. destruct H as (acc' & A & H).
    destruct (group_values_spec _ _ _ _ A D) as (l & -> & L & F & D').
    destruct (IH _ _ H D') as (vss & ll & F1 & -> & F2 & F3 & D2).
    exists (vs :: vss), (l :: ll). split; [constructor; auto|]. cbn [concat]. rewrite app_assoc.
    split; auto.
Qed.

(** C23: what a group map consists of. *)
Lemma group_created orc mt bo base identifier default ms m :
  create orc (DGroup mt bo base identifier default ms) None = Ok (Some m) ->
  exists d b df vss entries,
    m = MGroup d identifier b df entries /\
    create orc base None = Ok b /\
    match default with Some x => create orc x None = Ok df | None => df = None end /\
    Forall2 (lists identifier) ms vss /\
    map fst entries = concat vss /\
    ForallOrdPairs (fun v w => py_eq w v = false) (concat vss) /\
    forall v y, In (v, y) entries <->
      exists i x vs, nth_error ms i = Some x /\ nth_error vss i = Some vs /\ In v vs /\ create orc x None = Ok y.
Proof.
  intros C. cbn [create] in C. apply bind_ok in C. destruct C as (df & D & C).
  apply bind_ok in C. destruct C as (b & B & C).
  destruct ms as [|m0 ms0] eqn:Ems; [discriminate|]. rewrite <- Ems in *. clear m0 ms0 Ems.
  apply bind_ok in C. destruct C as (entries & G & C). inversion C; subst m. clear C.
  apply group_maps_spec in G; [|constructor]. destruct G as (vss & ll & F1 & -> & F2 & F3 & D2). cbn [app] in *.
  assert (K : map fst (concat ll) = concat vss).
  { clear -F2. induction F2 as [|vs l vss ll H F IH]; cbn; auto. rewrite map_app, H, IH. reflexivity. }
  exists (apply_ov None (DGroup mt bo base identifier default ms)), b, df, vss, (concat ll).
  split; auto. split; auto. split; [destruct default; [exact D|congruence]|]. split; [|split; [exact K|split]].
  - clear -F1. remember (map (fun m => (m, create orc m)) ms) as l eqn:E. revert ms E.
    induction F1 as [|x vs l vss H F IH]; intros ms E; destruct ms; try discriminate; constructor.
    + cbn in E. inversion E; subst. cbn in H. now apply member_values_lists.
    + cbn in E. inversion E; subst. now apply IH.
  - rewrite <- K. exact D2.
  - clear -F1 F2 F3. intros v y. revert vss ll F1 F2 F3. induction ms as [|x ms IH]; intros vss ll F1 F2 F3; cbn in *.
    + inversion F1; subst. inversion F2; subst. cbn. split; [tauto|]. intros (i & x & vs & H & _). destruct i; discriminate.
    + inversion F1; subst. inversion F2; subst. inversion F3; subst. cbn in *. rewrite in_app_iff. rewrite IH by eauto.
      split.
      * intros [Hi|(i & x' & vs & N1 & N2 & I & C)].
        -- exists 0%nat, x. eexists. cbn. split; [reflexivity|]. split; [reflexivity|].
           split; [apply in_map_iff; exists (v, y); auto|].
           match goal with H : Forall _ _ |- _ => rewrite Forall_forall in H; apply H in Hi; exact Hi end.
        -- exists (S i), x', vs. auto.
      * intros (i & x' & vs & N1 & N2 & I & C). destruct i as [|i]; cbn in *.
        -- inversion N1; inversion N2; subst. left. apply in_map_iff in I. destruct I as ([v' y'] & E & Hi). cbn in E. subst v'.
           match goal with H : Forall _ _ |- _ => rewrite Forall_forall in H; pose proof (H _ Hi) as Q end. cbn in Q.
           congruence.
        -- right. eauto 8.
Qed.

(** Two members that list the same value. *)
Lemma group_duplicates orc mt bo base identifier default ms m :
  create orc (DGroup mt bo base identifier default ms) None = Ok (Some m) ->
  exists vss, Forall2 (lists identifier) ms vss /\
    forall i j v w, (i < j)%nat -> nth_error (concat vss) i = Some v -> nth_error (concat vss) j = Some w ->
      py_eq w v = false.
Proof.
  intros C. apply group_created in C. destruct C as (d & b & df & vss & entries & _ & _ & _ & L & _ & D & _).
  exists vss. split; auto. clear -D. induction D as [|a l H D IH]; intros i j v w Hij Hi Hj.
  - destruct i; discriminate.
  - destruct j as [|j]; [lia|]. cbn in Hj. destruct i as [|i]; cbn in Hi.
    + inversion Hi; subst. rewrite Forall_forall in H. apply H. eapply nth_error_In; eauto.
    + apply (IH i j); auto. lia.
Qed.
