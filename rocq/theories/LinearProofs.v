(** The fast path of structures and sequences. *)
From Coq Require Import String List ZArith Bool Lia.
From Verif Require Import Base PyVal PyStruct DataTypes ClassFactory DataMaps.
From Verif Require Import BytesProofs ContainerProofs PrimProofs SpecPrim SpecMap SpecCreate.
From Verif Require Import MapProofs ContextProofs StructProofs LayoutProofs CreateProofs.
Import ListNotations.
Open Scope Z_scope.
Arguments Z.pow : simpl never.
Arguments Z.mul : simpl never.

Definition csize (c : fcode) : Z := Z.of_nat (code_size c).
Definition csizes (cs : list fcode) : Z := fold_right (fun c a => csize c + a) 0 cs.

Lemma csize_pos c : 0 < csize c.
Proof. unfold csize. pose proof (code_size_pos c). lia. Qed.

Lemma csizes_nonneg cs : 0 <= csizes cs.
Proof. induction cs as [|c cs IH]; cbn; [lia|]. pose proof (csize_pos c). fold (csizes cs). lia. Qed.

Lemma skipn_plus {A} a b (l : list A) : skipn (a + b) l = skipn b (skipn a l).
Proof.
  revert l. induction a as [|a IH]; intros l; [reflexivity|].
  destruct l; cbn; [now rewrite skipn_nil|apply IH].
Qed.

(** A primitive definition with a size that the format tables know. *)
Lemma prim_size p c k : prim_code p = Some c -> get_byte_size p = Some k -> k = csize c.
Proof.
  intros H S. unfold csize.
  destruct p; try discriminate; cbn in H, S; unfold fixed_byte_size in S;
    destruct (String.eqb _ _); try discriminate; rewrite S in H;
    try destruct unsigned;
    repeat match type of H with
    | context [match ?z with _ => _ end] => destruct z; try discriminate
    end; inversion H; reflexivity.
Qed.

Lemma created_prim orc d m : create orc d None = Ok (Some m) ->
  match m with
  | MPrim p op => p = d /\ prim_op orc d (match dt_byte_order d with Some b => b | None => BONative end) = Ok op
  | MUUID p | MPadding p | MSemantic p | MFormat p => p = d
  | _ => True
  end.
Proof.
  destruct d; cbn [create].
  - destruct false_value, true_value; try discriminate; intros H; apply bind_ok in H;
      destruct H as (o & O & H); inversion H; auto.
  - intros H; apply bind_ok in H; destruct H as (o & O & H); inversion H; auto.
  - intros H; apply bind_ok in H; destruct H as (o & O & H); inversion H; auto.
  - intros H; apply bind_ok in H; destruct H as (o & O & H); inversion H; auto.
  - intros H; inversion H; auto.
  - intros H; inversion H; auto.
  - intros H. apply (create_elems orc k e d None) in H. destruct H as (eov & em & _ & _ & _ & H).
    destruct k.
    + destruct (sequence_is_linear _ _); [destruct H as (o & _ & ->)|subst]; auto.
    + destruct H as [_ ->]; auto.
    + destruct H as [_ ->]; auto.
  - intros H. apply bind_ok in H. destruct H as (s & C & H). inversion H; subst.
    apply create_structure_inv in C. destruct C as (attrs & _ & _ & _ & _ & [(_ & op & _ & ->)|(_ & ->)]); auto.
  - discriminate.
  - discriminate.
  - intros H; inversion H; auto.
  - intros H; inversion H; auto.
  - intros H; inversion H; auto.
  - discriminate.
  - intros H. apply bind_ok in H. destruct H as (df & Cd & H).
    apply bind_ok in H. destruct H as (b & Cb & H). destruct members; [discriminate|].
    apply bind_ok in H. destruct H as (maps & G & H). inversion H; auto.
Qed.

(** A member of a linear structure with its map [a], and the map [y] that reads
    it the way the fast path does, in the byte order [en] with format [c]. *)
Definition lin_ok (orc : oracle) (en : endian) (m : dtype) (a : string * option dmap) (y : dmap) (c : fcode) : Prop :=
  exists p op, snd a = Some (MPrim p op) /\ prim_code p = Some c /\
    get_byte_size p = Some (csize c) /\ truthy_str (member_cond m) = None /\
    forall fuel, mapbs orc fuel y = mapbs orc fuel (MPrim p (Some (op1 en c))).

Inductive lin_list (orc : oracle) (en : endian) :
  list dtype -> list (string * option dmap) -> list dmap -> list fcode -> Prop :=
| lin_nil : lin_list orc en [] [] [] []
| lin_cons m ms a attrs y ys c cs : lin_ok orc en m a y c -> lin_list orc en ms attrs ys cs ->
    lin_list orc en (m :: ms) (a :: attrs) (y :: ys) (c :: cs).

(** Assigning values to the attributes in order. *)
Fixpoint assign (s : pyval) (attrs : list (string * option dmap)) (ws : list pyval) : pyval :=
  match attrs, ws with
  | a :: r, w :: ws => assign (py_setattr s (fst a) w) r ws
  | _, _ => s
  end.

Lemma map_prim_maps orc fuel p c en bs off vals depth :
  prim_code p = Some c -> get_byte_size p = Some (csize c) -> 0 <= off ->
  off + csize c <= len bs ->
  let m := MPrim p (Some (op1 en c)) in
  let r := map_value p (unpack1 en c (firstn (code_size c) (skipn (Z.to_nat off) bs))) in
  (forall v, r = Ok v -> maps orc fuel m bs off vals depth v (csize c)) /\
  (forall e, r = Raise e -> fails orc fuel m bs off vals depth MappingError) /\
  (forall v n, maps orc fuel m bs off vals depth v n -> r = Ok v /\ n = csize c) /\
  (forall e, fails orc fuel m bs off vals depth e -> e = MappingError /\ exists e', r = Raise e') /\
  r <> OutOfFuel /\ fst (mapbs orc fuel m bs off (Some (ctx_new vals)) depth) <> OutOfFuel.
Proof.
  intros P S O L m r. subst m r. unfold maps, fails. cbn [mapbs].
  rewrite (map_prim_spec p c en (csize c)) by auto.
  destruct (Z.ltb_spec (len bs - off) (csize c)); [lia|].
  unfold window, csize. rewrite Nat2Z.id.
  pose proof (map_value_fuel p (unpack1 en c (firstn (code_size c) (skipn (Z.to_nat off) bs)))) as F.
  destruct (map_value p _) as [w|e|]; cbn [fst].
  - split; [|split; [|split; [|split; [|split]]]]; try discriminate.
    + intros w' E. inversion E; subst. eexists. split; reflexivity.
    + intros w' n (c0 & E & B). inversion E; subst. inversion B; auto.
  - split; [|split; [|split; [|split; [|split]]]]; try discriminate; auto.
    + intros w' n (c0 & E & B). discriminate.
    + intros e' E. split; [congruence|eauto].
  - congruence.
Qed.

Section Lin.
Variables (orc : oracle) (fuel : nat) (cls : string) (vals : env) (bs : bytes) (depth : Z) (en : endian).

Lemma no_cond m e : truthy_str (member_cond m) = None -> condition_is orc m e true.
Proof. intros H. unfold condition_is. now rewrite H. Qed.

Lemma no_cond_false m e : truthy_str (member_cond m) = None -> ~ condition_is orc m e false.
Proof. intros H. unfold condition_is. rewrite H. discriminate. Qed.

Lemma no_cond_bad m e : truthy_str (member_cond m) = None -> ~ condition_bad orc m e.
Proof. intros H. unfold condition_bad. rewrite H. tauto. Qed.

Lemma lin_fields ms attrs ys cs : lin_list orc en ms attrs ys cs -> forall s off,
  0 <= off -> off + csizes cs <= len bs ->
  let l := combine ms (combine (map fst attrs) (map Some ys)) in
  match linear_values ms (map snd attrs) (unpack_codes en cs (skipn (Z.to_nat off) bs)) with
  | Ok ws => List.length ws = List.length attrs /\
      fields orc fuel cls vals bs depth l s off (assign s attrs ws) (off + csizes cs)
  | Raise _ => first_defect orc fuel cls vals bs depth (member_bad orc fuel cls vals bs depth) l s off
  | OutOfFuel => False
  end.
Proof.
  intros H. induction H as [|m ms a attrs y ys c cs K H IH]; intros s off O L l; subst l.
  - cbn. split; auto. rewrite Z.add_0_r. constructor.
  - destruct a as [name x]. destruct K as (p & op & E & P & S & N & Y). cbn in E. subst x. specialize (Y fuel).
    cbn [csizes fold_right] in L. fold (csizes cs) in L.
    pose proof (csize_pos c) as CP. pose proof (csizes_nonneg cs) as CN.
    cbn [map combine fst snd unpack_codes linear_values].
    destruct (map_prim_maps orc fuel p c en bs off (scope cls s vals) (depth + 1) P S O ltac:(lia)) as (M1 & M2 & M3 & M4 & M5 & M6).
    unfold maps in M1. unfold fails in M2. rewrite <- Y in M1, M2. fold (maps orc fuel y) in M1.
    change (forall v, map_value p (unpack1 en c (firstn (code_size c) (skipn (Z.to_nat off) bs))) = Ok v ->
      maps orc fuel y bs off (scope cls s vals) (depth + 1) v (csize c)) in M1.
    destruct (map_value p _) as [w|e|]; cbn [bind]; [| |congruence].
    + specialize (M1 w eq_refl).
      destruct (unsupported (member_values m) w) eqn:U.
      * apply first_defect_here. right. split; [now apply no_cond|]. right. eexists. split; [reflexivity|].
        right. exists w, (csize c). split; auto. rewrite <- unsupported_spec. congruence.
      * apply unsupported_spec in U.
        specialize (IH (py_setattr s name w) (off + csize c) ltac:(lia) ltac:(lia)). cbn zeta in IH.
        replace (skipn (code_size c) (skipn (Z.to_nat off) bs)) with (skipn (Z.to_nat (off + csize c)) bs).
        2:{ unfold csize. rewrite Z2Nat.inj_add, Nat2Z.id by lia. apply skipn_plus. }
        destruct (linear_values ms (map snd attrs) _) as [ws|e|]; cbn [bind].
        -- destruct IH as [IL IH]. split; [cbn; congruence|]. cbn [assign fst].
           eapply fields_present; eauto; [now apply no_cond|].
           replace (off + csizes (c :: cs)) with (off + csize c + csizes cs)
             by (cbn [csizes fold_right]; fold (csizes cs); lia). exact IH.
        -- eapply first_defect_present; eauto. now apply no_cond.
        -- exact IH.
    + apply first_defect_here. right. split; [now apply no_cond|]. right. eexists. split; [reflexivity|].
      left. exists MappingError. split; [discriminate|]. eapply M2. reflexivity.
Qed.

Lemma lin_fields_size ms attrs ys cs : lin_list orc en ms attrs ys cs -> forall s off v e,
  0 <= off ->
  fields orc fuel cls vals bs depth (combine ms (combine (map fst attrs) (map Some ys))) s off v e ->
  e = off + csizes cs /\ (cs <> [] -> e <= len bs).
Proof.
  intros H. induction H as [|m ms a attrs y ys c cs K H IH]; intros s off v e O F.
  - inversion F; subst. cbn. split; [lia|congruence].
  - destruct a as [name x]. destruct K as (p & op & E & P & S & N & Y). cbn in E. subst x.
    cbn [map combine fst] in F. pose proof (csize_pos c) as CP. pose proof (csizes_nonneg cs) as CN.
    inversion F; subst; [|exfalso; eapply no_cond_false; eauto].
    match goal with Q : maps _ _ _ _ _ _ _ _ _ |- _ => destruct Q as (c0 & M & B) end.
    rewrite Y in M. cbn [mapbs] in M. rewrite (map_prim_spec p c en (csize c)) in M by auto.
    destruct (Z.ltb_spec (len bs - off) (csize c)); [discriminate|].
    assert (n = csize c).
    { destruct (map_value p _); inversion M; subst. cbn in B. congruence. }
    subst n. match goal with Q : fields _ _ _ _ _ _ _ _ _ _ e |- _ => apply IH in Q; [|lia]; destruct Q as [-> G] end.
    cbn [csizes fold_right]. fold (csizes cs). split; [lia|]. intros _.
    destruct cs; [cbn; lia|]. specialize (G ltac:(discriminate)). lia.
Qed.
End Lin.

Definition readings (ws : list pyval) : list reading := map (fun w => Some (w, 0)) ws.

Lemma value_of_readings ws : map value_of (readings ws) = ws.
Proof. unfold readings. rewrite map_map. apply map_id. Qed.

Lemma make_attrs_partly names : forall ws,
  make_attrs names ws = combine names (ws ++ repeat VNone (List.length names - List.length ws)).
Proof.
  induction names as [|n names IH]; intros ws; [reflexivity|].
  destruct ws as [|w ws]; cbn [make_attrs].
  - rewrite IH. cbn. now rewrite Nat.sub_0_r.
  - rewrite IH. reflexivity.
Qed.

Lemma new_struct_partly cls names ws : new_struct cls names ws = partly cls names (readings ws).
Proof.
  unfold new_struct, partly. rewrite make_attrs_partly, value_of_readings.
  unfold readings. now rewrite map_length.
Qed.

Lemma assign_partly cls names : NoDup names -> forall attrs ws pre,
  List.length ws = List.length attrs ->
  names = firstn (List.length pre) names ++ map fst attrs ->
  assign (partly cls names pre) attrs ws = partly cls names (pre ++ readings ws).
Proof.
  intros ND. induction attrs as [|a attrs IH]; intros ws pre L N; destruct ws as [|w ws]; try discriminate.
  - cbn. now rewrite app_nil_r.
  - cbn [assign readings map]. cbn [map] in N. fold (readings ws).
    assert (LN : List.length (firstn (List.length pre) names) = List.length pre).
    { apply firstn_length_le. destruct (Nat.le_gt_cases (List.length pre) (List.length names)); auto.
      rewrite firstn_all2 in N by lia. apply (f_equal (@List.length string)) in N.
      rewrite app_length in N. cbn in N. lia. }
    rewrite (setattr_partly _ _ _ _ w 0 ND).
    2:{ rewrite N at 1. rewrite nth_error_app2 by lia. rewrite LN, Nat.sub_diag. reflexivity. }
    rewrite IH; auto.
    + now rewrite <- app_assoc.
    + rewrite app_length. cbn [List.length].
      replace (List.length pre + 1)%nat with (S (List.length pre)) by lia.
      remember (List.length pre) as k. clear - N LN. 
      rewrite N at 2. rewrite firstn_app, LN. replace (S k - k)%nat with 1%nat by lia.
      rewrite firstn_firstn, Nat.min_r by lia. cbn. rewrite <- app_assoc. exact N.
Qed.

Lemma blank_partly cls attrs : blank cls attrs = partly cls (map fst attrs) [].
Proof.
  unfold blank, partly. cbn. rewrite Nat.sub_0_r. f_equal.
  induction attrs as [|[a x] l IH]; cbn; auto. now rewrite IH.
Qed.

Lemma lin_attrs orc en ms attrs ys cs : lin_list orc en ms attrs ys cs ->
  List.length ms = List.length attrs /\ List.length ys = List.length attrs /\
  map fst (combine (map fst attrs) (map Some ys)) = map fst attrs /\
  map snd (combine (map fst attrs) (map Some ys)) = map Some ys.
Proof.
  intros H. induction H as [|m ms a attrs y ys c cs K H (A & B & C & D)]; cbn; auto.
  repeat split; congruence.
Qed.

(** The outcome of the fast path, given the maps that read as it does. *)
Lemma linear_run orc fuel cls vals bs depth en ms attrs ys cs d op off :
  lin_list orc en ms attrs ys cs -> ms <> [] -> NoDup (map fst attrs) ->
  clear_names cls (map fst attrs) -> get_byte_size d = Some (csizes cs) -> op_size op = csizes cs -> op_codes op = cs -> op_endian op = en ->
  0 <= off ->
  let m := MStructure true d cls ms attrs (Some op) in
  let l := combine ms (combine (map fst attrs) (map Some ys)) in
  if len bs - off <? csizes cs then
    fails orc fuel m bs off vals depth ByteStreamTooSmallError /\
    (forall v e, ~ fields orc fuel cls vals bs depth l (blank cls attrs) off v e)
  else
    (exists v, maps orc fuel m bs off vals depth v (csizes cs) /\
       fields orc fuel cls vals bs depth l (blank cls attrs) off v (off + csizes cs)) \/
    (fails orc fuel m bs off vals depth MappingError /\
     first_defect orc fuel cls vals bs depth (member_bad orc fuel cls vals bs depth) l (blank cls attrs) off).
Proof.
  intros H NE ND CL S OS OC OE O m l. subst m l.
  assert (CN : cs <> []) by (intros ->; inversion H; subst; congruence).
  destruct (Z.ltb_spec (len bs - off) (csizes cs)) as [T|T].
  - split.
    + unfold fails. cbn [mapbs]. unfold map_struct_linear. rewrite S.
      destruct (Z.ltb_spec (len bs - off) (csizes cs)); [reflexivity|lia].
    + intros v e F. eapply lin_fields_size in F; eauto. destruct F as [-> F]. specialize (F CN). lia.
  - pose proof (lin_fields orc fuel cls vals bs depth en ms attrs ys cs H (blank cls attrs) off O ltac:(lia)) as F.
    cbn zeta in F.
    assert (R : read_from op (slice_from bs off) = Ok (unpack_codes en cs (skipn (Z.to_nat off) bs))).
    { unfold read_from. rewrite slice_from_nonneg, OS, OC, OE, len_skipn by auto.
      destruct (Z.ltb_spec (Z.max 0 (len bs - Z.of_nat (Z.to_nat off))) (csizes cs)); [lia|reflexivity]. }
    unfold maps, fails. cbn [mapbs]. unfold map_struct_linear. rewrite S.
    destruct (Z.ltb_spec (len bs - off) (csizes cs)); [lia|].
    rewrite R. cbn [bind].
    destruct (linear_values ms (map snd attrs) _) as [ws|e|]; cbn [bind]; [| |contradiction].
    + destruct F as [FL F]. left. exists (new_struct cls (map fst attrs) ws). split.
      * rewrite (instance_clear _ _ _ CL). eexists. split; reflexivity.
      * replace (new_struct cls (map fst attrs) ws) with (assign (blank cls attrs) attrs ws); auto.
        rewrite blank_partly, new_struct_partly. apply assign_partly; auto.
    + right. split; auto.
Qed.

(** ** Creation of linear structures *)

Lemma Forall2_len {A B} (P : A -> B -> Prop) l1 l2 : Forall2 P l1 l2 -> List.length l1 = List.length l2.
Proof. intros F. induction F; cbn; auto. Qed.

Lemma set_name_bo_twice n b n' b' d : set_name_bo n b (set_name_bo n' b' d) = set_name_bo n b d.
Proof. destruct d; reflexivity. Qed.

Lemma recast_map n b d op : map_prim (set_name_bo n b d) op = map_prim d op.
Proof. destruct d; reflexivity. Qed.

Lemma used_cases sn bo m : used_type sn bo m = type_of m \/
  exists n, used_type sn bo m = set_name_bo n bo (type_of m).
Proof.
  unfold used_type. destruct bo; auto; destruct (dt_byte_order (type_of m)) as [[]|]; eauto.
Qed.

Lemma used_size sn bo m : get_byte_size (used_type sn bo m) = get_byte_size (type_of m).
Proof. destruct (used_cases sn bo m) as [->|[n ->]]; auto. apply set_name_bo_size. Qed.

Lemma used_code sn bo m : prim_code (used_type sn bo m) = prim_code (type_of m).
Proof. destruct (used_cases sn bo m) as [->|[n ->]]; auto. apply prim_code_ov. Qed.

Lemma used_map sn bo m op : map_prim (used_type sn bo m) op = map_prim (type_of m) op.
Proof. destruct (used_cases sn bo m) as [->|[n ->]]; auto. apply recast_map. Qed.

Definition is_prim (d : dtype) : bool :=
  match d with DBoolean _ _ _ | DCharacter _ | DFloat _ | DInteger _ _ => true | _ => false end.

(** A member of a linear structure whose size is known. *)
Definition lin_member (orc : oracle) (sn : string) (bo : byte_order) (m : dtype) (a : string * option dmap) : Prop :=
  exists p op b, snd a = Some (MPrim p op) /\ p = used_type sn bo m /\
    dt_byte_order p = Some b /\ prim_op orc p b = Ok op /\
    (exists k, get_byte_size m = Some k /\ get_byte_size p = Some k) /\
    pad_align m = None /\ truthy_str (member_cond m) = None /\ is_prim p = true.

Lemma sized_leaf d k : is_composite d = false -> get_byte_size d = Some k ->
  is_prim (type_of d) = true \/ exists x y c z u i, type_of d = DMember x y c z u i.
Proof.
  destruct d; cbn; intros C S; try discriminate; auto.
  apply orb_false_iff in C. destruct C as [C1 C2].
  destruct (truthy_str condition); [discriminate|].
  destruct d; cbn in *; try discriminate; auto. right. do 6 eexists. reflexivity.
Qed.

Lemma prim_created orc d a : is_prim d = true -> create orc d None = Ok a ->
  exists op b, a = Some (MPrim d op) /\ dt_byte_order d = Some b /\ prim_op orc d b = Ok op.
Proof.
  intros P C.
  assert (X : exists op, a = Some (MPrim d op)).
  { destruct d; try discriminate; cbn [create] in C.
    - destruct false_value, true_value; try discriminate; apply bind_ok in C; destruct C as (o & _ & C); inversion C; eauto.
    - apply bind_ok in C; destruct C as (o & _ & C); inversion C; eauto.
    - apply bind_ok in C; destruct C as (o & _ & C); inversion C; eauto.
    - apply bind_ok in C; destruct C as (o & _ & C); inversion C; eauto. }
  destruct X as [op ->]. apply created_prim in C. destruct C as [_ C].
  destruct d; try discriminate; cbn in C; cbn [dt_byte_order]; eauto.
Qed.

Lemma is_prim_recast n b d : is_prim (set_name_bo n b d) = is_prim d.
Proof. destruct d; reflexivity. Qed.

Lemma is_prim_used sn bo m : is_prim (used_type sn bo m) = is_prim (type_of m).
Proof. destruct (used_cases sn bo m) as [->|[n ->]]; auto. apply is_prim_recast. Qed.

(** A member that can never be read. *)
Definition dead (m : dtype) (x : option dmap) : Prop :=
  truthy_str (member_cond m) = None /\ (x = None \/ exists p, x = Some (MPrim p None)).

Lemma lin_member_cases orc sn bo m a k :
  create orc (used_type sn bo m) None = Ok (snd a) ->
  is_composite m = false -> is_padding m = false -> get_byte_size m = Some k ->
  lin_member orc sn bo m a \/ (snd a = None /\ dead m None).
Proof.
  intros C IC IP SM.
  assert (N : truthy_str (member_cond m) = None).
  { destruct m; auto. cbn in *. destruct (truthy_str condition); auto. discriminate. }
  destruct (sized_leaf m k IC SM) as [P|(x & y & c & z & u & i & E)].
  - left. destruct (prim_created orc (used_type sn bo m) (snd a)) as (op & b & Ha & Hb & Ho); auto.
    { now rewrite is_prim_used. }
    exists (used_type sn bo m), op, b. repeat split; auto.
    + exists k. split; auto. rewrite used_size. destruct m; auto. cbn in SM. cbn.
      destruct (truthy_str condition); auto. discriminate.
    + destruct m; auto; discriminate.
    + now rewrite is_prim_used.
  - right. unfold dead. split; auto.
    assert (C' : exists n' b', used_type sn bo m = DMember n' b' c z u i).
    { destruct (used_cases sn bo m) as [->|[n' ->]]; rewrite E; cbn; eauto. }
    destruct C' as (n' & b' & C'). rewrite C' in C. cbn in C. congruence.
Qed.

(** All members have a known format, or one can never be read and there is no
    struct operation. *)
Lemma lin_cases orc sn bo ms attrs :
  Forall2 (fun m a => fst a = dt_name m /\ create orc (used_type sn bo m) None = Ok (snd a)) ms attrs ->
  forall last acc n, check_linear last ms = Ok true -> struct_size_loop ms acc = Some n ->
  (Forall2 (lin_member orc sn bo) ms attrs /\
   exists cs, struct_tokens attrs = Ok (Some (map (fun c => (1, c)) cs)) /\
     Forall2 (fun m c => prim_code (type_of m) = Some c) ms cs /\ n = acc + csizes cs) \/
  (struct_tokens attrs = Ok None /\ exists i m a,
     nth_error ms i = Some m /\ nth_error attrs i = Some a /\ dead m (snd a)).
Proof.
  intros F. induction F as [|m a ms attrs (N & C) F IH]; intros last acc n L S.
  - left. split; auto. exists []. repeat split; auto. cbn in *. inversion S. lia.
  - cbn [check_linear] in L. cbn [struct_size_loop] in S.
    destruct (is_composite m) eqn:IC; [discriminate|]. destruct (is_padding m) eqn:IP; [discriminate|].
    cbn [orb] in L.
    destruct (dt_byte_order m) as [b0|]; [|discriminate].
    destruct (negb (is_native last) && negb (is_native b0) && negb (bo_eqb last b0)); [discriminate|].
    assert (PA : pad_align m = None) by (destruct m; auto; discriminate).
    rewrite PA in S. cbn [struct_size_step] in S.
    destruct (get_byte_size m) as [k|] eqn:SM; [|discriminate].
    destruct a as [name x].
    destruct (lin_member_cases orc sn bo m (name, x) k C IC IP SM) as [K|[Ha D]].
    2:{ right. cbn in Ha. subst x. split; auto. exists 0%nat, m, (name, None). auto. }
    assert (K' := K). destruct K as (p & op & b & Ha & Hp & Hb & Ho & (k' & S1 & S2) & PA' & N' & _).
    cbn in Ha. subst x. cbn [struct_tokens map_tokens bind].
    assert (PC : prim_code p = prim_code (type_of m)) by (rewrite Hp; apply used_code).
    destruct (prim_code p) as [c|] eqn:Pc.
    + destruct (IH _ _ _ L S) as [(G & cs & T & G' & Z)|(T & i & m' & a' & X)]; rewrite T; cbn [bind].
      * left. split; [constructor; auto|]. exists (c :: cs). repeat split; auto.
        assert (k' = k) by congruence. subst k'.
        apply (prim_size p c) in S2; auto. cbn [csizes fold_right]. fold (csizes cs). lia.
      * right. split; auto. exists (Datatypes.S i), m', a'. exact X.
    + right. split; auto. exists 0%nat, m, (name, Some (MPrim p op)). repeat split; auto.
      right. exists p. cbn. unfold prim_op in Ho. rewrite Pc in Ho. congruence.
Qed.

Lemma dead_maps orc fuel p bs off vals depth v n :
  ~ maps orc fuel (MPrim p None) bs off vals depth v n.
Proof.
  intros (c & E & _). cbn [mapbs] in E. unfold map_prim in E.
  destruct (get_byte_size p); [|discriminate].
  destruct (len bs - off <? z); discriminate.
Qed.

Lemma op_ones en cs : op_size (mkOp en (map (fun c => (1, c)) cs)) = csizes cs /\
  op_codes (mkOp en (map (fun c => (1, c)) cs)) = cs.
Proof.
  unfold op_size, op_codes. cbn [op_tokens]. induction cs as [|c cs [A B]]; cbn [map fold_right flat_map csizes]; auto.
  fold (csizes cs). rewrite A, B. change (Z.to_nat 1) with 1%nat. cbn [repeat app]. unfold csize. split; auto. lia.
Qed.

(** [y] reads the member [m] in the byte order [en]. *)
Definition reads_as (orc : oracle) (en : endian) (m : dtype) (y : dmap) : Prop :=
  forall fuel c, prim_code (type_of m) = Some c ->
    mapbs orc fuel y = map_prim (type_of m) (Some (op1 en c)).

Lemma lin_lists orc sn bo en ms attrs : Forall2 (lin_member orc sn bo) ms attrs ->
  forall cs ys, Forall2 (fun m c => prim_code (type_of m) = Some c) ms cs ->
  Forall2 (reads_as orc en) ms ys -> lin_list orc en ms attrs ys cs.
Proof.
  intros F. induction F as [|m a ms attrs K F IH]; intros cs ys G H;
    inversion G; subst; inversion H; subst; constructor; auto.
  destruct K as (p & op & b & Ha & Hp & Hb & Ho & (k & S1 & S2) & PA & N & _).
  match goal with Q : prim_code (type_of m) = Some ?x |- _ => rename Q into PC; rename x into c end.
  assert (Pc : prim_code p = Some c) by (rewrite Hp, used_code; auto).
  exists p, op. split; auto. split; auto.
  split. { rewrite S2. f_equal. eapply prim_size; eauto. }
  split; auto. intros fuel. cbn [mapbs]. rewrite Hp, used_map.
  match goal with Q : reads_as _ _ _ _ |- _ => apply Q; auto end.
Qed.

Lemma reads_recast orc bo m y : is_prim (type_of m) = true ->
  create orc (set_name_bo (dt_name (type_of m)) bo (type_of m)) None = Ok (Some y) ->
  reads_as orc (order_on (o_host orc) bo) m y.
Proof.
  intros P C. apply prim_created in C; [|now rewrite is_prim_recast].
  destruct C as (op & b & E & B & O). inversion E; subst. intros fuel c H.
  rewrite (prim_op_some orc _ b c) in O by (rewrite prim_code_ov; auto). inversion O; subst.
  cbn [mapbs]. rewrite recast_map.
  assert (b = bo) by (destruct (type_of m); try discriminate; cbn in B; inversion B; auto). now subst.
Qed.

Lemma reads_own orc sn bo m y b : is_prim (type_of m) = true ->
  create orc (used_type sn bo m) None = Ok (Some y) ->
  dt_byte_order (type_of m) = Some b ->
  b = BONative \/ order_on (o_host orc) b = order_on (o_host orc) bo ->
  reads_as orc (order_on (o_host orc) bo) m y.
Proof.
  intros P C Hb HO. apply prim_created in C; [|now rewrite is_prim_used].
  destruct C as (op & b' & E & B & O). inversion E; subst. intros fuel c H.
  rewrite (prim_op_some orc _ b' c) in O by (rewrite used_code; auto). inversion O; subst.
  cbn [mapbs]. rewrite used_map. f_equal. f_equal. f_equal.
  unfold used_type in B. rewrite Hb in B.
  destruct bo.
  - rewrite Hb in B. inversion B; subst. destruct HO as [->|HO]; auto.
  - destruct b.
    + destruct (type_of m); try discriminate; cbn in B; inversion B; auto.
    + rewrite Hb in B. inversion B; subst. destruct HO as [|HO]; [discriminate|auto].
    + rewrite Hb in B. inversion B; subst. destruct HO as [|HO]; [discriminate|auto].
  - destruct b.
    + destruct (type_of m); try discriminate; cbn in B; inversion B; auto.
    + rewrite Hb in B. inversion B; subst. destruct HO as [|HO]; [discriminate|auto].
    + rewrite Hb in B. inversion B; subst. destruct HO as [|HO]; [discriminate|auto].
Qed.

(** ** The fast path *)

Definition member_reads (orc : oracle) (en : endian) (m : dtype) (x : option dmap) : Prop :=
  is_prim (type_of m) = true -> exists y, x = Some y /\ reads_as orc en m y.

Lemma member_reads_list orc en sn bo ms attrs xs :
  Forall2 (lin_member orc sn bo) ms attrs ->
  Forall2 (member_reads orc en) ms xs ->
  exists ys, xs = map Some ys /\ Forall2 (reads_as orc en) ms ys.
Proof.
  intros F. revert xs. induction F as [|m a ms attrs K F IH]; intros xs H; inversion H; subst.
  - exists []. split; auto.
  - match goal with Q : Forall2 _ ms _ |- _ => apply IH in Q; destruct Q as (ys & -> & Q) end.
    assert (P : is_prim (type_of m) = true).
    { destruct K as (p & op & b & Ha & Hp & Hb & Ho & S & PA & N & P). now rewrite Hp, is_prim_used in P. }
    match goal with Q : member_reads _ _ _ _ |- _ => destruct (Q P) as (y0 & -> & R) end.
    exists (y0 :: ys). split; auto.
Qed.

Lemma dead_no_laid orc fuel cls vals bs depth ms xs off rs i m x :
  nth_error ms i = Some m -> nth_error xs i = Some x -> dead m x ->
  ~ laid orc fuel cls vals bs depth ms xs off rs.
Proof.
  intros Hm Hx (N & D) (L & R).
  assert (exists r, nth_error rs i = Some r) as (r & Hr).
  { destruct (nth_error rs i) eqn:E; eauto. apply nth_error_None in E.
    assert (nth_error ms i <> None) by congruence. apply nth_error_Some in H. lia. }
  specialize (R i m x r Hm Hx Hr). cbn zeta in R. destruct r as [[v n]|].
  - destruct R as (_ & _ & y & E & M). destruct D as [->|(p & ->)]; [discriminate|].
    inversion E; subst. eapply dead_maps; eauto.
  - eapply no_cond_false; eauto.
Qed.

Lemma linear_general orc fuel mt bo ms d cls ms' attrs op n bs off vals depth xs :
  create orc (DStructure mt bo ms) None = Ok (Some (MStructure true d cls ms' attrs op)) ->
  distinct_types (m_name mt) bo ms -> clear_names (m_name mt) (map dt_name ms) ->
  get_byte_size (DStructure mt bo ms) = Some n -> 0 <= off ->
  Forall2 (member_reads orc (order_on (o_host orc) bo)) ms xs ->
  (forall i m a x, nth_error ms i = Some m -> nth_error attrs i = Some a -> dead m (snd a) ->
     nth_error xs i = Some x -> dead m x) ->
  let m := MStructure true d cls ms' attrs op in
  (forall v k, maps orc fuel m bs off vals depth v k <->
     exists rs, laid orc fuel cls vals bs depth ms xs off rs /\
       v = partly cls (map dt_name ms) rs /\ k = total rs) /\
  (forall v k, maps orc fuel m bs off vals depth v k -> k = n) /\
  (fails orc fuel m bs off vals depth ByteStreamTooSmallError <-> len bs - off < n) /\
  (forall e, fails orc fuel m bs off vals depth e -> e = MappingError \/ e = ByteStreamTooSmallError) /\
  fst (mapbs orc fuel m bs off (Some (ctx_new vals)) depth) <> OutOfFuel.
Proof.
  intros C DT CN S O X DX m. subst m.
  pose proof (structure_own_maps _ _ _ _ _ _ _ _ _ _ C DT) as F.
  apply created_shape in C. cbn [ov_name ov_bo apply_ov] in C.
  destruct C as (-> & -> & -> & NE & ND & A & L & _ & CL & OP).
  assert (S' := S). rewrite structure_size in S'. destruct ms as [|m0 ms0]; [congruence|].
  set (ms := m0 :: ms0) in *.
  destruct (lin_cases orc (m_name mt) bo ms attrs F _ _ _ CL S')
    as [(K & cs & T & PC & ->)|(T & i & mi & ai & Hm & Ha & DD)].
  - unfold struct_op in OP. rewrite T in OP. cbn [bind] in OP.
    destruct cs as [|c0 cs0]; [inversion PC|]. cbn [map] in OP.
    change ((1, c0) :: map (fun c => (1, c)) cs0) with (map (fun c => (1, c)) (c0 :: cs0)) in OP.
    set (cs := c0 :: cs0) in *.
    destruct (op_ones (resolve orc bo) cs) as [OS OC].
    unfold make_op in OP. destruct (_ && _); [|discriminate]. cbn [bind] in OP. inversion OP; subst op.
    destruct (member_reads_list _ _ _ _ _ _ _ K X) as (ys & -> & Y).
    rewrite <- resolve_order in Y.
    pose proof (lin_lists _ _ _ _ _ _ K cs ys PC Y) as LL.
    rewrite Z.add_0_l in *.
    pose proof (linear_run orc fuel (m_name mt) vals bs depth (resolve orc bo) ms attrs ys cs
      (DStructure mt bo ms) (mkOp (resolve orc bo) (map (fun c => (1, c)) cs)) off LL NE
      ltac:(rewrite A; exact ND) ltac:(rewrite A; exact CN) S OS OC eq_refl O) as R.
    cbn zeta in R.
    set (m := MStructure true _ _ _ _ _) in *.
    destruct (lin_attrs _ _ _ _ _ _ LL) as (_ & LY & A1 & A2).
    assert (FL : forall v e,
      fields orc fuel (m_name mt) vals bs depth (combine ms (combine (map fst attrs) (map Some ys)))
        (blank (m_name mt) attrs) off v e <->
      exists rs, laid orc fuel (m_name mt) vals bs depth ms (map Some ys) off rs /\
       v = partly (m_name mt) (map dt_name ms) rs /\ e = off + total rs).
    { intros v e. rewrite blank_partly, A. split.
      - intros G. eapply (fields_right _ _ _ _ _ _ _ ND ms [] []) in G; auto.
        2:{ rewrite <- A. exact A1. }
        destruct G as (rs & G & -> & ->). rewrite A in A2. rewrite A2 in G. exists rs. auto.
      - intros (rs & G & -> & ->).
        apply (right_fields _ _ _ _ _ _ _ ND ms [] []); auto.
        + rewrite <- A. exact A1.
        + rewrite A in A2. rewrite A2. exact G. }
    destruct (Z.ltb_spec (len bs - off) (csizes cs)) as [Q|Q].
    + destruct R as [R1 R2].
      split; [|split; [|split; [|split]]].
      * intros v k. split.
        -- intros M. apply maps_fst in M. unfold fails in R1. congruence.
        -- intros (rs & G & V & E). exfalso. apply (R2 v (off + total rs)). apply FL. eauto.
      * intros v k M. apply maps_fst in M. unfold fails in R1. congruence.
      * split; auto.
      * intros e M. right. unfold fails in *. congruence.
      * unfold fails in R1. congruence.
    + destruct R as [(w & R1 & R2)|[R1 R2]].
      * split; [|split; [|split; [|split]]].
        -- intros v k. split.
           ++ intros M. destruct (maps_det _ _ _ _ _ _ _ _ _ _ _ M R1) as [-> ->].
              apply FL in R2. destruct R2 as (rs & G & -> & E). exists rs. split; [exact G|]. split; [reflexivity|]. clearbody cs. lia.
           ++ intros (rs & G & V & E).
              assert (G' : fields orc fuel (m_name mt) vals bs depth (combine ms (combine (map fst attrs) (map Some ys)))
                 (blank (m_name mt) attrs) off v (off + total rs)) by (apply FL; eauto).
              destruct (fields_det _ _ _ _ _ _ _ _ _ _ _ _ _ R2 G') as [<- E']. replace k with (csizes cs) by lia. exact R1.
        -- intros v k M. destruct (maps_det _ _ _ _ _ _ _ _ _ _ _ M R1) as [-> ->]. reflexivity.
        -- split; [|lia]. intros E. apply maps_fst in R1. unfold fails in E. congruence.
        -- intros e E. apply maps_fst in R1. unfold fails in E. congruence.
        -- apply maps_fst in R1. congruence.
      * split; [|split; [|split; [|split]]].
        -- intros v k. split.
           ++ intros M. apply maps_fst in M. unfold fails in R1. congruence.
           ++ intros (rs & G & V & E). exfalso.
              eapply defect_no_fields; [apply blocks_bad|exact R2|]. apply FL. eauto.
        -- intros v k M. apply maps_fst in M. unfold fails in R1. congruence.
        -- split; [|lia]. intros E. unfold fails in *. congruence.
        -- intros e E. unfold fails in *. left. congruence.
        -- unfold fails in R1. congruence.
  - assert (op = None) as -> by (unfold struct_op in OP; rewrite T in OP; cbn in OP; congruence).
    assert (R : fst (mapbs orc fuel (MStructure true (DStructure mt bo ms) (m_name mt) ms attrs None) bs off
      (Some (ctx_new vals)) depth) = Raise (if len bs - off <? n then ByteStreamTooSmallError else MappingError)).
    { cbn [mapbs]. unfold map_struct_linear. rewrite S. destruct (len bs - off <? n); reflexivity. }
    set (m := MStructure true _ _ _ _ _) in *.
    assert (exists x, nth_error xs i = Some x) as (x & Hx).
    { apply Forall2_len in X. destruct (nth_error xs i) eqn:E; eauto. apply nth_error_None in E.
      assert (nth_error ms i <> None) as H by congruence. apply nth_error_Some in H. lia. }
    split; [|split; [|split; [|split]]].
    + intros v k. split.
      * intros M. apply maps_fst in M. congruence.
      * intros (rs & G & _). exfalso. eapply dead_no_laid; eauto.
    + intros v k M. apply maps_fst in M. congruence.
    + unfold fails. rewrite R. destruct (Z.ltb_spec (len bs - off) n); split; auto; try discriminate; lia.
    + unfold fails. rewrite R. intros e E. destruct (len bs - off <? n); inversion E; auto.
    + congruence.
Qed.

Lemma dead_not_prim orc sn bo m (a : string * option dmap) :
  create orc (used_type sn bo m) None = Ok (snd a) -> dead m (snd a) ->
  (snd a = None /\ is_prim (type_of m) = false) \/
  (is_prim (type_of m) = true /\ prim_code (type_of m) = None).
Proof.
  intros C (N & [E|(p & E)]); rewrite E in C.
  - left. split; auto. destruct (is_prim (type_of m)) eqn:P; auto.
    rewrite <- (is_prim_used sn bo) in P. apply prim_created in C; auto.
    destruct C as (op & b & Q & _). discriminate.
  - right. pose proof (created_prim _ _ _ C) as [Hp Ho]. subst p.
    rewrite <- (is_prim_used sn bo), <- (used_code sn bo). 
    set (u := used_type sn bo m) in *. split.
    + destruct u; auto; cbn [create] in C; try discriminate.
      * apply (create_elems orc k e u None) in C. destruct C as (eov & em & _ & _ & _ & H).
        destruct k.
        -- destruct (sequence_is_linear _ _); [destruct H as (o & _ & H)|]; discriminate.
        -- destruct H as [_ H]; discriminate.
        -- destruct H as [_ H]; discriminate.
      * apply bind_ok in C. destruct C as (s & C & H). inversion H; subst.
        apply create_structure_inv in C. destruct C as (attrs & _ & _ & _ & _ & [(_ & op & _ & Q)|(_ & Q)]); discriminate.
      * apply bind_ok in C. destruct C as (df & Cd & C).
        apply bind_ok in C. destruct C as (b & Cb & C). destruct members; [discriminate|].
        apply bind_ok in C. destruct C as (maps & G & C). discriminate.
    + unfold prim_op in Ho. destruct (prim_code u); auto.
      destruct (make_op _ _); discriminate.
Qed.

Lemma created_none orc d n b : create orc d None = Ok None -> create orc (set_name_bo n b d) None = Ok None.
Proof.
  destruct d; cbn [create set_name_bo]; auto; intros C; exfalso.
  - destruct false_value, true_value; try discriminate; apply bind_ok in C; destruct C as (o & _ & C); discriminate.
  - apply bind_ok in C; destruct C as (o & _ & C); discriminate.
  - apply bind_ok in C; destruct C as (o & _ & C); discriminate.
  - apply bind_ok in C; destruct C as (o & _ & C); discriminate.
  - discriminate.
  - discriminate.
  - cbn [apply_ov] in C.
    apply bind_ok in C. destruct C as (eov & E & C). apply bind_ok in C. destruct C as (em & Ce & C).
    apply bind_ok in C. destruct C as (u & X & C). destruct k.
    + destruct (sequence_is_linear _ _); [|discriminate]. apply bind_ok in C. destruct C as (o & _ & C). discriminate.
    + destruct (is_composite _); discriminate.
    + destruct (is_composite _); discriminate.
  - apply bind_ok in C. destruct C as (s & _ & C). discriminate.
  - discriminate.
  - discriminate.
  - discriminate.
  - apply bind_ok in C. destruct C as (df & Cd & C).
    apply bind_ok in C. destruct C as (b' & Cb & C). destruct members; [discriminate|].
    apply bind_ok in C. destruct C as (maps & G & C). discriminate.
Qed.

(** The data type of a member with the byte order of the structure. *)
Lemma linear_order orc fuel mt bo ms d cls ms' attrs op n bs off vals depth xs :
  create orc (DStructure mt bo ms) None = Ok (Some (MStructure true d cls ms' attrs op)) ->
  distinct_types (m_name mt) bo ms -> clear_names (m_name mt) (map dt_name ms) ->
  get_byte_size (DStructure mt bo ms) = Some n -> 0 <= off ->
  Forall2 (fun m x => create orc (set_name_bo (dt_name (type_of m)) bo (type_of m)) None = Ok x) ms xs ->
  forall v k, maps orc fuel (MStructure true d cls ms' attrs op) bs off vals depth v k <->
     exists rs, laid orc fuel cls vals bs depth ms xs off rs /\
       v = partly cls (map dt_name ms) rs /\ k = total rs.
Proof.
  intros C DT CN S O X.
  pose proof (structure_own_maps _ _ _ _ _ _ _ _ _ _ C DT) as F.
  assert (R : Forall2 (member_reads orc (order_on (o_host orc) bo)) ms xs).
  { eapply Forall2_weaken; [|exact X]. cbn. intros m x E P.
    assert (P' := P). rewrite <- (is_prim_recast (dt_name (type_of m)) bo) in P'.
    destruct (prim_created orc _ x P' E) as (op' & b & -> & _). eexists. split; [reflexivity|].
    apply reads_recast; auto. }
  eapply linear_general; eauto.
  intros i m a x Hm Ha D Hx.
  assert (Cm : create orc (used_type (m_name mt) bo m) None = Ok (snd a)).
  { clear - F Hm Ha. revert i Hm Ha. induction F as [|m0 a0 l l' (_ & Q) F IH]; intros [|i] Hm Ha; try discriminate; cbn in *.
    - congruence.
    - eauto. }
  assert (Cx : create orc (set_name_bo (dt_name (type_of m)) bo (type_of m)) None = Ok x).
  { clear - X Hm Hx. revert i Hm Hx. induction X as [|m0 a0 l l' Q F IH]; intros [|i] Hm Hx; try discriminate; cbn in *.
    - congruence.
    - eauto. }
  destruct D as (N & D). split; auto.
  destruct (dead_not_prim orc _ _ _ _ Cm (conj N D)) as [[E P]|[P PC]].
  - rewrite E in Cm. left.
    destruct (used_cases (m_name mt) bo m) as [U|[n' U]]; rewrite U in Cm.
    + apply (created_none _ _ (dt_name (type_of m)) bo) in Cm. congruence.
    + apply (created_none _ _ (dt_name (type_of m)) bo) in Cm. rewrite set_name_bo_twice in Cm. congruence.
  - rewrite <- (is_prim_recast (dt_name (type_of m)) bo) in P.
    destruct (prim_created orc _ x P Cx) as (op' & b & -> & _ & Ho). right.
    unfold prim_op in Ho. rewrite prim_code_ov, PC in Ho. inversion Ho; subst. eauto.
Qed.

(** The own maps of the members. *)
Lemma linear_members orc fuel mt bo ms d cls ms' attrs op n bs off vals depth :
  create orc (DStructure mt bo ms) None = Ok (Some (MStructure true d cls ms' attrs op)) ->
  distinct_types (m_name mt) bo ms -> clear_names (m_name mt) (map dt_name ms) ->
  get_byte_size (DStructure mt bo ms) = Some n -> 0 <= off ->
  (forall m b, In m ms -> dt_byte_order (type_of m) = Some b ->
     b = BONative \/ order_on (o_host orc) b = order_on (o_host orc) bo) ->
  cls = m_name mt /\ map fst attrs = map dt_name ms /\
  Forall2 (fun m x => create orc (used_type (m_name mt) bo m) None = Ok x) ms (map snd attrs) /\
  forall v k, maps orc fuel (MStructure true d cls ms' attrs op) bs off vals depth v k <->
     exists rs, laid orc fuel cls vals bs depth ms (map snd attrs) off rs /\
       v = partly cls (map dt_name ms) rs /\ k = total rs.
Proof.
  intros C DT CN S O B.
  pose proof (structure_own_maps _ _ _ _ _ _ _ _ _ _ C DT) as F.
  assert (SH := created_shape _ _ _ _ _ _ _ _ _ _ _ C).
  destruct SH as (Hc & _ & _ & _ & _ & A & _). cbn in Hc.
  split; auto. split; auto. split.
  { clear - F. induction F as [|m a l l' (_ & Q) F IH]; cbn; constructor; auto. }
  eapply linear_general; eauto.
  - clear - F B. revert B. induction F as [|m a l l' (_ & Q) F IH]; intros B; cbn; constructor.
    + intros P. assert (P' := P). rewrite <- (is_prim_used (m_name mt) bo) in P'.
      destruct (prim_created _ _ _ P' Q) as (o & b' & E & _ & _). rewrite E. eexists. split; [reflexivity|].
      assert (exists b, dt_byte_order (type_of m) = Some b) as (b & Hb)
        by (destruct (type_of m); try discriminate; cbn; eauto).
      eapply reads_own; eauto.
      * rewrite E in Q. exact Q.
      * apply (B m b); auto. now left.
    + apply IH. intros m' b I. apply B. now right.
  - intros i m a x Hm Ha D Hx. rewrite nth_error_map, Ha in Hx. cbn in Hx. inversion Hx; subst. exact D.
Qed.

Lemma getattr_partly cls names (rs : list reading) : forall i name r,
  NoDup names -> nth_error names i = Some name -> nth_error rs i = Some r ->
  py_getattr (partly cls names rs) name = value_of r.
Proof.
  intros i name r. unfold partly. cbn [py_getattr].
  remember (repeat VNone (List.length names - List.length rs)) as t. clear Heqt.
  revert i rs. induction names as [|a names IH]; intros i rs N H R.
  - destruct i; discriminate.
  - inversion N; subst. destruct rs as [|r0 rs]; [destruct i; discriminate|].
    cbn [map app combine dict_get]. destruct i as [|i]; cbn in H, R.
    + inversion H; inversion R; subst. now rewrite String.eqb_refl.
    + destruct (String.eqb_spec name a).
      * subst. exfalso. apply nth_error_In in H. contradiction.
      * eapply IH; eauto.
Qed.

(** Maps that read as the fast path does. *)
Definition recast (orc : oracle) (bo : byte_order) (m : dtype) : option dmap :=
  if is_prim (type_of m) then
    match create orc (set_name_bo (dt_name (type_of m)) bo (type_of m)) None with Ok x => x | _ => None end
  else None.

Lemma prim_op_ok orc d b : exists o, prim_op orc d b = Ok o.
Proof. unfold prim_op. destruct (prim_code d); eauto. rewrite make_op1. cbn. eauto. Qed.

Lemma prim_recreate orc d n b x : is_prim d = true -> create orc d None = Ok x ->
  exists x', create orc (set_name_bo n b d) None = Ok x'.
Proof.
  intros P C. destruct d; try discriminate; cbn [create set_name_bo] in *.
  - destruct false_value, true_value; try discriminate;
      match goal with |- context [prim_op orc ?d ?b] => destruct (prim_op_ok orc d b) as (o' & ->) end; cbn; eauto.
  - match goal with |- context [prim_op orc ?d ?b] => destruct (prim_op_ok orc d b) as (o' & ->) end; cbn; eauto.
  - match goal with |- context [prim_op orc ?d ?b] => destruct (prim_op_ok orc d b) as (o' & ->) end; cbn; eauto.
  - match goal with |- context [prim_op orc ?d ?b] => destruct (prim_op_ok orc d b) as (o' & ->) end; cbn; eauto.
Qed.

Lemma recast_reads orc sn bo (ms : list dtype) (attrs : list (string * option dmap)) :
  Forall2 (fun m a => fst a = dt_name m /\ create orc (used_type sn bo m) None = Ok (snd a)) ms attrs ->
  Forall2 (member_reads orc (order_on (o_host orc) bo)) ms (map (recast orc bo) ms).
Proof.
  intros F. induction F as [|m a ms attrs (_ & C) F IH]; cbn; constructor; auto.
  intros P. unfold recast. rewrite P.
  assert (P' := P). rewrite <- (is_prim_recast (dt_name (type_of m)) bo) in P'.
  assert (X : exists x, create orc (set_name_bo (dt_name (type_of m)) bo (type_of m)) None = Ok x).
  { assert (P2 := P). rewrite <- (is_prim_used sn bo) in P2.
    destruct (prim_created _ _ _ P2 C) as (o & b & E & _).
    rewrite E in C.
    destruct (used_cases sn bo m) as [U|[n U]]; rewrite U in C.
    - eapply prim_recreate; eauto.
    - rewrite <- (set_name_bo_twice _ _ n bo (type_of m)). eapply prim_recreate; eauto. now rewrite is_prim_recast. }
  destruct X as (x & X). rewrite X.
  destruct (prim_created _ _ _ P' X) as (o & b & -> & _). eexists. split; [reflexivity|].
  eapply reads_recast; eauto.
Qed.

Lemma linear_recast orc fuel mt bo ms d cls ms' attrs op n bs off vals depth :
  create orc (DStructure mt bo ms) None = Ok (Some (MStructure true d cls ms' attrs op)) ->
  distinct_types (m_name mt) bo ms -> clear_names (m_name mt) (map dt_name ms) ->
  get_byte_size (DStructure mt bo ms) = Some n -> 0 <= off ->
  let m := MStructure true d cls ms' attrs op in
  (forall v k, maps orc fuel m bs off vals depth v k <->
     exists rs, laid orc fuel cls vals bs depth ms (map (recast orc bo) ms) off rs /\
       v = partly cls (map dt_name ms) rs /\ k = total rs) /\
  (forall v k, maps orc fuel m bs off vals depth v k -> k = n) /\
  (fails orc fuel m bs off vals depth ByteStreamTooSmallError <-> len bs - off < n) /\
  (forall e, fails orc fuel m bs off vals depth e -> e = MappingError \/ e = ByteStreamTooSmallError) /\
  fst (mapbs orc fuel m bs off (Some (ctx_new vals)) depth) <> OutOfFuel.
Proof.
  intros C DT CN S O.
  pose proof (structure_own_maps _ _ _ _ _ _ _ _ _ _ C DT) as F.
  eapply linear_general; eauto.
  - eapply recast_reads; eauto.
  - intros i m a x Hm Ha D Hx. rewrite nth_error_map, Hm in Hx. cbn in Hx. inversion Hx; subst.
    assert (Cm : create orc (used_type (m_name mt) bo m) None = Ok (snd a)).
    { clear - F Hm Ha. revert i Hm Ha. induction F as [|m0 a0 l l' (_ & Q) F IH]; intros [|i] Hm Ha; try discriminate; cbn in *.
      - congruence.
      - eauto. }
    assert (D' := D). destruct D as (N & _). split; auto.
    destruct (dead_not_prim orc _ _ _ _ Cm D') as [[E P]|[P PC]]; unfold recast; rewrite P; auto.
    destruct (create orc (set_name_bo _ _ _) None) as [x| |] eqn:Cx; auto.
    rewrite <- (is_prim_recast (dt_name (type_of m)) bo) in P.
    destruct (prim_created orc _ x P Cx) as (op' & b & -> & _ & Ho). right.
    unfold prim_op in Ho. rewrite prim_code_ov, PC in Ho. inversion Ho; subst. eauto.
Qed.

(** ** Supported values *)

Lemma supported_values orc fuel mt bo ms lin d cls ms' attrs op bs off vals depth v n :
  extensional orc ->
  create orc (DStructure mt bo ms) None = Ok (Some (MStructure lin d cls ms' attrs op)) ->
  distinct_types (m_name mt) bo ms -> 0 <= off ->
  maps orc fuel (MStructure lin d cls ms' attrs op) bs off vals depth v n ->
  forall mem, In mem ms ->
    allowed mem (py_getattr v (dt_name mem)) \/
    (py_getattr v (dt_name mem) = VNone /\ truthy_str (member_cond mem) <> None).
Proof.
  intros EX C DT O M mem I.
  assert (SH := created_shape _ _ _ _ _ _ _ _ _ _ _ C).
  destruct SH as (HC & -> & -> & _ & ND & A & L & _).
  assert (CN : clear_names cls (map dt_name ms)) by (rewrite <- A; eapply maps_clear; exact M).
  assert (X : exists xs rs, List.length xs = List.length ms /\
    laid orc fuel cls vals bs depth ms xs off rs /\ v = partly cls (map dt_name ms) rs).
  { destruct lin.
    - destruct (get_byte_size (DStructure mt bo ms)) as [k|] eqn:S.
      2:{ destruct M as (c & M & _). cbn [mapbs] in M. unfold map_struct_linear in M. cbn [apply_ov] in M. rewrite S in M. discriminate. }
      cbn [ov_name] in HC. rewrite HC in CN. eapply linear_recast in C; eauto. destruct C as [C _]. apply C in M.
      destruct M as (rs & R & V & _). exists (map (recast orc bo) ms), rs. rewrite map_length. auto.
    - assert (D : depth <= 10).
      { destruct (Z.le_gt_cases depth 10); auto.
        destruct M as (c & M & _). rewrite depth_bound in M by (auto; lia). discriminate. }
      eapply structure_members in C; eauto. destruct C as (_ & _ & C). apply C in M.
      destruct M as (rs & R & V & _). exists (map snd attrs), rs. rewrite map_length. auto. }
  destruct X as (xs & rs & LX & (LR & R) & ->).
  apply In_nth_error in I. destruct I as [i I].
  assert (LI : (i < List.length ms)%nat) by (apply nth_error_Some; congruence).
  destruct (nth_error xs i) as [x|] eqn:Hx; [|apply nth_error_None in Hx; lia].
  destruct (nth_error rs i) as [r|] eqn:Hr; [|apply nth_error_None in Hr; lia].
  specialize (R i mem x r I Hx Hr). cbn zeta in R.
  rewrite (getattr_partly cls (map dt_name ms) rs i (dt_name mem) r ND); auto.
  2:{ rewrite nth_error_map, I. reflexivity. }
  destruct r as [[w k]|]; cbn [value_of].
  - left. tauto.
  - right. split; auto. unfold condition_is in R. destruct (truthy_str (member_cond mem)); congruence.
Qed.

Lemma unsupported_composite orc fuel mt bo ms ov d cls ms' attrs op bs off vals depth :
  extensional orc ->
  create orc (DStructure mt bo ms) ov = Ok (Some (MStructure false d cls ms' attrs op)) ->
  clear_names cls (map dt_name ms) -> depth <= 10 ->
  forall before mem name x after s off' v n,
  combine ms attrs = before ++ (mem, (name, Some x)) :: after ->
  fields orc fuel cls vals bs depth before (blank cls attrs) off s off' ->
  condition_is orc mem (scope cls s vals) true ->
  maps orc fuel x bs off' (scope cls s vals) (depth + 1) v n ->
  ~ allowed mem v ->
  fails orc fuel (MStructure false d cls ms' attrs op) bs off vals depth MappingError.
Proof.
  intros E C CN D before mem name x after s off' v n Hs F B M U.
  destruct (created_composite _ _ _ _ _ _ _ _ _ _ C) as (Hc & -> & Ha & N & ND & L).
  rewrite <- Ha in CN.
  destruct (structure_layout orc fuel d cls ms attrs op bs off vals depth E L N CN D) as (_ & _ & H3 & _).
  apply H3. exists before, mem, name, (Some x), after, s, off'. split; auto. split; auto.
  right. split; auto. right. exists x. split; auto. right. eauto.
Qed.

Lemma laid_fields orc fuel cls vals bs depth ms xs off rs :
  laid orc fuel cls vals bs depth ms xs off rs -> List.length xs = List.length ms ->
  NoDup (map dt_name ms) ->
  fields orc fuel cls vals bs depth (combine ms (combine (map dt_name ms) xs))
    (partly cls (map dt_name ms) []) off (partly cls (map dt_name ms) rs) (off + total rs).
Proof.
  intros R L ND.
  assert (A1 : map fst (combine (map dt_name ms) xs) = map dt_name ms).
  { clear - L. revert xs L. induction ms as [|m ms IH]; intros [|x xs] L; cbn in *; try discriminate; auto.
    f_equal. apply IH. lia. }
  assert (A2 : map snd (combine (map dt_name ms) xs) = xs).
  { clear - L. revert xs L. induction ms as [|m ms IH]; intros [|x xs] L; cbn in *; try discriminate; auto.
    f_equal. apply IH. lia. }
  apply (right_fields _ _ _ _ _ _ _ ND ms [] []); auto. rewrite A2. exact R.
Qed.

Lemma unsupported_linear orc fuel mt bo ms d cls ms' attrs op n bs off vals depth xs :
  extensional orc ->
  create orc (DStructure mt bo ms) None = Ok (Some (MStructure true d cls ms' attrs op)) ->
  distinct_types (m_name mt) bo ms -> clear_names (m_name mt) (map dt_name ms) ->
  get_byte_size (DStructure mt bo ms) = Some n -> 0 <= off ->
  Forall2 (fun m x => create orc (set_name_bo (dt_name (type_of m)) bo (type_of m)) None = Ok x) ms xs ->
  forall before mem name x after s off' v k,
  combine ms (combine (map dt_name ms) xs) = before ++ (mem, (name, Some x)) :: after ->
  fields orc fuel cls vals bs depth before (blank cls attrs) off s off' ->
  maps orc fuel x bs off' (scope cls s vals) (depth + 1) v k ->
  ~ allowed mem v ->
  fails orc fuel (MStructure true d cls ms' attrs op) bs off vals depth
    (if len bs - off <? n then ByteStreamTooSmallError else MappingError).
Proof.
  intros EX C DT CN S O X before mem name x after s off' v k Hs F M U.
  assert (SH := created_shape _ _ _ _ _ _ _ _ _ _ _ C).
  destruct SH as (_ & -> & _ & _ & ND & A & L & _ & CL & _).
  pose proof (linear_order _ fuel _ _ _ _ _ _ _ _ _ bs off vals depth _ C DT CN S O X) as R.
  destruct (linear_recast _ fuel _ _ _ _ _ _ _ _ _ bs off vals depth C DT CN S O) as (_ & _ & T & K & W).
  assert (NM : forall w j, ~ maps orc fuel (MStructure true d cls ms attrs op) bs off vals depth w j).
  { intros w j Q. apply R in Q. destruct Q as (rs & Q & _ & _).
    apply laid_fields in Q; auto; [|symmetry; eapply Forall2_len; eauto].
    rewrite blank_partly, A in F. rewrite Hs in Q.
    pose proof (fields_prefix_det _ _ _ _ _ _ _ _ _ _ _ _ _ _ F Q) as G.
    inversion G; subst.
    - match goal with H1 : maps _ _ x _ _ _ _ ?a ?b, H2 : allowed mem ?a |- _ =>
        destruct (maps_det _ _ _ _ _ _ _ _ _ _ _ M H1) as [-> _]; contradiction end.
    - assert (truthy_str (member_cond mem) = None).
      { assert (I : In mem ms).
        { assert (I : In (mem, (name, Some x)) (combine ms (combine (map dt_name ms) xs))).
          { rewrite Hs. apply in_app_iff. right. now left. }
          eapply in_combine_l; eauto. }
        clear - CL I. revert bo CL. induction ms as [|m ms IH]; intros b CL; [contradiction|].
        cbn [check_linear] in CL. destruct (is_composite m || is_padding m) eqn:E; [discriminate|].
        destruct I as [->|I].
        - apply orb_false_iff in E. destruct E as [E _]. destruct mem; auto. cbn in *.
          destruct (truthy_str condition); auto. discriminate.
        - destruct (dt_byte_order m); [|discriminate].
          match type of CL with (if ?c then _ else _) = _ => destruct c; [discriminate|] end.
          eapply IH; eauto. }
      eapply no_cond_false; eauto. }
  destruct (mapbs orc fuel (MStructure true d cls ms attrs op) bs off (Some (ctx_new vals)) depth) as [[w|e|] c'] eqn:EQ.
  - exfalso. destruct (maps_ok orc fuel (MStructure true d cls ms attrs op) bs off vals depth w EX) as [j J].
    { now rewrite EQ. } eapply NM; eauto.
  - assert (FE : fails orc fuel (MStructure true d cls ms attrs op) bs off vals depth e) by (unfold fails; now rewrite EQ).
    destruct (K _ FE) as [-> | ->].
    + destruct (Z.ltb_spec (len bs - off) n) as [Q|Q]; auto.
      apply T in Q. unfold fails in *. congruence.
    + destruct (Z.ltb_spec (len bs - off) n) as [Q|Q]; auto.
      apply T in FE. lia.
  - cbn in W. congruence.
Qed.
