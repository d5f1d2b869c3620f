(** Definitions in the other byte order. *)
From Coq Require Import String Ascii List ZArith Bool Lia.
From Verif Require Import Base Ieee PyVal PyStruct DataTypes ClassFactory DataMaps.
From Verif Require Import BytesProofs SpecPrim PrimProofs SpecMap SpecCreate SpecReads SpecRound SpecFold SpecShort SpecWrites SpecFits SpecTurn
  CreateProofs StreamProofs SteadyProofs FoldProofs ReadsProofs FitProofs WritesProofs EditProofs.
From Verif Require SpecMake MakeProofs SpecContainers.
Import ListNotations.
Open Scope Z_scope.
#[local] Arguments Z.mul : simpl never.
#[local] Arguments Z.add : simpl never.
#[local] Arguments Z.div : simpl never.
#[local] Arguments Z.pow : simpl never.

(** *** What does not depend on byte orders *)

Lemma order_twice bo : turned_order (turned_order bo) = bo.
Proof. now destruct bo. Qed.

Lemma order_inj a b : turned_order a = turned_order b -> a = b.
Proof. destruct a, b; cbn; congruence. Qed.

Lemma fixed_twice f : turned_fixed (turned_fixed f) = f.
Proof. destruct f as [mt bo s u]. unfold turned_fixed. cbn. now rewrite order_twice. Qed.

Lemma map_twice l : Forall (fun d => turned (turned d) = d) l -> map turned (map turned l) = l.
Proof. induction 1 as [|x l H _ IH]; cbn; congruence. Qed.

Lemma turned_twice d : turned (turned d) = d.
Proof.
  induction d using dtype_rect'; cbn [turned]; rewrite ?fixed_twice, ?order_twice, ?IHd; try reflexivity.
  - destruct e. cbn. now rewrite order_twice.
  - now rewrite map_twice.
  - now rewrite map_twice.
  - destruct bo; cbn; now rewrite ?order_twice.
  - now rewrite map_twice.
  - rewrite map_twice by assumption. destruct df as [x|]; cbn; auto.
    match goal with H : on_def _ _ |- _ => cbn in H; now rewrite H end.
Qed.

Lemma turned_inj a b : turned a = turned b -> a = b.
Proof. intros E. rewrite <- (turned_twice a), <- (turned_twice b). now rewrite E. Qed.

Lemma name_turned d : dt_name (turned d) = dt_name d.
Proof. destruct d; reflexivity. Qed.

Lemma names_turned l : map dt_name (map turned l) = map dt_name l.
Proof. rewrite map_map. apply map_ext. exact name_turned. Qed.

Lemma order_turned d : dt_byte_order (turned d) = option_map turned_order (dt_byte_order d).
Proof. destruct d; reflexivity. Qed.

Lemma composite_turned d : is_composite (turned d) = is_composite d.
Proof. induction d; cbn; auto. now rewrite IHd. Qed.

Lemma padding_turned d : is_padding (turned d) = is_padding d.
Proof. destruct d; reflexivity. Qed.

Lemma align_turned d : pad_align (turned d) = pad_align d.
Proof. destruct d; reflexivity. Qed.

Lemma size_turned d : get_byte_size (turned d) = get_byte_size d.
Proof.
  induction d using dtype_rect'; cbn; auto.
  - rewrite IHd. reflexivity.
  - assert (G : forall acc, (fix go (l : list dtype) (acc : Z) : option Z :=
             match l with [] => Some acc | m :: r => match struct_size_step acc (pad_align m) (get_byte_size m) with Some a => go r a | None => None end end) (map turned ms) acc
        = (fix go (l : list dtype) (acc : Z) : option Z :=
             match l with [] => Some acc | m :: r => match struct_size_step acc (pad_align m) (get_byte_size m) with Some a => go r a | None => None end end) ms acc).
    { induction H as [|x l Hx Hl IH]; intros acc; cbn [map]; auto. rewrite align_turned, Hx. destruct (struct_size_step _ _ _); auto. }
    destruct ms; [reflexivity|]. exact (G 0).
  - assert (G : forall acc, (fix go (l : list dtype) (acc : Z) : option Z :=
             match l with [] => Some acc | m :: r => match get_byte_size m with Some s => go r (Z.max acc s) | None => None end end) (map turned ms) acc
        = (fix go (l : list dtype) (acc : Z) : option Z :=
             match l with [] => Some acc | m :: r => match get_byte_size m with Some s => go r (Z.max acc s) | None => None end end) ms acc).
    { induction H as [|x l Hx Hl IH]; intros acc; cbn [map]; auto. rewrite Hx. destruct (get_byte_size x); auto. }
    destruct ms; [reflexivity|]. exact (G 0).
  - now rewrite IHd.
Qed.

Lemma levels_list l : Forall (fun d => levels (turned d) = levels d) l ->
  fold_right (fun m a => Z.max (levels m) a) 0 (map turned l) = fold_right (fun m a => Z.max (levels m) a) 0 l.
Proof. induction 1 as [|x l H _ IH]; cbn; congruence. Qed.

Lemma levels_turned d : levels (turned d) = levels d.
Proof.
  induction d using dtype_rect'; cbn [turned levels]; auto.
  - destruct k; auto. now rewrite IHd.
  - now rewrite levels_list.
  - rewrite levels_list by assumption. rewrite IHd. destruct df as [x|]; cbn; auto.
    match goal with H : on_def _ _ |- _ => cbn in H; now rewrite H end.
Qed.

Lemma type_turned m : type_of (turned m) = turned (type_of m).
Proof. destruct m; reflexivity. Qed.

Lemma copy_turned n b d : turned (set_name_bo n b d) = set_name_bo n (turned_order b) (turned d).
Proof. destruct d; reflexivity. Qed.

Lemma used_turned c bo m : used_type c (turned_order bo) (turned m) = turned (used_type c bo m).
Proof.
  unfold used_type. rewrite !type_turned, order_turned, name_turned.
  destruct bo; cbn; auto; destruct (dt_byte_order (type_of m)) as [[]|]; cbn; auto; now rewrite copy_turned.
Qed.

Definition turned_elems (e : elems) : elems :=
  mkElems (e_meta e) (turned_order (e_bo e)) (e_data_size e) (e_data_size_expr e) (e_data_type e)
    (e_terminator e) (e_number e) (e_number_expr e) (e_encoding e).

Lemma element_turned e d : element_type (turned_elems e) (turned d) = turned (element_type e d).
Proof.
  unfold element_type. rewrite order_turned, composite_turned, name_turned. cbn [e_bo e_meta turned_elems].
  destruct (e_bo e); cbn; auto; destruct (dt_byte_order d) as [[]|]; cbn; auto; destruct (is_composite d); auto; now rewrite copy_turned.
Qed.

Lemma one_go_turned last ms : SpecMake.one_go last ms -> SpecMake.one_go (turned_order last) (map turned ms).
Proof.
  revert last. induction ms as [|m ms IH]; intros last; cbn [map SpecMake.one_go]; auto.
  intros (A & B & C). rewrite composite_turned, padding_turned, order_turned. repeat split; auto.
  - destruct (dt_byte_order m) as [x|]; [|discriminate]. cbn in H. injection H as <-.
    destruct (C x eq_refl) as [[-> |[-> | ->]] _]; auto.
  - destruct (dt_byte_order m) as [x|]; [|discriminate]. cbn in H. injection H as <-. apply IH. now apply C.
Qed.

Lemma at_once_turned d : at_once d -> at_once (turned d).
Proof.
  destruct d; cbn; auto. - destruct k; cbn; auto. now rewrite composite_turned.
  - apply one_go_turned.
Qed.

Lemma at_once_back d : at_once (turned d) -> at_once d.
Proof. intros H. apply at_once_turned in H. now rewrite turned_twice in H. Qed.

Lemma everywhere_turned (P : dtype -> Prop) d :
  (forall x, P x -> P (turned x)) -> everywhere P d -> everywhere P (turned d).
Proof.
  intros PT.
  assert (L : forall l, Forall (fun d => everywhere P d -> everywhere P (turned d)) l -> Forall (everywhere P) l -> Forall (everywhere P) (map turned l)).
  { induction 1 as [|x l H _ IH]; cbn; intros F; inversion F; subst; constructor; auto. }
  induction d using dtype_rect'; intros E; cbn [everywhere] in E; cbn [turned everywhere]; rewrite ?everywhere_list in *; destruct E as [E1 E2]; (split; [exact (PT _ E1)|]); auto.
  - destruct E2. split; auto.
  - destruct E2 as (A & B & C). repeat split; auto. destruct df as [x|]; cbn in *; auto.
Qed.

Lemma unsized_turned e el : unsized_stream (turned_elems e) (turned el) <-> unsized_stream e el.
Proof. unfold unsized_stream. now rewrite size_turned. Qed.

Lemma stream_turned orc e el vals n : stream_size orc (turned_elems e) (turned el) vals n <-> stream_size orc e el vals n.
Proof. unfold stream_size. now rewrite size_turned. Qed.

Lemma well_named_turned d : well_named d -> well_named (turned d).
Proof.
  destruct d; cbn; auto. intros [A B]. split.
  - intros m1 m2 I1 I2. apply in_map_iff in I1, I2. destruct I1 as (x & <- & Ix), I2 as (y & <- & Iy).
    rewrite !type_turned, !name_turned. intros E. now rewrite (A x y Ix Iy E).
  - intros m0 r I0. apply in_map_iff in I0. destruct I0 as (x & <- & Ix). rewrite type_turned, name_turned. now apply B.
Qed.

Lemma sound_turned d : sound d -> sound (turned d).
Proof.
  intros [A W]. split; [|now apply well_named_turned]. clear W. destruct d; cbn in *; auto.
  rewrite size_turned. exact A.
Qed.

Lemma orderly_turned d : orderly d -> orderly (turned d).
Proof.
  destruct d; cbn; auto.
  - destruct k; auto. rewrite size_turned. intros [A B]. split; auto. destruct d; auto.
  - rewrite names_turned. intros (A & B & C & D). refine (conj A (conj _ (conj _ _))).
    + intros x r I0. apply in_map_iff in I0. destruct I0 as (y & <- & Iy). rewrite name_turned. now apply B.
    + intros x mt1 ms1 N I0 T. apply in_map_iff in I0. destruct I0 as (y & <- & Iy). rewrite type_turned in T.
      assert (E : exists ms0, type_of y = DStructure mt1 BONative ms0 /\ ms1 = map turned ms0).
      { destruct (type_of y); try discriminate T. cbn in T. injection T as <- Eb <-. destruct bo0; try discriminate Eb. eauto. }
      destruct E as (ms0 & E & ->). destruct (C y mt1 ms0) as [C1 C2]; auto. { intros ->. now apply N. }
      split; auto. intros w mt2 ms2 Iw. apply in_map_iff in Iw. destruct Iw as (z & <- & Iz). rewrite type_turned. intros Q.
      destruct (type_of z) eqn:Ez; try discriminate Q. cbn in Q. injection Q as <- Eb <-. destruct bo0; try discriminate Eb.
      now apply (C2 z m0 members0 Iz).
    + destruct D as [(x & Ix & D)|D].
      * left. exists (turned x). split; [now apply in_map|]. now rewrite composite_turned, padding_turned.
      * right. intros x Ix. apply in_map_iff in Ix. destruct Ix as (y & <- & Iy). rewrite type_turned, padding_turned, order_turned.
        destruct (D y Iy) as [D1 D2]. split; auto. intros b. destruct (dt_byte_order (type_of y)) as [o|]; [|discriminate].
        cbn. intros Q. injection Q as <-. destruct (D2 o eq_refl) as [-> | ->]; auto.
  - intros A x Ix. apply in_map_iff in Ix. destruct Ix as (y & <- & Iy). destruct (A y Iy) as (mt & b & l & -> & N).
    cbn. eexists _, _, _. split; [reflexivity|]. now rewrite names_turned.
Qed.

Lemma regular_turned d : everywhere regular d -> everywhere regular (turned d).
Proof. apply everywhere_turned. intros x [A B]. split; [now apply sound_turned|now apply orderly_turned]. Qed.

Lemma number_turned d : number_type d -> number_type (turned d).
Proof. destruct d; auto. Qed.

Lemma folds_back_turned orc d : folds_back orc d -> folds_back orc (turned d).
Proof.
  induction d using dtype_rect'; cbn [turned folds_back]; auto.
  - destruct f as [mt [] s u]; cbn; congruence.
  - destruct k; auto.
    + intros (A & B & C & D). refine (conj (number_turned _ A) (conj B (conj C _))). cbn [e_data_size]. rewrite size_turned. exact D.
    + fold (turned_elems e). now rewrite unsized_turned.
  - induction H as [|x l Hx _ IH]; cbn [map]; auto. intros [A B]. split; [exact (Hx A)|exact (IH B)].
Qed.

Lemma no_single_turned d : everywhere no_single d -> everywhere no_single (turned d).
Proof. apply everywhere_turned. intros []; auto. Qed.

Lemma sizes_agree_turned orc d : forall vals fvals v, sizes_agree orc d vals fvals v -> sizes_agree orc (turned d) vals fvals v.
Proof.
  induction d using dtype_rect'; cbn [turned sizes_agree]; auto; intros vals fvals v0.
  - fold (turned_elems e). destruct k; auto; intros A n; rewrite !stream_turned; apply A.
  - generalize 0%nat. induction H as [|x l Hx _ IH]; intros i; cbn [map]; auto. rewrite name_turned. intros [A B].
    split; [|exact (IH _ B)]. intros N. apply Hx. now apply A.
Qed.

(** *** Writing *)

Scheme writes_ind' := Minimality for writes Sort Prop
  with writes_members_ind' := Minimality for writes_members Sort Prop.

(** The other way around unless there is no byte order. *)
Definition flipped (bo : byte_order) (b : bytes) : bytes := match bo with BONative => b | _ => rev b end.

Lemma flipped_len bo b : len (flipped bo b) = len b.
Proof. unfold len. destruct bo; cbn; now rewrite ?rev_length. Qed.

Lemma stored_flipped host bo b : stored_number (order_on host (turned_order bo)) (flipped bo b) = stored_number (order_on host bo) b.
Proof. destruct bo; cbn; now rewrite ?rev_involutive. Qed.

Lemma integer_flipped s host bo b : stored_integer s (order_on host (turned_order bo)) (flipped bo b) = stored_integer s (order_on host bo) b.
Proof. unfold stored_integer. now rewrite stored_flipped, flipped_len. Qed.

Lemma stores_turned host bo d v b : stores (order_on host bo) d v b -> stores (order_on host (turned_order bo)) (turned d) v (flipped bo b).
Proof.
  destruct 1; cbn [turned].
  - apply (StoreInteger _ _ _ n); auto; now rewrite ?flipped_len, ?integer_flipped.
  - apply (StoreBoolean _ _ _ _ n); auto; now rewrite ?flipped_len, ?stored_flipped.
  - apply (StoreCharacter _ _ n); auto; now rewrite ?flipped_len, ?integer_flipped.
  - apply StoreDouble; auto; now rewrite ?flipped_len, ?stored_flipped.
  - apply (StoreSingle _ _ _ w); auto; now rewrite ?flipped_len, ?stored_flipped.
Qed.

Lemma stores_number en d v b : stores en d v b -> exists f, number_part d = Some f /\ f_size f = Some (len b) /\ v <> VNone.
Proof.
  destruct 1; (eexists; split; [reflexivity|]); (split; [congruence|]); intros ->; try discriminate.
  - destruct H1 as (z & Q & _). discriminate Q.
  - destruct H1 as (z & Q & _). discriminate Q.
Qed.

(** The members of a structure that is written at once do not have another byte
    order. *)
Definition in_order (d : dtype) : Prop :=
  match d with
  | DStructure mt bo ms => 
      (exists m, In m ms /\ (is_composite m = true \/ is_padding m = true)) \/
      (forall m, In m ms -> forall b, dt_byte_order (type_of m) = Some b -> b = BONative \/ b = bo)
  | _ => True
  end.

Lemma orderly_in_order d : orderly d -> in_order d.
Proof. destruct d; cbn; auto. intros (_ & _ & _ & [D|D]); [now left|right]. intros m0 I0. now apply D. Qed.

Lemma in_order_used cls bo m : everywhere in_order m -> everywhere in_order (used_type cls bo m).
Proof.
  intros E. assert (T : everywhere in_order (type_of m)).
  { destruct m; auto. cbn in E. cbn. tauto. }
  unfold used_type. destruct bo; auto; destruct (dt_byte_order (type_of m)) as [[]|] eqn:B; auto; clear E; destruct (type_of m); auto;
    cbn in B; injection B as ->; cbn in *; destruct T as [[T|T] T2]; (split; auto); right; intros x I0 b Q; left;
    destruct (T x I0 b Q); auto.
Qed.

Lemma at_once_members last ms m : SpecMake.one_go last ms ->
  Forall (fun m => exists b, dt_byte_order m = Some b) ms -> In m ms -> is_composite m = false /\ is_padding m = false.
Proof.
  revert last. induction ms as [|x ms IH]; intros last; cbn [SpecMake.one_go]; [easy|]. intros (A & B & C) F [-> |I0]; auto.
  inversion F as [|? ? [b Q] F2]; subst. destruct (C b Q) as [_ C2]. eauto.
Qed.

Lemma used_number cls bo m f : number_part (type_of m) = Some f -> f_bo f = BONative \/ f_bo f = bo ->
  exists f', number_part (used_type cls bo m) = Some f' /\ f_size f' = f_size f /\ f_bo f' = bo.
Proof.
  intros N B. assert (O : dt_byte_order (type_of m) = Some (f_bo f)) by (destruct (type_of m); cbn in N; try discriminate N; now injection N as ->).
  unfold used_type. rewrite O.
  assert (K : forall n, exists f', number_part (set_name_bo n bo (type_of m)) = Some f' /\ f_size f' = f_size f /\ f_bo f' = bo).
  { intros n. destruct (type_of m); cbn in N; try discriminate N; injection N as ->; cbn; eexists; (split; [reflexivity|]); auto. }
  assert (H : f_bo f = bo -> exists f', number_part (type_of m) = Some f' /\ f_size f' = f_size f /\ f_bo f' = bo) by eauto.
  destruct bo; [apply H; destruct B; auto| |]; destruct (f_bo f) eqn:E; auto; destruct B; try discriminate; auto.
Qed.

Lemma element_number e el f bo : number_part el = Some f -> dt_byte_order (element_type e el) = Some bo ->
  exists f', number_part (element_type e el) = Some f' /\ f_size f' = f_size f /\ f_bo f' = bo.
Proof.
  intros N. assert (Q : forall d, number_part d <> None -> forall bo, dt_byte_order d = Some bo -> exists f', number_part d = Some f' /\ f_bo f' = bo).
  { intros d H b E. destruct d; cbn in *; try easy; injection E as <-; eauto. }
  assert (K : number_part (element_type e el) <> None /\ forall f', number_part (element_type e el) = Some f' -> f_size f' = f_size f).
  { unfold element_type. destruct (e_bo e); [split; congruence| |]; destruct (dt_byte_order el) as [[]|]; try (split; congruence);
      destruct (is_composite el); try (split; congruence); destruct el; cbn in *; try discriminate N; injection N as ->;
      (split; [discriminate|]); intros f' Q'; injection Q' as <-; reflexivity. }
  intros O. destruct K as [K1 K2]. destruct (Q _ K1 _ O) as (f' & A & B). eauto.
Qed.

Lemma mirrored_numbers orc host bo e el l b :
  stores_all (order_on host bo) (map (fun _ => el) l) l b -> dt_byte_order (element_type e el) = Some bo ->
  exists b', stores_all (order_on host (turned_order bo)) (map (fun _ => turned el) l) l b' /\ mirrored_elements orc (element_type e el) b b'.
Proof.
  intros S O. revert b S. induction l as [|v l IH]; intros b S; inversion S; subst.
  - exists []. split; constructor.
  - destruct (IH _ H5) as (r' & A & B). exists (flipped bo b0 ++ r'). split; [constructor; auto using stores_turned|].
    destruct (stores_number _ _ _ _ H4) as (f & N & Z0 & _). destruct (element_number e el f bo N O) as (f' & N' & Z' & B').
    apply (MirrorElement orc _ v); auto. unfold flipped. rewrite <- B'. apply MirrorNumber; congruence.
Qed.

Lemma mirrored_at_once orc host cls bo v ms b :
  stores_all (order_on host bo) (map type_of ms) (map (fun m => py_getattr v (dt_name m)) ms) b ->
  (forall m, In m ms -> forall b, dt_byte_order (type_of m) = Some b -> b = BONative \/ b = bo) ->
  exists b', stores_all (order_on host (turned_order bo)) (map type_of (map turned ms)) (map (fun m => py_getattr v (dt_name m)) (map turned ms)) b' /\
    mirrored_members orc cls bo v ms b b'.
Proof.
  revert b. induction ms as [|m ms IH]; intros b S H; inversion S; subst.
  - exists []. split; constructor.
  - match goal with S1 : stores _ _ _ _, S2 : stores_all _ (map type_of ms) _ _ |- _ => rename S1 into SV; rename S2 into SR end.
    destruct (IH _ SR) as (r' & A & B). { intros x Ix. apply H. now right. }
    exists (flipped bo b0 ++ r'). destruct (stores_number _ _ _ _ SV) as (f & N & Z0 & NN).
    split.
    + cbn [map]. rewrite type_turned, name_turned. constructor; auto using stores_turned.
    + assert (Q : f_bo f = BONative \/ f_bo f = bo).
      { apply (H m (or_introl eq_refl)). destruct (type_of m); cbn in N; try discriminate N; now injection N as ->. }
      destruct (used_number cls bo m f N Q) as (f' & N' & Z' & B').
      apply MirrorPresent; auto. unfold flipped. rewrite <- B' at 2. apply MirrorNumber; congruence.
Qed.

Lemma at_once_numbers en bo v ms b :
  stores_all en (map type_of ms) (map (fun m => py_getattr v (dt_name m)) ms) b -> SpecMake.one_go bo ms ->
  ~ exists m, In m ms /\ (is_composite m = true \/ is_padding m = true).
Proof.
  intros S O (m & I0 & K).
  assert (F : Forall (fun m => exists b, dt_byte_order m = Some b) ms).
  { clear -S. revert b S. induction ms as [|x ms IH]; intros b S; inversion S; subst; constructor; eauto.
    match goal with S1 : stores _ _ _ _ |- _ => destruct (stores_number _ _ _ _ S1) as (f & N & _) end. destruct x; cbn in N; try discriminate N; cbn; eauto. }
  destruct (at_once_members bo ms m O F I0) as [A B]. destruct K; congruence.
Qed.

Lemma swap_back (u b : bytes) : swap_fields u = Some b -> swap_fields b = Some u.
Proof.
  intros H. do 17 (destruct u as [|? u]; try discriminate H). cbn in H. injection H as <-. reflexivity.
Qed.

Lemma swap_some (u : bytes) : len u = 16 -> exists b, swap_fields u = Some b.
Proof.
  intros H. rewrite uuid_swap_spec; [eauto|]. unfold len in H. lia.
Qed.

Lemma stream_mirrored orc e el v b b' : mirrored orc (DElems KStream e el) v b b' -> b' = b.
Proof. intros M. inversion M; subst; auto. discriminate. Qed.

Lemma writes_turned orc d vals v b : writes orc d vals v b -> everywhere in_order d -> proper v ->
  exists b', writes orc (turned d) vals v b' /\ mirrored orc d v b b'.
Proof.
  apply (writes_ind' orc (fun d vals v b => everywhere in_order d -> proper v ->
      exists b', writes orc (turned d) vals v b' /\ mirrored orc d v b b')
    (fun cls bo v ms b => Forall (everywhere in_order) ms -> proper v ->
      exists b', writes_members orc cls (turned_order bo) v (map turned ms) b' /\ mirrored_members orc cls bo v ms b b')); clear d vals v b.
  - intros d bo vals v b N O S E P. exists (flipped bo b). split.
    + apply (WriteNumber orc _ (turned_order bo)); auto using number_turned, stores_turned. now rewrite order_turned, O.
    + destruct (stores_number _ _ _ _ S) as (f & Nf & Z0 & _). unfold flipped.
      replace bo with (f_bo f); [now constructor|]. destruct d; cbn in *; try easy; congruence.
  - intros f fv tv x z vals b V S E P. exists (flipped (f_bo f) b). split.
    + apply (WriteBoolean orc _ fv tv x z); auto. apply (stores_turned _ _ _ _ _ S).
    + destruct (stores_number _ _ _ _ S) as (f' & Nf & Z0 & _). cbn in Nf. injection Nf as <-. now constructor.
  - intros f z vals b S E P. exists (flipped (f_bo f) b). split.
    + apply WriteCharacter. apply (stores_turned _ _ _ _ _ S).
    + destruct (stores_number _ _ _ _ S) as (f' & Nf & Z0 & _). cbn in Nf. injection Nf as <-. now constructor.
  - intros f z vals b S E P. exists (flipped (f_bo f) b). split.
    + apply WriteCharacterByte. apply (stores_turned _ _ _ _ _ S).
    + destruct (stores_number _ _ _ _ S) as (f' & Nf & Z0 & _). cbn in Nf. injection Nf as <-. now constructor.
  - intros f u vals b H E P. cbn in P. destruct (f_bo f) eqn:B; [contradiction| |].
    + subst b. destruct (swap_some u P) as (b' & S). exists b'. split; [|now constructor]. cbn [turned]. constructor. cbn. now rewrite B.
    + exists u. split; [|constructor; now apply swap_back]. cbn [turned]. constructor. cbn. now rewrite B.
  - intros mt bo a vals b E P. exists b. split; [constructor|]. apply (MirrorBytes orc _ vals); [exact I|constructor].
  - intros e el bo l vals v b A N H O S E P.
    destruct (mirrored_numbers orc _ _ e _ _ _ S O) as (b' & S' & M). exists b'. split; [|now constructor].
    cbn [turned]. fold (turned_elems e). apply (WriteSequence orc _ _ (turned_order bo) l); auto.
    + exact (at_once_turned _ A).
    + destruct H as [H1 H2]. split; auto. rewrite size_turned. exact H2.
    + now rewrite element_turned, order_turned, O.
  - intros e el vals b U H E P. exists b. split; [|apply (MirrorBytes orc _ vals); [exact I|now constructor]].
    cbn [turned]. fold (turned_elems e). constructor; [now rewrite unsized_turned|now rewrite stream_turned].
  - intros e el t vals b U H E P. exists (b ++ t). split; [|apply (MirrorBytes orc _ vals); [exact I|now constructor]].
    cbn [turned]. fold (turned_elems e). constructor; [now rewrite unsized_turned|auto].
  - intros e el t vals b U H N E P. exists (b ++ t). split; [|apply (MirrorBytes orc _ vals); [exact I|now constructor]].
    cbn [turned]. fold (turned_elems e). constructor; [now rewrite unsized_turned|auto|auto].
  - intros e el s l vals b H W IH E P. destruct (IH (conj I (proj2 E)) I) as (b' & W' & M).
    apply stream_mirrored in M. subst b'. exists b. split; [|apply (MirrorBytes orc _ vals); [exact I|exact (WriteString orc e el s l vals b H W)]].
    exact (WriteString orc (turned_elems e) (turned el) s l vals b H W').
  - intros mt bo ms vals v b A S E P. cbn [everywhere in_order] in E. destruct E as [[E|E] _].
    + exfalso. exact (at_once_numbers _ _ _ _ _ S A E).
    + destruct (mirrored_at_once orc _ (m_name mt) _ _ _ _ S E) as (b' & S' & M). exists b'. split; [|now constructor].
      cbn [turned]. apply WriteStructureOnce; auto. exact (at_once_turned _ A).
  - intros mt bo ms vals v b A W IH E P. cbn [everywhere] in E. rewrite everywhere_list in E. destruct IH as (b' & W' & M); try tauto.
    exists b'. split; [|now constructor]. cbn [turned]. apply WriteStructure; auto. intros Q. apply A. now apply (at_once_back (DStructure mt bo ms)).
  - intros cls bo v E P. exists []. split; constructor.
  - intros cls bo v m ms b H W IH E P. inversion E; subst. destruct IH as (b' & W' & M); auto. exists b'. split; [|now constructor].
    cbn [map]. apply WriteAbsent; auto. rewrite used_turned, name_turned. destruct H as [H|H]; [now left|right].
    destruct (used_type cls bo m); auto.
  - intros cls bo v m ms b bs N W IH W2 IH2 E P. inversion E; subst. destruct IH as (b' & W' & M); auto using in_order_used, proper_getattr.
    destruct IH2 as (r' & W2' & M2); auto. exists (b' ++ r'). split; [|now constructor].
    cbn [map]. apply WritePresent; auto; rewrite ?used_turned, ?name_turned; auto.
Qed.

(** *** Folding *)

Lemma folded_turned orc d m m' v c b :
  extensional orc -> everywhere regular d -> create orc d None = Ok (Some m) -> create orc (turned d) None = Ok (Some m') ->
  proper v -> clean c -> fst (foldbs orc m v c) = Ok (VBytes b) ->
  exists b', fst (foldbs orc m' v c) = Ok (VBytes b') /\ mirrored orc d v b b'.
Proof.
  intros X E C C' P Cl F.
  assert (S : everywhere sound d) by (revert E; apply everywhere_weaken; intros x [A _]; exact A).
  assert (S' : everywhere sound (turned d)) by (apply everywhere_turned; auto using sound_turned).
  assert (O : everywhere in_order d) by (revert E; apply everywhere_weaken; intros x [_ A]; now apply orderly_in_order).
  apply (folding_writes orc d m v c b X S C P Cl) in F. destruct (writes_turned _ _ _ _ _ F O P) as (b' & W & M).
  exists b'. split; auto. now apply (folding_writes orc (turned d) m' v c b' X S' C' P Cl).
Qed.

(** *** Mapping *)

Lemma fits_turned orc d off vals v n : fits orc d off vals v n -> fits orc (turned d) off vals v n.
Proof.
  apply (fits_ind' orc (fun d off vals v n => fits orc (turned d) off vals v n)
    (fun d off rs => fits_elements orc (turned d) off rs)
    (fun cls bo names vals done ms off rs => fits_members orc cls (turned_order bo) names vals done (map turned ms) off rs));
    clear d off vals v n; intros; cbn [turned]; try fold (turned_elems e).
  - now constructor.
  - now constructor.
  - now apply (FitSingle orc _ s).
  - constructor; auto. cbn. destruct (f_bo f); auto; discriminate.
  - now constructor.
  - apply FitCounted; auto using number_turned. now rewrite element_turned.
  - apply (FitSized orc _ _ s b); auto using number_turned; [now rewrite size_turned|now rewrite element_turned].
  - apply FitStream; [now rewrite unsized_turned|now rewrite stream_turned].
  - apply (FitStreamTerminated orc _ _ t k); auto. now rewrite unsized_turned.
  - now apply (FitString orc _ _ l r).
  - rewrite <- names_turned. apply FitStructure. now rewrite names_turned.
  - constructor.
  - now constructor.
  - constructor.
  - cbn [map]. apply FitPresent; auto.
    + now destruct m.
    + now rewrite used_turned.
    + now destruct m.
  - cbn [map]. apply FitAbsent; auto. now destruct m.
Qed.

Lemma mapped_turned orc fuel d m m' bs off vals v n :
  extensional orc -> everywhere regular d -> folds_back orc d ->
  create orc d None = Ok (Some m) -> create orc (turned d) None = Ok (Some m') ->
  levels d <= 11 -> 0 <= off <= len bs -> maps orc fuel m bs off vals 0 v n ->
  everywhere no_single d \/ no_nan v ->
  forall c, clean c -> sizes_agree orc d vals (ctx_values c) v ->
  exists b, fst (foldbs orc m' v c) = Ok (VBytes b) /\ len b = n /\ mirrored orc d v (window bs off n) b /\
    forall pre post, len pre = off -> exists fuel', maps orc fuel' m' (pre ++ b ++ post) off vals 0 v n.
Proof.
  intros X E FB C C' LV Ho M Q c Cl AG.
  assert (F : fits orc d off vals v n) by (apply (fits_iff orc d m); auto; [lia|]; exists fuel, bs; split; [lia|auto]).
  assert (S : everywhere sound d) by (revert E; apply everywhere_weaken; intros x [A _]; exact A).
  assert (P : proper v).
  { assert (R : reads orc bs d off vals v n) by (apply (reading_maps orc d m bs off vals 0 v n X E C Ho); [lia|now exists fuel]).
    apply (reads_proper _ _ _ _ _ _ _ R); [lia|now apply sound_known]. }
  apply fits_turned in F.
  destruct (fits_folds orc (turned d) m' off vals v n) with (c := c) as (b & F1 & F2 & F3); auto using regular_turned, folds_back_turned, sizes_agree_turned.
  { now rewrite levels_turned. } { lia. } { destruct Q; auto using no_single_turned. }
  exists b. repeat split; auto.
  pose proof (map_then_fold orc fuel d m bs off vals 0 v n X S FB C (proj1 Ho) M Q c Cl AG) as FO.
  destruct (folded_turned orc d m m' v c _ X E C C' P Cl FO) as (b' & G & MI). replace b with b' by congruence. exact MI.
Qed.

(** *** Creation *)

Lemma shaped_turned d : SpecMake.shaped d -> SpecMake.shaped (turned d).
Proof.
  destruct d; cbn; auto; rewrite names_turned; auto. intros [A B]. split; auto. clear A.
  induction B as [|x l [b Q] _ IH]; cbn [map]; constructor; auto. exists (turned_order b). now rewrite order_turned, Q.
Qed.

Lemma has_map_turned d : SpecMake.has_map (turned d) <-> SpecMake.has_map d.
Proof. now destruct d. Qed.

Lemma unit_turned d : SpecMake.unit_size (turned d) = SpecMake.unit_size d.
Proof. now destruct d. Qed.

Lemma semantic_turned d : SpecMake.semantic (turned d) -> SpecMake.semantic d.
Proof. now destruct d. Qed.

Lemma describable_turned d : SpecContainers.describable d -> SpecContainers.describable (turned d).
Proof.
  destruct d as [| | | | | |k| | |mt bo c dt vs i| | | | |]; auto. destruct i as [| | | | | |k| | | | | | | |]; auto.
Qed.

Lemma lists_turned x d vs : SpecMake.identifies x d vs -> SpecMake.identifies x (turned d) vs.
Proof.
  intros (mt & bo & ms & m & bo' & c & ty & i & [-> | ->] & I0 & N);
    exists mt, (turned_order bo), (map turned ms), m, (turned_order bo'), c, ty, (turned i); (split; [cbn; auto|]);
    (split; [|exact N]); apply (in_map turned) in I0; exact I0.
Qed.

Lemma ordered_turned d : SpecMake.ordered d -> SpecMake.ordered (turned d).
Proof. intros [b Q]. exists (turned_order b). now rewrite order_turned, Q. Qed.

Lemma go_fits_turned ms : SpecMake.one_go_fits ms -> SpecMake.one_go_fits (map turned ms).
Proof.
  intros [A B]. split.
  - intros before m after E. intros S.
    assert (E2 : ms = map turned before ++ turned m :: map turned after).
    { apply (f_equal (map turned)) in E. rewrite map_app in E. cbn in E. rewrite <- E, map_map, (map_ext _ (fun x => x)) by exact turned_twice. now rewrite map_id. }
    destruct (A _ _ _ E2) as (x & Ix & U). { rewrite type_turned. destruct (type_of m); auto. }
    apply in_map_iff in Ix. destruct Ix as (y & <- & Iy). exists y. split; auto. now rewrite type_turned, unit_turned in U.
  - intros sizes F. apply B. clear -F. revert sizes F. induction ms as [|m ms IH]; cbn [map]; intros sizes F; inversion F; subst; constructor; auto.
    now rewrite type_turned, unit_turned in *.
Qed.

Lemma mappable_turned orc : forall d, SpecMake.mappable orc d -> SpecMake.mappable orc (turned d).
Proof.
  fix IH 2. intros d M. destruct M; cbn [turned]; try (constructor; assumption).
  - fold (turned_elems e). apply SpecMake.MakeElems; auto using ordered_turned.
    + rewrite element_turned. now apply IH.
    + destruct k; rewrite ?composite_turned; auto. intros (A & B). rewrite composite_turned in A. destruct (H2 (conj A B)) as [F1 F2].
      split; [now rewrite padding_turned|]. intros b. rewrite unit_turned, size_turned. apply F2.
  - apply SpecMake.MakeStructure; rewrite ?names_turned; auto.
    + now destruct ms.
    + clear -H4. induction H4; cbn [map]; constructor; auto using describable_turned.
    + intros m I0. apply in_map_iff in I0. destruct I0 as (y & <- & Iy). rewrite type_turned.
      destruct (H6 y Iy) as [-> |O]; auto using ordered_turned.
    + intros m I0. apply in_map_iff in I0. destruct I0 as (y & <- & Iy). rewrite used_turned. now apply IH, H7.
    + intros O. apply go_fits_turned, H8. apply (at_once_back (DStructure mt bo ms)). exact O.
  - apply (SpecMake.MakeGroup _ _ _ _ _ _ _ vss); auto.
    + destruct default as [x|]; cbn; [|discriminate]. intros y Q. injection Q as <-. now apply IH, H.
    + now destruct ms.
    + clear -H1. induction H1; cbn [map]; constructor; auto using lists_turned.
    + clear -H3 IH. revert ms vss H3. fix IL 3. intros ms vss F. destruct F; cbn [map]; constructor; [|now apply IL].
      intros N. apply IH, H, N.
Qed.

Lemma created_turned orc d : everywhere sound d -> everywhere SpecMake.shaped d ->
  ((exists m, create orc d None = Ok (Some m)) <-> (exists m, create orc (turned d) None = Ok (Some m))).
Proof.
  assert (G : forall d, everywhere sound d -> everywhere SpecMake.shaped d ->
    (exists m, create orc d None = Ok (Some m)) -> exists m, create orc (turned d) None = Ok (Some m)).
  { clear d. intros d S1 S2 (m & C).
    assert (M : SpecMake.mappable orc d) by (apply (MakeProofs.creation_succeeds orc d S1 S2); eauto).
    apply mappable_turned in M.
    apply MakeProofs.creation_succeeds in M; [|apply everywhere_turned; auto using sound_turned|apply everywhere_turned; auto using shaped_turned].
    destruct M as ([m'|] & C'); eauto. apply MakeProofs.creation_none in C'. rewrite has_map_turned in C'.
    apply (proj2 (MakeProofs.creation_none orc d)) in C'. congruence. }
  intros S1 S2. split; [now apply G|]. intros H. rewrite <- (turned_twice d). apply G; auto; apply everywhere_turned; auto using sound_turned, shaped_turned.
Qed.
