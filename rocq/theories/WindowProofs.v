(** What a mapping depends on: the bytes it read, not what comes before or
    after. *)
From Coq Require Import String List ZArith Bool Lia.
From Verif Require Import Base PyVal PyStruct DataTypes ClassFactory DataMaps.
From Verif Require Import BytesProofs ContainerProofs SpecPrim PrimProofs SpecMap SpecCreate MapProofs ContextProofs
  StructProofs LayoutProofs CreateProofs LinearProofs SeqProofs StreamProofs GroupProofs SteadyProofs.
Import ListNotations.
Open Scope Z_scope.
Arguments Z.pow : simpl never.
Arguments Z.mul : simpl never.

(** ** Windows *)

Lemma window_app {A} (l s : list A) off n : 0 <= off -> 0 <= n -> off + n <= len l ->
  window (l ++ s) off n = window l off n.
Proof.
  intros Ho Hn H. pose proof (window_inner [] l s off n Ho Hn H) as W. rewrite len_nil in W. cbn [app] in W.
  now rewrite Z.add_0_l in W.
Qed.

Lemma window_in {A} (l : list A) off r a k : 0 <= off -> off <= a -> 0 <= k -> a + k <= off + r ->
  window l a k = firstn (Z.to_nat k) (skipn (Z.to_nat (a - off)) (window l off r)).
Proof.
  intros Ho Ha Hk H. unfold window. rewrite skipn_firstn_comm, <- skipn_plus.
  replace (Z.to_nat off + Z.to_nat (a - off))%nat with (Z.to_nat a) by lia.
  rewrite firstn_firstn. f_equal. lia.
Qed.

Lemma window_sub {A} (l l' : list A) off r a k : 0 <= off -> off <= a -> 0 <= k -> a + k <= off + r ->
  window l' off r = window l off r -> window l' a k = window l a k.
Proof. intros Ho Ha Hk H W. rewrite !(window_in _ off r a k) by auto. now rewrite W. Qed.

Lemma unpack_firstn en cs : forall k l, csizes cs <= Z.of_nat k ->
  unpack_codes en cs (firstn k l) = unpack_codes en cs l.
Proof.
  induction cs as [|c cs IH]; intros k l H; cbn [unpack_codes]; auto.
  cbn [csizes fold_right] in H. fold (csizes cs) in H.
  assert (0 <= csizes cs).
  { clear. induction cs as [|c cs IH]; cbn [csizes fold_right]; [lia|]. fold (csizes cs). pose proof (csize_pos c). lia. }
  unfold csize in H. rewrite firstn_firstn, skipn_firstn_comm, IH by lia.
  f_equal. f_equal. f_equal. lia.
Qed.

Lemma read_window o n bs bs' off : 0 <= off ->
  op_size o = csizes (op_codes o) -> op_size o <= n ->
  off + n <= len bs -> off + n <= len bs' -> window bs' off n = window bs off n ->
  read_from o (slice_from bs' off) = read_from o (slice_from bs off).
Proof.
  intros Ho Hs Hn L L' W. rewrite !slice_from_nonneg by auto. unfold read_from.
  rewrite !len_skipn, !Z2Nat.id by lia.
  destruct (Z.ltb_spec (Z.max 0 (len bs' - off)) (op_size o)); destruct (Z.ltb_spec (Z.max 0 (len bs - off)) (op_size o)); try lia; auto.
  f_equal. unfold window in W.
  rewrite <- (unpack_firstn _ _ (Z.to_nat n) (skipn _ bs)) by lia.
  rewrite <- (unpack_firstn _ _ (Z.to_nat n) (skipn _ bs')) by lia. now rewrite W.
Qed.

(** ** Maps that read one window *)

(** The outcome of mapping [m] is contained in the bytes it reads. *)
Definition contained (orc : oracle) (m : dmap) : Prop :=
  forall fuel bs off vals depth, 0 <= off <= len bs ->
  (forall v n, maps orc fuel m bs off vals depth v n ->
     exists r, 0 <= n <= r /\ off + r <= len bs /\ (all_maps no_group m -> r = n) /\
       forall bs', len bs <= len bs' \/ (all_maps (takes_space orc) m /\ off + r <= len bs') ->
         window bs' off r = window bs off r -> maps orc fuel m bs' off vals depth v n) /\
  (forall e s, e <> ByteStreamTooSmallError -> fails orc fuel m bs off vals depth e ->
     fails orc fuel m (bs ++ s) off vals depth e).

Definition block (orc : oracle) (m : dmap) (off n : Z) : Prop :=
  0 <= n /\
  (forall fuel bs vals depth v k, maps orc fuel m bs off vals depth v k -> k = n) /\
  (forall fuel bs bs' vals depth, off + n <= len bs -> off + n <= len bs' ->
     window bs' off n = window bs off n ->
     mapbs orc fuel m bs' off (Some (ctx_new vals)) depth = mapbs orc fuel m bs off (Some (ctx_new vals)) depth) /\
  (forall fuel bs vals depth, len bs < off + n -> fails orc fuel m bs off vals depth ByteStreamTooSmallError).

Lemma block_contained orc m :
  (forall off, 0 <= off ->
     (exists e, forall fuel bs vals depth, fails orc fuel m bs off vals depth e) \/ exists n, block orc m off n) ->
  contained orc m.
Proof.
  intros H fuel bs off vals depth Ho. destruct (H off ltac:(lia)) as [(e & E)|(n & N & K & W & S)].
  - split.
    + intros v n M. apply maps_fst in M. specialize (E fuel bs vals depth). unfold fails in E. congruence.
    + intros e' s _ F. assert (e' = e) by (specialize (E fuel bs vals depth); unfold fails in *; congruence).
      subst. apply E.
  - split.
    + intros v k M. pose proof (K _ _ _ _ _ _ M). subst k.
      destruct (Z.lt_ge_cases (len bs) (off + n)) as [L|L].
      { apply (S fuel bs vals depth) in L. apply maps_fst in M. unfold fails in L. congruence. }
      exists n. split; [lia|]. split; [lia|]. split; auto. intros bs' L' Q. unfold maps.
      rewrite (W fuel bs bs'); auto. destruct L' as [L'|[_ L']]; lia.
    + intros e s NE F. destruct (Z.lt_ge_cases (len bs) (off + n)) as [L|L].
      { apply (S fuel bs vals depth) in L. unfold fails in *. congruence. }
      unfold fails in *. rewrite (W fuel bs (bs ++ s)); auto.
      * rewrite len_app. pose proof (len_nonneg s). lia.
      * apply window_app; lia.
Qed.

Lemma prim_contained orc d op : steady (MPrim d op) -> contained orc (MPrim d op).
Proof.
  intros S. apply block_contained. intros off Ho. cbn [steady] in S. unfold block, fails, maps. cbn [mapbs]. unfold map_prim.
  destruct (get_byte_size d) as [n|]; [|left; exists TypeError; reflexivity].
  destruct (S n eq_refl) as [N R]. right. exists n. split; [lia|]. split; [|split].
  - intros fuel bs vals depth v k (c & M & K). destruct (_ <? _); [discriminate|].
    destruct (match op with Some _ => _ | None => _ end); try discriminate. inversion M; subst. cbn in K. congruence.
  - intros fuel bs bs' vals depth L L' W.
    destruct (Z.ltb_spec (len bs - off) n); [lia|]. destruct (Z.ltb_spec (len bs' - off) n); [lia|].
    destruct op as [o|]; auto. destruct (R o eq_refl) as [R1 R2]. rewrite (read_window o n bs bs') by auto. reflexivity.
  - intros fuel bs vals depth L. destruct (Z.ltb_spec (len bs - off) n); [reflexivity|lia].
Qed.

Lemma slice_eq {A} (bs bs' : list A) off n k : 0 <= off -> 0 <= k <= n ->
  off + n <= len bs -> off + n <= len bs' -> window bs' off n = window bs off n ->
  slice bs' off (off + k) = slice bs off (off + k).
Proof.
  intros Ho Hk L L' W. rewrite !slice_window by lia. apply (window_sub _ _ off n); auto; lia.
Qed.

Lemma uuid_contained orc d : steady (MUUID d) -> contained orc (MUUID d).
Proof.
  intros S. apply block_contained. intros off Ho. cbn [steady] in S. unfold block, fails, maps. cbn [mapbs]. unfold map_uuid.
  destruct (get_byte_size d) as [n|]; [|left; exists TypeError; reflexivity].
  rewrite (S n eq_refl). right. exists 16. split; [lia|]. split; [|split].
  - intros fuel bs vals depth v k (c & M & K). destruct (_ <? _); [discriminate|].
    destruct (match dt_byte_order d with Some _ => _ | None => _ end); try discriminate. inversion M; subst. cbn in K. congruence.
  - intros fuel bs bs' vals depth L L' W.
    destruct (Z.ltb_spec (len bs - off) 16); [lia|]. destruct (Z.ltb_spec (len bs' - off) 16); [lia|].
    rewrite (slice_eq bs bs' off 16 16) by (auto; lia). reflexivity.
  - intros fuel bs vals depth L. destruct (Z.ltb_spec (len bs - off) 16); [reflexivity|lia].
Qed.

Lemma padding_contained orc d : steady (MPadding d) -> contained orc (MPadding d).
Proof.
  intros (mt & bo & a & -> & A). apply block_contained. intros off Ho. right. exists (padding_size a off).
  pose proof (padding_nonneg a off A) as P. unfold block, fails, maps. cbn [mapbs]. unfold map_padding.
  destruct (Z.eqb_spec a 0); [lia|].
  split; [lia|]. split; [|split].
  - intros fuel bs vals depth v k (c & M & K). destruct (_ <? _); [discriminate|]. inversion M; subst. cbn in K. congruence.
  - intros fuel bs bs' vals depth L L' W.
    destruct (Z.ltb_spec (len bs - off) (padding_size a off)); [lia|].
    destruct (Z.ltb_spec (len bs' - off) (padding_size a off)); [lia|].
    rewrite (slice_eq bs bs' off (padding_size a off) (padding_size a off)) by (auto; lia). reflexivity.
  - intros fuel bs vals depth L. destruct (Z.ltb_spec (len bs - off) (padding_size a off)); [reflexivity|lia].
Qed.

Lemma linear_seq_contained orc e ed em op : steady (MSequence true e ed em op) -> contained orc (MSequence true e ed em op).
Proof.
  intros S. apply block_contained. intros off Ho. cbn [steady] in S. unfold block, fails, maps. cbn [mapbs]. unfold map_seq_linear.
  destruct (elems_byte_size e (get_byte_size ed)) as [n|]; [|left; exists TypeError; reflexivity].
  destruct (S n eq_refl) as [N R]. right. exists n. split; [lia|]. split; [|split].
  - intros fuel bs vals depth v k (c & M & K). destruct (_ <? _); [discriminate|].
    destruct op as [o|]; [|discriminate]. destruct em as [[]|]; try discriminate.
    destruct (read_from _ _) as [t| |]; try discriminate. inversion M; subst. cbn in K. congruence.
  - intros fuel bs bs' vals depth L L' W.
    destruct (Z.ltb_spec (len bs - off) n); [lia|]. destruct (Z.ltb_spec (len bs' - off) n); [lia|].
    destruct op as [o|]; auto. destruct (R o eq_refl) as [R1 R2]. rewrite (read_window o n bs bs') by auto. reflexivity.
  - intros fuel bs vals depth L. destruct (Z.ltb_spec (len bs - off) n); [reflexivity|lia].
Qed.

Lemma linear_struct_contained orc d cls ms attrs op :
  steady (MStructure true d cls ms attrs op) -> contained orc (MStructure true d cls ms attrs op).
Proof.
  intros S. apply block_contained. intros off Ho. cbn [steady] in S. unfold block, fails, maps. cbn [mapbs]. unfold map_struct_linear.
  destruct (get_byte_size d) as [n|]; [|left; exists TypeError; reflexivity].
  destruct (S n eq_refl) as [N R]. right. exists n. split; [lia|]. split; [|split].
  - intros fuel bs vals depth v k (c & M & K). destruct (_ <? _); [discriminate|].
    destruct (match op with Some _ => _ | None => _ end); try discriminate. inversion M; subst. cbn in K. congruence.
  - intros fuel bs bs' vals depth L L' W.
    destruct (Z.ltb_spec (len bs - off) n); [lia|]. destruct (Z.ltb_spec (len bs' - off) n); [lia|].
    destruct op as [o|]; auto. destruct (R o eq_refl) as [R1 R2]. rewrite (read_window o n bs bs') by auto. reflexivity.
  - intros fuel bs vals depth L. destruct (Z.ltb_spec (len bs - off) n); [reflexivity|lia].
Qed.

(** ** Streams *)

Lemma first_at_window t bs bs' off k : 0 <= off -> 0 < len t ->
  window bs' off ((k + 1) * len t) = window bs off ((k + 1) * len t) ->
  first_at t bs off k -> first_at t bs' off k.
Proof.
  intros Ho Ht W (K1 & K2 & K3). split; auto.
  assert (Q : forall j, 0 <= j <= k -> window bs' (off + j * len t) (len t) = window bs (off + j * len t) (len t)).
  { intros j J. apply (window_sub _ _ off ((k + 1) * len t)); auto; nia. }
  split.
  - rewrite Q; auto. lia.
  - intros j J. rewrite Q by lia. auto.
Qed.

Lemma stream_contained orc e ed em : steady (MStream e ed em) -> contained orc (MStream e ed em).
Proof.
  intros [Hb Ht] fuel bs off vals depth Ho.
  destruct (sized_or_not e ed) as [U|U].
  - destruct (e_terminator e) as [t|] eqn:T.
    + destruct (Ht _ eq_refl) as (b & -> & G & P).
      split.
      * intros v n M. apply (stream_terminated orc fuel e ed em b bs off vals depth ltac:(lia) U T G P) in M.
        destruct M as (k & K & -> & ->).
        pose proof (first_at_inside b bs off k ltac:(lia) P K) as I. assert (0 <= k) by (destruct K; auto).
        exists ((k + 1) * len b). split; [nia|]. split; [lia|]. split; auto.
        intros bs' _ W. apply (stream_terminated orc fuel e ed em b bs' off vals depth ltac:(lia) U T G P).
        exists k. split; [|split; auto].
        -- apply (first_at_window b bs); auto; lia.
        -- now rewrite W.
      * intros x s N F.
        destruct (stream_terminated orc fuel e ed em b bs off vals depth ltac:(lia) U T G P) as (_ & _ & D).
        apply D in F. contradiction.
    + assert (X : forall b, mapbs orc fuel (MStream e ed em) b off (Some (ctx_new vals)) depth =
                mapbs orc fuel (MStream e ed em) bs off (Some (ctx_new vals)) depth).
      { intros b. cbn [mapbs]. unfold map_stream. rewrite T. destruct (calc_spec orc e ed vals) as (_ & B & _ & _). apply B in U.
        destruct (calc_data_size orc e ed (Some (ctx_new vals))) as [r c1]. cbn [fst] in U. subst r. reflexivity. }
      split.
      * intros v n M. exfalso. apply maps_fst in M. revert M. cbn [mapbs]. unfold map_stream. rewrite T.
        destruct (calc_spec orc e ed vals) as (_ & B & _ & _). apply B in U.
        destruct (calc_data_size orc e ed (Some (ctx_new vals))) as [r c1]. cbn [fst] in U. subst r. discriminate.
      * intros x s N F. unfold fails in *. now rewrite X.
  - destruct (stream_sized orc fuel e ed em bs off vals depth ltac:(lia) Hb U) as (A & B & C & D).
    split.
    + intros v n M. apply A in M. destruct M as (S & L & ->).
      assert (0 <= n).
      { destruct S as [[_ S]|(_ & k & b & Gb & S & ->)]; apply measure_nonneg in S; auto. specialize (Hb b Gb). nia. }
      exists n. split; [lia|]. split; auto. split; auto. intros bs' L' W.
      destruct (stream_sized orc fuel e ed em bs' off vals depth ltac:(lia) Hb U) as (A' & _).
      apply A'. split; auto. split; [destruct L' as [L'|[_ L']]; lia|]. now rewrite W.
    + intros x s N F. destruct (D _ F) as [-> | ->]; [congruence|]. pose proof (proj1 C F) as F'.
      destruct (stream_sized orc fuel e ed em (bs ++ s) off vals depth ltac:(lia) Hb U) as (_ & _ & C' & _). exact (proj2 C' F').
Qed.

Lemma string_contained orc e ed em : steady (MString e ed em) -> contained orc (MString e ed em).
Proof.
  intros S fuel bs off vals depth Ho.
  assert (BT : byte_terminator (e_terminator e)).
  { destruct S as [_ S]. unfold byte_terminator. destruct (e_terminator e) as [t|]; auto.
    destruct (S t eq_refl) as (b & -> & _ & P). eauto. }
  destruct (stream_contained orc e ed em S fuel bs off vals depth Ho) as [A B].
  destruct (string_layout orc fuel e ed em bs off vals depth BT) as [C D]. split.
  - intros v n M. apply C in M. destruct M as (l & r & s & M & T & Q & ->).
    destruct (A _ _ M) as (k & K1 & K2 & K3 & K4). exists k. split; auto. split; auto. split.
    + intros G. apply K3. destruct em; cbn in *; tauto.
    + intros bs' L' W. apply (string_layout orc fuel e ed em bs' off vals depth BT). exists l, r, s.
      split; auto.
  - intros x s N F. apply D in F. apply (string_layout orc fuel e ed em (bs ++ s) off vals depth BT).
    destruct F as [F|(-> & l & r & n & M & F)]; [left; auto|right].
    split; auto. exists l, r, n. split; auto. destruct (A _ _ M) as (k & K1 & K2 & K3 & K4).
    apply K4; [left; rewrite len_app; pose proof (len_nonneg s); lia|]. apply window_app; lia.
Qed.

(** ** Structures *)

Lemma fields_contained orc fuel cls vals bs depth l s off s' e :
  fields orc fuel cls vals bs depth l s off s' e ->
  Forall (fun f => on_opt (contained orc) (snd (snd f))) l ->
  0 <= off <= len bs ->
  exists R, off <= e <= R /\ R <= len bs /\
    (Forall (fun f => on_opt (all_maps no_group) (snd (snd f))) l -> R = e) /\
    forall bs', len bs <= len bs' \/
        (Forall (fun f => on_opt (all_maps (takes_space orc)) (snd (snd f))) l /\ R <= len bs') ->
      window bs' off (R - off) = window bs off (R - off) ->
      fields orc fuel cls vals bs' depth l s off s' e.
Proof.
  intros F. induction F as [s off|d name x r s off v n s' e C M A F IH|d name x r s off s' e C F IH]; intros HC Ho.
  - exists off. split; [lia|]. split; [lia|]. split; auto. intros; constructor.
  - inversion HC as [|? ? H1 H2]; subst. cbn in H1.
    destruct (H1 fuel bs off (scope cls s vals) (depth + 1) Ho) as [T _].
    destruct (T _ _ M) as (r1 & N1 & L1 & G1 & W1).
    destruct (IH H2 ltac:(lia)) as (R & E1 & L2 & G2 & W2).
    exists (Z.max (off + r1) R). split; [lia|]. split; [lia|]. split.
    + intros G. inversion G; subst. rewrite G2, (G1 ltac:(assumption)) by auto. lia.
    + intros bs' L W. apply (fields_present _ _ _ _ _ _ d name x r s off v n); auto.
      * apply W1.
        -- destruct L as [L|[L L']]; auto. right. inversion L; subst. split; auto. lia.
        -- apply (window_sub _ _ off (Z.max (off + r1) R - off)); auto; lia.
      * apply W2.
        -- destruct L as [L|[L L']]; auto. right. inversion L; subst. split; auto. lia.
        -- apply (window_sub _ _ off (Z.max (off + r1) R - off)); auto; lia.
  - inversion HC as [|? ? H1 H2]; subst.
    destruct (IH H2 Ho) as (R & E1 & L2 & G2 & W2). exists R. split; auto. split; auto. split.
    + intros G. inversion G; subst. auto.
    + intros bs' L W. apply fields_absent; auto. apply W2; auto.
      destruct L as [L|[L L']]; auto. right. inversion L; subst. auto.
Qed.

Lemma Forall_combine {A B} (P : B -> Prop) (l : list A) : forall l' : list B,
  Forall P l' -> Forall (fun f => P (snd f)) (combine l l').
Proof.
  induction l as [|a l IH]; intros l' F; cbn; [constructor|]. destruct F; constructor; auto.
Qed.

Lemma Forall_combine_inv {A B} (P : B -> Prop) (l : list A) : forall l' : list B,
  List.length l = List.length l' ->
  Forall (fun f => P (snd f)) (combine l l') -> Forall P l'.
Proof.
  induction l as [|a l IH]; intros [|b l'] L F; cbn in *; auto; try discriminate.
  inversion F; subst. constructor; auto.
Qed.

Lemma fields_monotone orc fuel cls vals bs depth l s off s' e t :
  fields orc fuel cls vals bs depth l s off s' e ->
  Forall (fun f => on_opt (contained orc) (snd (snd f))) l -> 0 <= off <= len bs ->
  off <= e <= len bs /\ fields orc fuel cls vals (bs ++ t) depth l s off s' e.
Proof.
  intros F C Ho. destruct (fields_contained _ _ _ _ _ _ _ _ _ _ _ F C Ho) as (R & E & L & _ & W).
  split; [lia|]. apply W.
  - left. rewrite len_app. pose proof (len_nonneg t). lia.
  - apply window_app; lia.
Qed.

Lemma maps_monotone orc m fuel bs off vals depth v n t : contained orc m -> 0 <= off <= len bs ->
  maps orc fuel m bs off vals depth v n ->
  0 <= n /\ off + n <= len bs /\ maps orc fuel m (bs ++ t) off vals depth v n.
Proof.
  intros C Ho M. destruct (C fuel bs off vals depth Ho) as [A _]. destruct (A _ _ M) as (r & N & L & _ & W).
  split; [lia|]. split; [lia|]. apply W.
  - left. rewrite len_app. pose proof (len_nonneg t). lia.
  - apply window_app; lia.
Qed.

Lemma too_deep orc fuel m bs off vals depth : 10 < depth -> level m ->
  mapbs orc fuel m bs off (Some (ctx_new vals)) depth = (Raise MappingError, Some (ctx_new vals)).
Proof. intros D L. apply depth_bound; auto. Qed.

Lemma structure_contained orc d cls ms attrs op : extensional orc ->
  steady (MStructure false d cls ms attrs op) ->
  Forall (fun a => on_opt (contained orc) (snd a)) attrs ->
  contained orc (MStructure false d cls ms attrs op).
Proof.
  intros X [SL SN] C fuel bs off vals depth Ho.
  destruct (Z.lt_ge_cases 10 depth) as [D|D].
  { split.
    - intros v n M. apply maps_fst in M. rewrite too_deep in M by (cbn; auto). discriminate.
    - intros e s N F. unfold fails in *. rewrite too_deep in * by (cbn; auto). exact F. }
  destruct (clear_dec cls (map fst attrs)) as [CN|CN].
  2:{ split.
    - intros v n M. apply maps_fst in M. rewrite unclear_run in M by auto. discriminate.
    - intros e s N F. unfold fails in *. rewrite unclear_run in * by auto. exact F. }
  assert (C' : Forall (fun f : field => on_opt (contained orc) (snd (snd f))) (combine ms attrs)) by exact (Forall_combine _ ms attrs C).
  destruct (structure_layout orc fuel d cls ms attrs op bs off vals depth X SL SN CN D) as (L1 & _ & L3 & L4). split.
  - intros v n M. apply L1 in M.
    destruct (fields_contained _ _ _ _ _ _ _ _ _ _ _ M C' Ho) as (R & E & L & G & W).
    exists (R - off). split; [lia|]. split; [lia|]. split.
    + intros NG. apply all_maps_attrs in NG. destruct NG as [_ NG].
      rewrite (G (Forall_combine _ ms attrs NG)). lia.
    + intros bs' L' Q. apply (structure_layout orc fuel d cls ms attrs op bs' off vals depth X SL SN CN D).
      apply W; auto. destruct L' as [L'|[TS L']]; auto. right. split; [|lia].
      apply all_maps_attrs in TS. destruct TS as [_ TS]. exact (Forall_combine _ ms attrs TS).
  - intros e s N F. destruct (L4 _ F) as [-> | ->]; [congruence|]. apply L3 in F.
    apply (structure_layout orc fuel d cls ms attrs op (bs ++ s) off vals depth X SL SN CN D).
    destruct F as (before & m & name & x & after & s1 & o1 & E & F & B).
    assert (CB : Forall (fun f : field => on_opt (contained orc) (snd (snd f))) before /\ on_opt (contained orc) x).
    { rewrite E in C'. apply Forall_app in C'. destruct C' as [C1 C2]. inversion C2; subst. auto. }
    destruct CB as [CB Cx].
    destruct (fields_monotone _ _ _ _ _ _ _ _ _ _ _ s F CB Ho) as [O1 F'].
    exists before, m, name, x, after, s1, o1. split; auto. split; auto.
    destruct B as [B|[B1 B2]]; [left; auto|right]. split; auto.
    destruct B2 as [->|(y & -> & B2)]; auto. right. exists y. split; auto. cbn in Cx.
    destruct B2 as [(e & Ne & Fe)|(v & n & M & NA)]; [left|right].
    + exists e. split; auto. apply Cx; auto. lia.
    + exists v, n. split; auto. eapply maps_monotone; eauto. lia.
Qed.

(** ** Sequences *)

Lemma elements_contained orc fuel x bs depth off vs e : contained orc x ->
  elements orc fuel x bs depth off vs e -> 0 <= off <= len bs ->
  exists R, off <= e <= R /\ R <= len bs /\ (all_maps no_group x -> R = e) /\
    forall bs',
      len bs <= len bs' \/
        ((forall fuel bs off vals depth v n, 0 <= off <= len bs ->
            maps orc fuel x bs off vals depth v n -> 0 < n) /\
         all_maps (takes_space orc) x /\ R <= len bs') ->
      window bs' off (R - off) = window bs off (R - off) ->
      forall before after, vs = before ++ after ->
        exists e1, elements orc fuel x bs depth off before e1 /\ elements orc fuel x bs' depth off before e1.
Proof.
  intros C E. induction E as [off|off v n vs e O M E IH]; intros Ho.
  - exists off. split; [lia|]. split; [lia|]. split; auto. intros bs' _ _ before after Q.
    destruct before; [|discriminate]. exists off. split; constructor.
  - destruct (C fuel bs off [] (depth + 1) Ho) as [T _].
    destruct (T _ _ M) as (r1 & N1 & L1 & G1 & W1).
    destruct (IH ltac:(lia)) as (R & E1 & L2 & G2 & W2).
    exists (Z.max (off + r1) R). split; [lia|]. split; [lia|]. split.
    + intros G. rewrite G2, G1 by auto. lia.
    + intros bs' L W before after Q. destruct before as [|w before].
      { exists off. split; constructor. }
      inversion Q; subst w.
      destruct (W2 bs') with (before := before) (after := after) as (e1 & A1 & A2); auto.
      * destruct L as [L|(L & L' & L'')]; auto. right. split; auto. split; auto. lia.
      * apply (window_sub _ _ off (Z.max (off + r1) R - off)); auto; lia.
      * exists e1. split; (apply (elements_cons _ _ _ _ _ off v n); auto).
        -- destruct L as [L|(L & L' & L'')]; [lia|]. pose proof (L _ _ _ _ _ _ _ Ho M). lia.
        -- apply W1.
           ++ destruct L as [L|(L & L' & L'')]; auto. right. split; auto. lia.
           ++ apply (window_sub _ _ off (Z.max (off + r1) R - off)); auto; lia.
Qed.

Lemma walk_contained orc fuel x bs depth number size term off vs n : contained orc x ->
  walk orc fuel x bs depth number size term off vs n -> 0 <= off <= len bs ->
  exists r, 0 <= n <= r /\ off + r <= len bs /\ (all_maps no_group x -> r = n) /\
    forall bs',
      len bs <= len bs' \/
        ((forall fuel bs off vals depth v n, 0 <= off <= len bs ->
            maps orc fuel x bs off vals depth v n -> 0 < n) /\
         all_maps (takes_space orc) x /\ off + r <= len bs') ->
      window bs' off r = window bs off r ->
      walk orc fuel x bs' depth number size term off vs n.
Proof.
  intros C [E W] Ho. destruct (elements_contained _ _ _ _ _ _ _ _ C E Ho) as (R & E1 & L & G & T).
  exists (R - off). split; [lia|]. split; [lia|]. split; [intros NG; apply G in NG; lia|].
  intros bs' L' Q.
  assert (T' := T bs' ltac:(destruct L' as [L'|(A & B & L')]; [left; lia|right; repeat split; auto; lia]) Q). split.
  - destruct (T' vs []) as (e1 & A1 & A2); [now rewrite app_nil_r|].
    destruct (elements_det _ _ _ _ _ _ _ _ _ _ E A1 eq_refl) as [_ ->]. exact A2.
  - intros before after n' Q' NE B. destruct (T' _ _ Q') as (e1 & A1 & A2).
    destruct (elements_det _ _ _ _ _ _ _ _ _ _ B A2 eq_refl) as [_ <-]. apply (W _ _ n' Q' NE A1).
Qed.

Lemma semantic_contained orc d : contained orc (MSemantic d).
Proof. apply block_contained. intros off _. left. exists MappingError. reflexivity. Qed.

Lemma format_contained orc d : contained orc (MFormat d).
Proof. apply block_contained. intros off _. left. exists MappingError. reflexivity. Qed.

Lemma seq_loop_none orc fuel k d bs number size term depth s :
  seq_loop k None bs number size term depth s =
  seq_loop k (Some (mapbs orc fuel (MSemantic d))) bs number size term depth s.
Proof.
  destruct k; cbn [seq_loop]; auto. destruct (is_empty _); auto. destruct (opt_eqZ _ _); auto. destruct (opt_leZ _ _); auto.
  cbn [mapbs opt_default]. destruct s; reflexivity.
Qed.

Lemma seq_none orc fuel e ed op d : forall bs off c depth,
  mapbs orc fuel (MSequence false e ed None op) bs off c depth =
  mapbs orc fuel (MSequence false e ed (Some (MSemantic d)) op) bs off c depth.
Proof.
  intros. cbn [mapbs]. unfold map_seq. destruct (_ <? _); auto.
  destruct (seq_bounds orc e ed c) as [[[[number size] term]|x|] c1]; auto.
  now rewrite (seq_loop_none orc fuel fuel d).
Qed.

Lemma contained_nonneg orc x : contained orc x -> nonnegative orc x.
Proof.
  intros C fuel bs off vals depth v n Ho M. destruct (C fuel bs off vals depth Ho) as [A _].
  destruct (A _ _ M) as (r & N & _). lia.
Qed.

Lemma seq_bounds_terminator orc e ed c number size term :
  e_terminator e <> Some VNone -> element_terminator ed <> Ok (Some VNone) ->
  fst (seq_bounds orc e ed c) = Ok (number, size, term) -> term <> Some VNone.
Proof.
  intros T1 T2. unfold seq_bounds. destruct (has_data_size e).
  - cbn [fst]. destruct (eval_data_size _ _ _); cbn [bind]; try discriminate.
    destruct (get_byte_size ed).
    + destruct (_ =? _); [discriminate|]. intros Q. inversion Q; discriminate.
    + destruct (element_terminator ed) as [[t|]| |]; cbn [bind]; try discriminate.
      intros Q. inversion Q; subst. congruence.
  - destruct (has_terminator e).
    + cbn [fst]. destruct (e_terminator e) as [t|]; [|discriminate]. intros Q. inversion Q; subst. congruence.
    + destruct (has_number e); [|discriminate]. destruct (eval_number _ _ _) as [r c']. cbn [fst].
      destruct r; cbn [bind]; try discriminate. intros Q. inversion Q; discriminate.
Qed.

Lemma seq_some_contained orc e ed x op : extensional orc ->
  steady (MSequence false e ed (Some x) op) -> contained orc x ->
  contained orc (MSequence false e ed (Some x) op).
Proof.
  intros X [S1 S2] C fuel bs off vals depth Ho.
  destruct (Z.lt_ge_cases 10 depth) as [D|D].
  { split.
    - intros v n M. apply maps_fst in M. rewrite too_deep in M by (cbn; auto). discriminate.
    - intros e' s N F. unfold fails in *. rewrite too_deep in * by (cbn; auto). exact F. }
  pose proof (contained_nonneg _ _ C) as NN.
  destruct (fst (seq_bounds orc e ed (Some (ctx_new vals)))) as [[[number size] term]|y|] eqn:B.
  - pose proof (seq_bounds_terminator _ _ _ _ _ _ _ S1 S2 B) as T.
    assert (LY : forall b, _) by (intros b; exact (sequence_layout orc fuel x b depth number size term off e ed op vals X ltac:(lia) NN T B ltac:(lia))).
    cbn zeta in LY. destruct (LY bs) as (L1 & _ & L3 & _ & L5). split.
    + intros v n M. apply L1 in M. destruct M as (vs & -> & W & A & I).
      destruct (walk_contained _ _ _ _ _ _ _ _ _ _ _ C W Ho) as (r & N & L & G & Q).
      exists r. split; auto. split; auto. split.
      * intros NG. apply G. cbn in NG. tauto.
      * intros bs' L' W'. apply LY. exists vs. split; auto. split; auto. apply Q; auto.
        destruct L' as [L'|[TS L']]; auto. right. cbn in TS. destruct TS as [TS1 TS2]. auto.
    + intros e' s N F. destruct (L5 _ F) as [-> | ->]; [congruence|]. apply L3 in F. apply LY.
      destruct F as (vs & n & W & K & I & L & e1 & Ne & Fe).
      destruct (walk_contained _ _ _ _ _ _ _ _ _ _ _ C W Ho) as (r & N' & L' & _ & Q).
      exists vs, n. split; [|split; [auto|split; [auto|split]]].
      * apply Q; [left; rewrite len_app; pose proof (len_nonneg s); lia|apply window_app; lia].
      * rewrite len_app. pose proof (len_nonneg s). lia.
      * exists e1. split; auto. apply C; auto. lia.
  - assert (Y : forall b, fst (mapbs orc fuel (MSequence false e ed (Some x) op) b off (Some (ctx_new vals)) depth) = Raise y).
    { intros b. cbn [mapbs]. unfold map_seq. destruct (Z.ltb_spec max_depth depth) as [H|_]; [unfold max_depth in H; lia|].
      destruct (seq_bounds _ _ _ _) as [r c]. cbn [fst] in B. subst r. reflexivity. }
    split.
    + intros v n M. apply maps_fst in M. rewrite Y in M. discriminate.
    + intros e' s N F. unfold fails in *. rewrite Y in *. exact F.
  - assert (Y : forall b, fst (mapbs orc fuel (MSequence false e ed (Some x) op) b off (Some (ctx_new vals)) depth) = OutOfFuel).
    { intros b. cbn [mapbs]. unfold map_seq. destruct (Z.ltb_spec max_depth depth) as [H|_]; [unfold max_depth in H; lia|].
      destruct (seq_bounds _ _ _ _) as [r c]. cbn [fst] in B. subst r. reflexivity. }
    split.
    + intros v n M. apply maps_fst in M. rewrite Y in M. discriminate.
    + intros e' s N F. unfold fails in *. rewrite Y in *. discriminate.
Qed.

Lemma seq_contained orc e ed em op : extensional orc ->
  steady (MSequence false e ed em op) -> on_opt (contained orc) em ->
  contained orc (MSequence false e ed em op).
Proof.
  intros X S C. destruct em as [x|]; [now apply seq_some_contained|].
  intros fuel bs off vals depth Ho.
  destruct (seq_some_contained orc e ed (MSemantic ed) op X S (semantic_contained orc ed) fuel bs off vals depth Ho) as [A B].
  unfold maps, fails in *. split.
  - intros v n M. rewrite (seq_none orc fuel e ed op ed) in M. destruct (A v n M) as (r & N & L & G & W).
    exists r. split; auto. split; auto. split; [intros _; apply G; cbn; auto|]. intros bs' L' W'.
    rewrite (seq_none orc fuel e ed op ed). apply W; auto. destruct L' as [L'|[_ L']]; auto.
    right. split; auto. cbn. split; auto. intros fuel0 bs0 off0 vals0 depth0 v0 n0 _ M0. apply maps_fst in M0. discriminate.
  - intros e' s N F. rewrite (seq_none orc fuel e ed op ed) in *. auto.
Qed.

(** ** Groups *)

Lemma chosen_from default entries id y (P : dmap -> Prop) :
  on_opt P default -> Forall (fun a => on_opt P (snd a)) entries ->
  chosen default entries id (Some y) -> P y.
Proof.
  intros D F [(before & k & after & -> & _)|[_ Q]].
  - apply Forall_app in F. destruct F as [_ F]. inversion F; subst. assumption.
  - rewrite <- Q in D. exact D.
Qed.

Lemma group_contained orc d i b df entries : extensional orc ->
  on_opt (contained orc) b -> on_opt (contained orc) df ->
  Forall (fun a => on_opt (contained orc) (snd a)) entries ->
  contained orc (MGroup d i b df entries).
Proof.
  intros X Cb Cd Ce fuel bs off vals depth Ho.
  assert (LY : forall bs, _) by (intros bs0; exact (group_layout orc fuel d i b df entries bs0 off vals depth X)).
  cbn zeta in LY. destruct (LY bs) as (L1 & _ & L3 & L4).
  assert (ID : forall id s, identified orc fuel i b bs off depth id -> identified orc fuel i b (bs ++ s) off depth id).
  { intros id s (x & v & n & -> & M & Q). exists x, v, n. split; auto. split; auto. eapply maps_monotone; eauto. }
  split.
  - intros v n M. apply L1 in M. destruct M as (id & y & (x & bv & bn & -> & Mb & Q) & NV & Ch & My).
    pose proof (chosen_from _ _ _ _ _ Cd Ce Ch) as Cy. cbn in Cb.
    destruct (Cb fuel bs off [] depth Ho) as [A _]. destruct (A _ _ Mb) as (r1 & N1 & R1 & _ & W1).
    destruct (Cy fuel bs off [] depth Ho) as [A' _]. destruct (A' _ _ My) as (r2 & N2 & R2 & _ & W2).
    exists (Z.max r1 r2). split; [lia|]. split; [lia|]. split; [intros G; apply all_maps_here in G; destruct G|].
    intros bs' L W. apply LY. exists id, y.
    assert (SP : all_maps (takes_space orc) (MGroup d i (Some x) df entries) ->
              all_maps (takes_space orc) x /\ all_maps (takes_space orc) y).
    { intros G. apply all_maps_group in G. destruct G as (_ & G1 & G2 & G3). split; auto.
      exact (chosen_from _ _ _ _ _ G2 G3 Ch). }
    split; [exists x, bv, bn; repeat split; auto|split; [auto|split; auto]].
    + apply W1; [destruct L as [L|[L L']]; auto; right; split; [tauto|lia]|].
      apply (window_sub _ _ off (Z.max r1 r2)); auto; lia.
    + apply W2; [destruct L as [L|[L L']]; auto; right; split; [tauto|lia]|].
      apply (window_sub _ _ off (Z.max r1 r2)); auto; lia.
  - intros e s N F. destruct (L4 _ F) as [-> | ->]; [congruence|]. apply L3 in F. apply LY.
    destruct F as [->|[(x & e & -> & Ne & Fe)|[F|(id & F & NV & F')]]]; auto.
    + right. left. exists x, e. split; auto. split; auto. cbn in Cb. apply Cb; auto.
    + right. right. right. exists id. split; auto. split; auto. destruct F' as [F'|(y & e & Ch & Ne & Fe)]; auto.
      right. exists y, e. split; auto. split; auto. pose proof (chosen_from _ _ _ _ _ Cd Ce Ch) as Cy. apply Cy; auto.
Qed.

Lemma steady_contained orc m : extensional orc -> all_maps steady m -> contained orc m.
Proof.
  intros X. induction m using dmap_rect'; intros S.
  - apply prim_contained. exact (all_maps_here _ _ S).
  - apply uuid_contained. exact (all_maps_here _ _ S).
  - apply padding_contained. exact (all_maps_here _ _ S).
  - pose proof (all_maps_here _ _ S) as S0. destruct l; [now apply linear_seq_contained|].
    apply seq_contained; auto. apply (all_maps_elem steady (MSequence false e ed em op) em eq_refl) in S. destruct S as [_ S].
    destruct em; cbn in *; auto.
  - apply stream_contained. exact (all_maps_here _ _ S).
  - apply string_contained. exact (all_maps_here _ _ S).
  - pose proof (all_maps_here _ _ S) as S0. destruct l; [now apply linear_struct_contained|].
    apply structure_contained; auto. apply all_maps_attrs in S. destruct S as [_ S].
    rewrite Forall_forall in *. intros a I. specialize (H a I). specialize (S a I). destruct (snd a); cbn in *; auto.
  - apply semantic_contained.
  - apply format_contained.
  - apply all_maps_group in S. destruct S as (_ & S1 & S2 & S3). apply group_contained; auto.
    + destruct b; cbn in *; auto.
    + destruct df; cbn in *; auto.
    + rewrite Forall_forall in *. intros a I. specialize (S3 a I). specialize (H1 a I). destruct (snd a); cbn in *; auto.
Qed.

(** C09 *)
Lemma mapping_monotone orc fuel d m bs s off vals depth :
  extensional orc -> everywhere sound d -> create orc d None = Ok (Some m) -> 0 <= off <= len bs ->
  (forall v n, maps orc fuel m bs off vals depth v n -> maps orc fuel m (bs ++ s) off vals depth v n) /\
  (forall e, e <> ByteStreamTooSmallError -> fails orc fuel m bs off vals depth e ->
     fails orc fuel m (bs ++ s) off vals depth e).
Proof.
  intros X E C Ho. pose proof (steady_contained orc m X (all_steady _ _ _ E C)) as K. split.
  - intros v n M. eapply maps_monotone; eauto.
  - intros e N F. apply K; auto.
Qed.

(** C10 *)
Lemma mapping_window orc fuel d m bs off vals depth v n :
  extensional orc -> everywhere sound d -> create orc d None = Ok (Some m) -> all_maps no_group m ->
  0 <= off <= len bs -> maps orc fuel m bs off vals depth v n ->
  0 <= n /\ off + n <= len bs /\
  forall bs', len bs <= len bs' -> window bs' off n = window bs off n ->
    maps orc fuel m bs' off vals depth v n.
Proof.
  intros X E C G Ho M. pose proof (steady_contained orc m X (all_steady _ _ _ E C)) as K.
  destruct (K fuel bs off vals depth Ho) as [A _]. destruct (A _ _ M) as (r & N & L & R & W).
  rewrite (R G) in *. split; [lia|]. split; auto.
Qed.

Lemma mapping_window_exact orc fuel d m bs off vals depth v n :
  extensional orc -> everywhere sound d -> create orc d None = Ok (Some m) -> all_maps no_group m ->
  all_maps (takes_space orc) m ->
  0 <= off <= len bs -> maps orc fuel m bs off vals depth v n ->
  forall bs', off + n <= len bs' -> window bs' off n = window bs off n ->
    maps orc fuel m bs' off vals depth v n.
Proof.
  intros X E C G T Ho M. pose proof (steady_contained orc m X (all_steady _ _ _ E C)) as K.
  destruct (K fuel bs off vals depth Ho) as [A _]. destruct (A _ _ M) as (r & N & L & R & W).
  rewrite (R G) in *. intros bs' L' Q. apply W; auto.
Qed.

Lemma mapping_footprint orc fuel d m bs off vals depth v n :
  extensional orc -> everywhere sound d -> create orc d None = Ok (Some m) ->
  0 <= off <= len bs -> maps orc fuel m bs off vals depth v n ->
  exists r, 0 <= n <= r /\ off + r <= len bs /\
  forall bs', len bs <= len bs' -> window bs' off r = window bs off r ->
    maps orc fuel m bs' off vals depth v n.
Proof.
  intros X E C Ho M. pose proof (steady_contained orc m X (all_steady _ _ _ E C)) as K.
  destruct (K fuel bs off vals depth Ho) as [A _]. destruct (A _ _ M) as (r & N & L & R & W).
  exists r. split; [lia|]. split; auto.
Qed.
