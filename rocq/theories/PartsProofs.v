(** The size of a value is bounded by the number of bytes it was mapped from. *)
From Coq Require Import String List ZArith Bool Lia.
From Verif Require Import Base PyVal PyStruct DataTypes ClassFactory DataMaps.
From Verif Require Import BytesProofs ContainerProofs SpecPrim PrimProofs SpecMap SpecCreate SpecSize MapProofs ContextProofs
  StructProofs LayoutProofs CreateProofs LinearProofs SeqProofs StreamProofs PaddingProofs GroupProofs SteadyProofs WindowProofs SeqKindProofs FoldProofs ReadsProofs FuelProofs.
Import ListNotations.
Open Scope Z_scope.
#[local] Arguments Z.add : simpl never.
#[local] Arguments Z.sub : simpl never.
#[local] Arguments Z.mul : simpl never.
#[local] Arguments Z.pow : simpl never.
#[local] Arguments Z.div : simpl never.
#[local] Arguments Z.modulo : simpl never.

(** ** Lists *)

Definition sum (l : list Z) : Z := fold_right Z.add 0 l.

Lemma parts_tuple l : parts (VTuple l) = 1 + sum (map parts l).
Proof. cbn [parts]. f_equal. induction l; cbn [map sum fold_right]; auto. unfold sum in *. congruence. Qed.

Lemma parts_struct c a : parts (VStruct c a) = 1 + sum (map (fun x => parts (snd x)) a).
Proof. cbn [parts]. f_equal. induction a as [|[k x] a IH]; cbn [map sum fold_right snd]; auto. unfold sum in *. congruence. Qed.

Lemma nodes_struct m bo ms : nodes (DStructure m bo ms) = 1 + sum (map (fun x => 1 + nodes x) ms).
Proof. cbn [nodes]. f_equal. induction ms; cbn [map sum fold_right]; auto. unfold sum in *. congruence. Qed.

Lemma nodes_group m bo b i df ms : nodes (DGroup m bo b i df ms) =
  1 + nodes b + match df with Some x => nodes x | None => 0 end + sum (map (fun x => 1 + nodes x) ms).
Proof. cbn [nodes]. f_equal. induction ms; cbn [map sum fold_right]; auto. unfold sum in *. congruence. Qed.

Lemma sum_app a b : sum (a ++ b) = sum a + sum b.
Proof. unfold sum. induction a; cbn [app fold_right]; lia. Qed.

Lemma sum_le {A} (f g : A -> Z) l : (forall x, In x l -> f x <= g x) -> sum (map f l) <= sum (map g l).
Proof.
  induction l as [|x l IH]; intros H; cbn [map sum fold_right]; [lia|].
  pose proof (H x (or_introl eq_refl)). specialize (IH (fun y I => H y (or_intror I))). unfold sum in IH. lia.
Qed.

Lemma sum_nonneg {A} (f : A -> Z) l : (forall x, In x l -> 0 <= f x) -> 0 <= sum (map f l).
Proof.
  induction l as [|x l IH]; intros H; cbn [map sum fold_right]; [lia|].
  pose proof (H x (or_introl eq_refl)). specialize (IH (fun y I => H y (or_intror I))). unfold sum in IH. lia.
Qed.

Lemma sum_const {A} k (l : list A) : sum (map (fun _ => k) l) = k * len l.
Proof.
  unfold len. induction l as [|x l IH]; cbn [map sum fold_right List.length]; [lia|]. unfold sum in IH. lia.
Qed.

Lemma parts_pos v : 1 <= parts v.
Proof.
  revert v. fix IH 1. intros v. destruct v; cbn [parts]; try lia; try (unfold len; lia).
  - assert (0 <= (fix go (l : list pyval) : Z := match l with [] => 0 | x :: r => parts x + go r end) l); [|lia].
    induction l as [|x l I]; [lia|]. specialize (IH x). lia.
  - assert (0 <= (fix go (l : list (string * pyval)) : Z := match l with [] => 0 | (_, x) :: r => parts x + go r end) attrs); [|lia].
    induction attrs as [|[k x] l I]; [lia|]. specialize (IH x). lia.
Qed.

Lemma nodes_union m bo ms : nodes (DUnion m bo ms) = 1 + sum (map (fun x => 1 + nodes x) ms).
Proof. cbn [nodes]. f_equal. induction ms; cbn [map sum fold_right]; auto. unfold sum in *. congruence. Qed.

Lemma nodes_family m b ms : nodes (DFamily m b ms) = 1 + nodes b + sum (map (fun x => 1 + nodes x) ms).
Proof. cbn [nodes]. f_equal. induction ms; cbn [map sum fold_right]; auto. unfold sum in *. congruence. Qed.

Lemma nodes_pos d : 1 <= nodes d.
Proof.
  assert (L : forall ms, Forall (fun x => 1 <= nodes x) ms -> 0 <= sum (map (fun x => 1 + nodes x) ms)).
  { intros ms F. rewrite Forall_forall in F. apply sum_nonneg. intros x I. specialize (F x I). cbn in F. lia. }
  induction d using dtype_rect'; rewrite ?nodes_struct, ?nodes_union, ?nodes_family, ?nodes_group;
    try (cbn [nodes]; lia); repeat match goal with H : Forall _ _ |- _ => apply L in H end; try lia.
  destruct df; cbn in *; lia.
Qed.

Lemma nodes_type m : nodes (type_of m) = nodes m.
Proof. destruct m; reflexivity. Qed.

(** ** Values *)

(** Values of the map have at most [c] parts and [k] more per byte. *)
Definition bounded (orc : oracle) (m : dmap) (c k : Z) : Prop :=
  forall fuel bs off vals depth v n, 0 <= off <= len bs -> maps orc fuel m bs off vals depth v n -> parts v <= c + k * n.

Lemma bounded_more orc m c k c' k' : contained orc m -> bounded orc m c k -> c <= c' -> k <= k' -> bounded orc m c' k'.
Proof.
  intros C B L1 L2 fuel bs off vals depth v n Ho M. pose proof (B _ _ _ _ _ _ _ Ho M).
  pose proof (contained_nonneg _ _ C _ _ _ _ _ _ _ Ho M). nia.
Qed.

Lemma unpack_small en cs bs v : In v (unpack_codes en cs bs) -> parts v = 1.
Proof.
  revert bs. induction cs as [|c cs IH]; intros bs I; [destruct I|]. cbn [unpack_codes] in I. destruct I as [<-|I]; [|eauto].
  unfold unpack1. destruct c; cbn [code_signed]; reflexivity.
Qed.

Lemma map_value_small d v w : parts v = 1 -> map_value d v = Ok w -> parts w <= 2.
Proof.
  intros P M. assert (Q : w = v \/ parts w <= 2); [|destruct Q as [->|]; lia].
  destruct d, v; cbn in M; try (inversion M; subst; left; reflexivity).
  - right. unfold boolean_map_value in M.
    repeat match goal with _ : context [match ?x with _ => _ end] |- _ => destruct x end; inversion M; subst; cbn; lia.
  - right. destruct (_ && _); inversion M; subst. reflexivity.
Qed.

Lemma prim_bounded orc d op : bounded orc (MPrim d op) 2 0.
Proof.
  intros fuel bs off vals depth v n Ho M. apply maps_fst in M. cbn [mapbs] in M. unfold map_prim in M.
  destruct (get_byte_size d) as [b|]; [|discriminate]. destruct (_ <? _); [discriminate|].
  destruct op as [o|]; [|discriminate]. cbn [bind] in M. unfold read_from in M. destruct (len _ <? op_size o); [discriminate|]. cbn [bind] in M.
  destruct (unpack_codes _ _ _) as [|x [|]] eqn:U; try discriminate.
  assert (P : parts x = 1) by (eapply unpack_small; rewrite U; now left).
  destruct (map_value d x) as [w| |] eqn:W; try discriminate. cbn in M. injection M as <-.
  pose proof (map_value_small _ _ _ P W). lia.
Qed.

Lemma uuid_bounded orc d : bounded orc (MUUID d) 1 0.
Proof.
  intros fuel bs off vals depth v n Ho M. apply maps_fst in M. cbn [mapbs] in M. unfold map_uuid in M.
  destruct (get_byte_size d) as [b|]; [|discriminate]. destruct (_ <? _); [discriminate|].
  destruct (dt_byte_order d) as [[]|]; cbn in M; try (injection M as <-; cbn; lia);
    (destruct (len _ =? 16); [injection M as <-; cbn; lia|discriminate]).
Qed.

Lemma slice_len {A} (l : list A) a n : 0 <= a -> 0 <= n -> len (slice l a (a + n)) <= n.
Proof.
  intros Ha Hn. unfold slice, norm_index. rewrite len_firstn.
  destruct (Z.ltb_spec a 0); [lia|]. destruct (Z.ltb_spec (a + n) 0); [lia|]. pose proof (len_nonneg l). lia.
Qed.

Lemma padding_bounded orc mt bo a : 0 < a -> bounded orc (MPadding (DPadding mt bo (Some a))) 1 1.
Proof.
  intros A fuel bs off vals depth v n Ho M. destruct M as (c' & M & N). cbn [mapbs] in M. unfold map_padding in M.
  destruct (a =? 0); [discriminate|]. destruct (_ <? _); [discriminate|]. injection M as <- <-. cbn in N. injection N as <-.
  assert (0 <= padding_size a off).
  { unfold padding_size. pose proof (Z.mod_pos_bound off a A). destruct (Z.ltb_spec 0 (off mod a)); lia. }
  cbn [parts]. pose proof (slice_len bs off (padding_size a off) ltac:(lia) H). lia.
Qed.

Lemma codes_count cs : len cs <= csizes cs.
Proof.
  unfold len. induction cs as [|c cs IH]; cbn [List.length csizes fold_right]; [lia|].
  pose proof (csize_pos c). unfold csizes in IH. lia.
Qed.

(** ** Values that take up space *)

Definition fills (orc : oracle) (m : dmap) : Prop :=
  forall fuel bs off vals depth v n, 0 <= off <= len bs -> maps orc fuel m bs off vals depth v n -> 0 < n.

Lemma occupies_member m : occupies m -> truthy_str (member_cond m) = None /\ occupies (type_of m).
Proof. destruct m; cbn [member_cond type_of]; intros H; auto. Qed.

Lemma occupies_struct mt bo ms : occupies (DStructure mt bo ms) <-> exists m, In m ms /\ occupies m.
Proof.
  cbn [occupies]. induction ms as [|m ms IH]; cbn [In].
  - split; [tauto|]. intros (x & [] & _).
  - rewrite IH. split; [intros [H|(x & I & H)]; eauto|]. intros (x & [->|I] & H); eauto.
Qed.

Lemma occupies_group mt bo b i df ms : occupies (DGroup mt bo b i df ms) <-> on_def occupies df /\ Forall occupies ms.
Proof.
  cbn [occupies]. assert (L : forall ms, (fix go (l : list dtype) : Prop := match l with [] => True | m :: r => occupies m /\ go r end) ms <-> Forall occupies ms).
  { clear. induction ms as [|m ms IH]; split; intros H; auto.
    - constructor; tauto.
    - inversion H; tauto. }
  rewrite L. destruct df; cbn [on_def]; tauto.
Qed.

Lemma prim_fills orc d op : steady (MPrim d op) -> fills orc (MPrim d op).
Proof.
  intros S fuel bs off vals depth v n Ho (c & M & N). cbn [mapbs] in M. unfold map_prim in M.
  destruct (get_byte_size d) as [b|] eqn:B; [|discriminate]. destruct (S _ B) as [P _]. destruct (_ <? _); [discriminate|].
  destruct (match op with Some _ => _ | None => _ end); try discriminate. injection M as <- <-. cbn in N. injection N as <-. auto.
Qed.

Lemma uuid_fills orc d : steady (MUUID d) -> fills orc (MUUID d).
Proof.
  intros S fuel bs off vals depth v n Ho (c & M & N). cbn [mapbs] in M. unfold map_uuid in M.
  destruct (get_byte_size d) as [b|] eqn:B; [|discriminate]. specialize (S _ B). destruct (_ <? _); [discriminate|].
  destruct (match dt_byte_order d with Some _ => _ | None => _ end); try discriminate. injection M as <- <-. cbn in N. injection N as <-. lia.
Qed.

Lemma stream_value orc fuel e ed em bs off vals depth v n : steady (MStream e ed em) -> 0 <= off <= len bs ->
  maps orc fuel (MStream e ed em) bs off vals depth v n ->
  v = VBytes (window bs off n) /\ (stream_size orc e ed vals n \/ 0 < n).
Proof.
  intros [Hb Ht] Ho M. destruct (sized_or_not e ed) as [U|U].
  - destruct (e_terminator e) as [t|] eqn:T.
    + destruct (Ht _ eq_refl) as (b & -> & G & P).
      apply (stream_terminated orc fuel e ed em b bs off vals depth ltac:(lia) U T G P) in M.
      destruct M as (k & K & -> & ->). split; auto. right. destruct K as [K _]. nia.
    + exfalso. apply maps_fst in M. revert M. cbn [mapbs]. unfold map_stream. rewrite T.
      destruct (calc_spec orc e ed vals) as (_ & B & _ & _). apply B in U.
      destruct (calc_data_size orc e ed (Some (ctx_new vals))) as [r c1]. cbn [fst] in U. subst r. discriminate.
  - destruct (stream_sized orc fuel e ed em bs off vals depth ltac:(lia) Hb U) as (A & _).
    apply A in M. destruct M as (S & L & ->). auto.
Qed.

Lemma stream_steady e ed em : steady (MString e ed em) -> steady (MStream e ed em).
Proof. intros H. exact H. Qed.

Lemma steady_terminator e ed em : steady (MStream e ed em) -> byte_terminator (e_terminator e).
Proof.
  intros [_ H]. destruct (e_terminator e) as [t|]; cbn; auto. destruct (H t eq_refl) as (b & -> & _ & L). eauto.
Qed.

Lemma fixed_measure orc f vals k : measure orc f None vals k -> f = Some k /\ 0 < k.
Proof.
  intros [(N & -> & L)|(_ & x & Q & _)]; [|discriminate]. split; auto. lia.
Qed.

Lemma stream_fills orc e ed em : steady (MStream e ed em) ->
  e_data_size_expr e = None -> e_number_expr e = None -> get_byte_size ed <> Some 0 ->
  fills orc (MStream e ed em).
Proof.
  intros S X1 X2 B fuel bs off vals depth v n Ho M.
  destruct (stream_value _ _ _ _ _ _ _ _ _ _ _ S Ho M) as [_ [Z|]]; auto.
  destruct Z as [[_ Z]|(_ & k & b & G & Z & ->)].
  - rewrite X1 in Z. now apply fixed_measure in Z.
  - rewrite X2 in Z. apply fixed_measure in Z. destruct S as [Hb _]. specialize (Hb _ G).
    assert (b <> 0) by congruence. nia.
Qed.

Lemma string_fills orc e ed em : steady (MString e ed em) ->
  e_data_size_expr e = None -> e_number_expr e = None -> get_byte_size ed <> Some 0 ->
  fills orc (MString e ed em).
Proof.
  intros S X1 X2 B fuel bs off vals depth v n Ho M.
  apply (string_layout orc fuel e ed em bs off vals depth (steady_terminator _ _ _ (stream_steady _ _ _ S))) in M.
  destruct M as (l & r & s & M & _). eapply (stream_fills orc e ed em (stream_steady _ _ _ S)); eauto.
Qed.

Lemma linear_seq_size orc e ed em op fuel bs off vals depth v n :
  maps orc fuel (MSequence true e ed em op) bs off vals depth v n ->
  elems_byte_size e (get_byte_size ed) = Some n /\
  exists o d opm t vs, op = Some o /\ em = Some (MPrim d opm) /\ read_from o (slice_from bs off) = Ok t /\ map_values d t = Ok vs /\ v = VTuple vs.
Proof.
  intros (c & M & N). cbn [mapbs] in M. unfold map_seq_linear in M.
  destruct (elems_byte_size _ _) as [b|]; [|discriminate]. destruct (_ <? _); [discriminate|].
  destruct op as [o|]; [|discriminate]. destruct em as [[d opm| | | | | | | | |]|]; try discriminate.
  destruct (read_from _ _) as [t| |] eqn:R; try discriminate. destruct (map_values d t) as [vs| |] eqn:V; try discriminate.
  cbn in M. injection M as <- <-. cbn in N. injection N as <-. split; auto. exists o, d, opm, t, vs. auto 6.
Qed.

Lemma linear_seq_fills orc e ed em op : steady (MSequence true e ed em op) -> e_data_size e = None ->
  fills orc (MSequence true e ed em op).
Proof.
  intros S D fuel bs off vals depth v n Ho M. apply linear_seq_size in M. destruct M as [B _].
  destruct (S _ B) as [P _]. unfold elems_byte_size in B. rewrite D in B. cbn [truthy_Z] in B.
  destruct (truthy_Z (e_number e)) as [k|] eqn:K; [|discriminate]. destruct (truthy_Z (get_byte_size ed)) as [b|] eqn:G; [|discriminate].
  injection B as <-. apply truthy_Z_some in K. apply truthy_Z_some in G. destruct K as [_ K], G as [_ G]. nia.
Qed.

Lemma elements_filled orc fuel x bs depth vs off e : fills orc x ->
  elements orc fuel x bs depth off vs e -> contained orc x -> 0 <= off <= len bs -> len vs <= e - off.
Proof.
  intros F E C. induction E as [off|off v n vs e O M E IH]; intros Ho; [unfold len; cbn; lia|].
  pose proof (F _ _ _ _ _ _ _ Ho M). destruct (C fuel bs off [] (depth + 1) Ho) as [A _].
  destruct (A _ _ M) as (r & R1 & R2 & _). specialize (IH ltac:(lia)). unfold len in *. cbn [List.length]. lia.
Qed.

Lemma seq_elements orc fuel e ed em op bs off vals depth v n :
  extensional orc -> steady (MSequence false e ed em op) -> on_opt (contained orc) em -> 0 <= off <= len bs ->
  maps orc fuel (MSequence false e ed em op) bs off vals depth v n ->
  exists vs number size term, v = VTuple vs /\
    fst (seq_bounds orc e ed (Some (ctx_new vals))) = Ok (number, size, term) /\ accepted number size term vs n /\
    (vs = [] /\ n = 0 \/ exists x, em = Some x /\ elements orc fuel x bs depth off vs (off + n)).
Proof.
  intros X S C Ho M.
  destruct (Z.lt_ge_cases 10 depth) as [D|D].
  { apply maps_fst in M. rewrite too_deep in M by (cbn; auto). discriminate. }
  assert (G : exists x, on_opt (fun y => y = x) em /\ contained orc x /\ (em = None -> x = MSemantic ed) /\
            maps orc fuel (MSequence false e ed (Some x) op) bs off vals depth v n).
  { destruct em as [x|]; cbn in *.
    - exists x. split; auto. split; auto. split; auto. discriminate.
    - exists (MSemantic ed). split; auto. split; [apply semantic_contained|]. split; auto.
      unfold maps in *. now rewrite (seq_none orc fuel e ed op ed) in M. }
  destruct G as (x & Ex & Cx & En & Mx). clear M.
  destruct (fst (seq_bounds orc e ed (Some (ctx_new vals)))) as [[[number size] term]|y|] eqn:B.
  - destruct S as [S1 S2]. pose proof (seq_bounds_terminator _ _ _ _ _ _ _ S1 S2 B) as T.
    apply (sequence_layout orc fuel x bs depth number size term off e ed op vals X ltac:(lia) (contained_nonneg _ _ Cx) T B ltac:(lia)) in Mx.
    destruct Mx as (vs & -> & W & A & I). destruct em as [y|]; cbn in Ex.
    + subst y. exists vs, number, size, term. destruct W. repeat (split; auto). right. eauto.
    + rewrite (En eq_refl) in W. destruct W as [W _]. inversion W; subst.
      * exists [], number, size, term. assert (n = 0) by lia. subst. repeat (split; auto).
      * exfalso. match goal with H : maps _ _ _ _ _ _ _ _ _ |- _ => apply maps_fst in H; discriminate end.
  - exfalso. apply maps_fst in Mx. revert Mx. cbn [mapbs]. unfold map_seq. destruct (_ <? _); [discriminate|].
    destruct (seq_bounds _ _ _ _) as [r c]. cbn [fst] in B. subst r. discriminate.
  - exfalso. apply maps_fst in Mx. revert Mx. cbn [mapbs]. unfold map_seq. destruct (_ <? _); [discriminate|].
    destruct (seq_bounds _ _ _ _) as [r c]. cbn [fst] in B. subst r. discriminate.
Qed.

Lemma seq_fills orc e ed em op : extensional orc -> steady (MSequence false e ed em op) ->
  on_opt (contained orc) em -> on_opt (fills orc) em ->
  e_data_size e = None -> e_data_size_expr e = None -> e_number_expr e = None ->
  fills orc (MSequence false e ed em op).
Proof.
  intros X S C F D1 D2 D3 fuel bs off vals depth v n Ho M.
  destruct (seq_elements _ _ _ _ _ _ _ _ _ _ _ _ X S C Ho M) as (vs & number & size & term & -> & B & A & E).
  assert (NE : vs <> []).
  { intros ->. unfold seq_bounds, has_data_size in B. rewrite D1, D2 in B. cbn [is_some orb] in B.
    destruct (has_terminator e) eqn:T.
    - unfold has_terminator in T. destruct (e_terminator e); [|discriminate]. cbn in B. injection B as <- <- <-.
      destruct A as [A|[(s & A & _)|(t & _ & A & _)]]; congruence.
    - destruct (has_number e) eqn:H; [|discriminate]. unfold eval_number, has_number in *. rewrite D3 in *.
      destruct (e_number e) as [k|]; [|discriminate]. cbn [truthy_Z] in B. destruct (Z.eqb_spec k 0); [discriminate|].
      cbn in B. destruct (k <? 0); [discriminate|]. cbn in B. injection B as <- <- <-. cbn in A. unfold len in A. cbn in A. congruence. }
  destruct E as [[-> _]|(x & -> & E)]; [congruence|]. cbn in C, F.
  pose proof (elements_filled _ _ _ _ _ _ _ _ F E C Ho) as L. destruct vs; [congruence|]. unfold len in L. cbn [List.length] in L. lia.
Qed.

Lemma fields_filled orc fuel cls vals bs depth l s off s' e :
  fields orc fuel cls vals bs depth l s off s' e ->
  Forall (fun f => on_opt (contained orc) (snd (snd f))) l ->
  0 <= off <= len bs ->
  forall d name x, In (d, (name, x)) l -> truthy_str (member_cond d) = None -> on_opt (fills orc) x -> off < e.
Proof.
  intros F. induction F as [s off|d name x r s off v n s' e C M A F IH|d name x r s off s' e C F IH]; intros HC Ho d0 n0 x0 I T Q.
  - destruct I.
  - inversion HC as [|? ? H1 H2]; subst. cbn in H1. destruct (H1 fuel bs off (scope cls s vals) (depth + 1) Ho) as [K _].
    destruct (K _ _ M) as (r0 & R1 & R2 & _).
    destruct (fields_contained _ _ _ _ _ _ _ _ _ _ _ F H2 ltac:(lia)) as (R & L & _).
    destruct I as [I|I].
    + injection I as -> -> <-. cbn in Q. pose proof (Q _ _ _ _ _ _ _ Ho M). lia.
    + pose proof (IH H2 ltac:(lia) _ _ _ I T Q). lia.
  - inversion HC as [|? ? H1 H2]; subst. destruct I as [I|I]; [|eauto].
    injection I as -> -> <-. unfold condition_is in C. rewrite T in C. discriminate.
Qed.

Lemma attrs_contained orc lin d cls ms attrs op : extensional orc -> all_maps steady (MStructure lin d cls ms attrs op) ->
  Forall (fun a => on_opt (contained orc) (snd a)) attrs.
Proof.
  intros X S. apply all_maps_attrs in S. destruct S as [_ S]. eapply Forall_impl; [|exact S].
  intros [k [x|]]; cbn [snd on_opt]; auto. intros Q. now apply steady_contained.
Qed.

Lemma struct_fields orc d cls ms attrs op fuel bs off vals depth v n : extensional orc ->
  steady (MStructure false d cls ms attrs op) ->
  maps orc fuel (MStructure false d cls ms attrs op) bs off vals depth v n ->
  fields orc fuel cls vals bs depth (combine ms attrs) (blank cls attrs) off v (off + n).
Proof.
  intros X [L NE] M. destruct (Z.lt_ge_cases 10 depth) as [D|D].
  { apply maps_fst in M. rewrite too_deep in M by (cbn; auto). discriminate. }
  pose proof (maps_clear _ _ _ _ _ _ _ _ _ _ _ _ _ _ M) as CN.
  apply (structure_layout orc fuel d cls ms attrs op bs off vals depth X L NE CN) in M; auto.
Qed.

Lemma combine_contained orc (ms : list dtype) attrs : Forall (fun a : string * option dmap => on_opt (contained orc) (snd a)) attrs ->
  Forall (fun f => on_opt (contained orc) (snd (snd f))) (combine ms attrs).
Proof.
  rewrite !Forall_forall. intros H [m [k x]] I. apply in_combine_r in I. exact (H _ I).
Qed.

Lemma own_maps orc mt bo ms ov m : everywhere sound (DStructure mt bo ms) ->
  create orc (DStructure mt bo ms) ov = Ok (Some m) ->
  exists lin d cls attrs op, m = MStructure lin d cls ms attrs op /\
    Forall2 (fun y a => exists ov', create orc (type_of y) ov' = Ok (snd a)) ms attrs /\
    (lin = true -> forall o n, op = Some o -> get_byte_size d = Some n -> op_size o = csizes (op_codes o) /\ op_size o = n /\ List.length (op_codes o) = List.length attrs) /\
    ms <> [].
Proof.
  intros E C. rewrite create_apply in C.
  assert (Q : exists mt' bo', apply_ov ov (DStructure mt bo ms) = DStructure mt' bo' ms) by (destruct ov as [[nm b]|]; cbn; eauto).
  destruct Q as (mt' & bo' & Q). rewrite Q in C. clear Q.
  assert (E' : everywhere sound (DStructure mt' bo' ms)).
  { cbn [everywhere] in *. destruct E as [[_ E1] E2]. split; auto. split; auto. }
  assert (Sh : exists lin d cls ms' attrs op, m = MStructure lin d cls ms' attrs op).
  { pose proof C as C'. apply created_structure in C'. apply create_structure_inv in C'.
    destruct C' as (attrs & _ & _ & _ & _ & [(_ & op & _ & ->)|(_ & ->)]); eauto 10. }
  destruct Sh as (lin & d & cls & ms' & attrs & op & ->).
  assert (DT : distinct_types (m_name mt') bo' ms).
  { eapply well_named_distinct. apply everywhere_here in E'. destruct E' as [_ W]. exact W. }
  pose proof (structure_own_maps _ _ _ _ _ _ _ _ _ _ C DT) as F.
  pose proof (created_shape _ _ _ _ _ _ _ _ _ _ _ C) as (_ & -> & _ & NE & _).
  exists lin, d, cls, attrs, op. split; auto. split.
  - clear -F. induction F as [|y a l attrs (_ & H) F IH]; constructor; auto.
    destruct (used_as_ov (m_name mt') bo' y) as [ov' U]. destruct (U orc) as [U1 _]. rewrite U1 in H. eauto.
  - split; auto. intros -> o n Ho Hn. destruct (struct_op_exact _ _ _ _ _ _ _ _ _ _ _ E' C Ho Hn) as (A1 & A2 & A3 & _). auto.
Qed.

Lemma linear_struct_size orc d cls ms attrs op fuel bs off vals depth v n :
  maps orc fuel (MStructure true d cls ms attrs op) bs off vals depth v n ->
  get_byte_size d = Some n /\ exists o t vs, op = Some o /\ read_from o (slice_from bs off) = Ok t /\
    linear_values ms (map snd attrs) t = Ok vs /\ v = new_struct cls (map fst attrs) vs.
Proof.
  intros (c & M & N). cbn [mapbs] in M. unfold map_struct_linear in M.
  destruct (get_byte_size d) as [b|]; [|discriminate]. destruct (_ <? _); [discriminate|].
  destruct op as [o|]; [|discriminate]. destruct (read_from _ _) as [t| |] eqn:R; try discriminate. cbn [bind] in M.
  destruct (linear_values _ _ _) as [vs| |] eqn:V; try discriminate. cbn [bind] in M. unfold instance in M.
  destruct (constructible _ _); [|discriminate]. injection M as <- <-. cbn in N. injection N as <-. split; auto. eauto 8.
Qed.

Lemma Forall2_in {A B} (P : A -> B -> Prop) l l' x : Forall2 P l l' -> In x l -> exists y, In (x, y) (combine l l') /\ P x y.
Proof.
  induction 1 as [|a b l l' H F IH]; intros I; [destruct I|]. destruct I as [<-|I].
  - exists b. cbn. auto.
  - destruct (IH I) as (y & J & K). exists y. cbn. auto.
Qed.

Lemma group_parts orc mt bo b i df ms ov m : create orc (DGroup mt bo b i df ms) ov = Ok (Some m) ->
  exists d bm dm entries, m = MGroup d i bm dm entries /\ create orc b None = Ok bm /\
    match df with Some x => create orc x None = Ok dm | None => dm = None end /\
    Forall (fun a => exists x, In x ms /\ create orc x None = Ok (snd a)) entries.
Proof.
  intros C. rewrite create_apply in C.
  assert (Q : exists mt' bo', apply_ov ov (DGroup mt bo b i df ms) = DGroup mt' bo' b i df ms) by (destruct ov as [[nm o]|]; cbn; eauto).
  destruct Q as (mt' & bo' & Q). rewrite Q in C. apply group_created in C.
  destruct C as (d & bm & dm & vss & entries & -> & B & D & _ & _ & _ & G). exists d, bm, dm, entries. split; auto. split; auto. split; auto.
  apply Forall_forall. intros [k y] I. apply G in I. destruct I as (j & x & vs & N & _ & _ & C). exists x. split; auto. eapply nth_error_In; eauto.
Qed.

Lemma all_steady_ov orc d ov m : everywhere sound d -> create orc d ov = Ok (Some m) -> all_maps steady m.
Proof.
  intros E C. eapply (created_all orc (everywhere sound)); eauto.
  - intros. eapply created_steady; eauto.
  - now apply everywhere_everywhere.
Qed.

Lemma everywhere_struct P mt bo ms : everywhere P (DStructure mt bo ms) -> Forall (fun y => everywhere P (type_of y)) ms.
Proof.
  cbn [everywhere]. intros [_ H]. apply go_forall in H. eapply Forall_impl; [|exact H]. intros y. apply everywhere_type.
Qed.

Lemma everywhere_group P mt bo b i df ms : everywhere P (DGroup mt bo b i df ms) -> everywhere P b /\ on_def (everywhere P) df /\ Forall (everywhere P) ms.
Proof.
  cbn [everywhere]. intros [_ H]. rewrite go_forall in H. destruct df; cbn [on_def]; tauto.
Qed.

Lemma created_contained orc d ov m : extensional orc -> everywhere sound d -> create orc d ov = Ok (Some m) -> contained orc m.
Proof. intros X E C. apply steady_contained; auto. eapply all_steady_ov; eauto. Qed.

Lemma occupies_space orc : extensional orc -> forall d, everywhere sound d -> occupies d ->
  forall ov m, create orc d ov = Ok (Some m) -> fills orc m.
Proof.
  intros X d. induction d as [d IH] using dtype_ind_type. intros E O ov m C.
  pose proof (created_steady _ _ _ _ E C) as S. pose proof (created_contained _ _ _ _ X E C) as K.
  destruct d.
  - cbn in C. destruct false_value, true_value; try discriminate;
      (apply bind_ok in C; destruct C as (o & _ & C); inversion C; subst; now apply prim_fills).
  - cbn in C. apply bind_ok in C; destruct C as (o & _ & C); inversion C; subst; now apply prim_fills.
  - cbn in C. apply bind_ok in C; destruct C as (o & _ & C); inversion C; subst; now apply prim_fills.
  - cbn in C. apply bind_ok in C; destruct C as (o & _ & C); inversion C; subst; now apply prim_fills.
  - cbn in C. inversion C; subst. now apply uuid_fills.
  - destruct O.
  - apply create_elems in C. destruct C as (eov & em & _ & Ce & _ & C).
    assert (EE : e_data_size (elems_of ov e) = e_data_size e /\ e_data_size_expr (elems_of ov e) = e_data_size_expr e /\
      e_number_expr (elems_of ov e) = e_number_expr e) by (destruct ov as [[]|]; auto). destruct EE as (E1 & E2 & E3).
    destruct E as [_ E]. destruct k.
    + cbn [occupies] in O. destruct O as (O1 & O2 & O3 & O4).
      destruct (sequence_is_linear _ _).
      * destruct C as (o & _ & ->). apply linear_seq_fills; auto. congruence.
      * subst m. apply seq_fills; auto; try congruence.
        -- destruct em; cbn; auto. eapply created_contained; eauto.
        -- destruct em; cbn; auto. eapply IH; eauto.
    + cbn [occupies] in O. destruct O as (O1 & O2 & O3). destruct C as [_ ->]. apply stream_fills; auto; try congruence. now rewrite apply_ov_size.
    + cbn [occupies] in O. destruct O as (O1 & O2 & O3). destruct C as [_ ->]. apply string_fills; auto; try congruence. now rewrite apply_ov_size.
  - rename m0 into mt, members into ms. apply occupies_struct in O. destruct O as (y & Iy & Oy).
    apply occupies_member in Oy. destruct Oy as [Ty Oy].
    pose proof (all_steady_ov _ _ _ _ E C) as AS. pose proof (own_maps _ _ _ _ _ _ E C) as (lin & d & cls & attrs & op & -> & F & LN & NE).
    intros fuel bs off vals depth v n Ho M. destruct lin.
    + apply linear_struct_size in M. destruct M as [G (o & t & vs & -> & _)].
      destruct (LN eq_refl _ _ eq_refl G) as (L1 & L2 & L3). pose proof (codes_count (op_codes o)) as CC. unfold len in CC.
      apply Forall2_len in F. destruct ms; [congruence|]. cbn [List.length] in F. rewrite L3, <- F in CC. lia.
    + apply struct_fields in M; auto.
      destruct (Forall2_in _ _ _ _ F Iy) as ([nm x] & I & ov' & Cy). cbn [snd] in Cy.
      pose proof (attrs_contained _ _ _ _ _ _ _ X AS) as AC.
      pose proof (fields_filled _ _ _ _ _ _ _ _ _ _ _ M (combine_contained _ _ _ AC) Ho _ _ _ I Ty) as Q.
      assert (off < off + n); [|lia]. apply Q. destruct x as [x|]; cbn; auto. rewrite Forall_forall in IH. eapply (IH y Iy); eauto.
      apply everywhere_struct in E. rewrite Forall_forall in E. auto.
  - discriminate.
  - discriminate.
  - cbn in C. inversion C; subst. intros fuel bs off vals depth v n _ M. apply maps_fst in M. discriminate.
  - cbn in C. inversion C; subst. intros fuel bs off vals depth v n _ M. apply maps_fst in M. discriminate.
  - cbn in C. inversion C; subst. intros fuel bs off vals depth v n _ M. apply maps_fst in M. discriminate.
  - discriminate.
  - apply occupies_group in O. destruct O as [O1 O2]. destruct IH as (_ & IH1 & IH2). apply everywhere_group in E. destruct E as (Eb & Ed & Em).
    apply group_parts in C. destruct C as (d' & bm & dm & entries & -> & Cb & Cd & Ce).
    intros fuel bs off vals depth v n Ho M. apply (group_layout orc fuel _ _ _ _ _ bs off vals depth X) in M.
    destruct M as (id & y & _ & _ & Ch & My). revert Ho My. apply (chosen_from _ _ _ _ (fills orc)) in Ch; [intros; eapply Ch; eauto| |].
    + destruct default as [x|]; [|subst; cbn; auto]. destruct dm as [z|]; cbn; auto. cbn in *. eapply IH1; eauto.
    + rewrite Forall_forall in *. intros a I. destruct (Ce a I) as (x & Ix & Cx). destruct (snd a); cbn; auto. eapply (IH2 x Ix); eauto.
Qed.

(** ** The bound *)

Lemma unpack_length en cs : forall bs, List.length (unpack_codes en cs bs) = List.length cs.
Proof. induction cs; intros; cbn [unpack_codes List.length]; auto. Qed.

Lemma map_values_small d : forall t vs, Forall (fun v => parts v = 1) t -> map_values d t = Ok vs ->
  List.length vs = List.length t /\ Forall (fun v => parts v <= 2) vs.
Proof.
  induction t as [|v t IH]; intros vs F M; cbn [map_values] in M; [injection M as <-; auto|].
  inversion F; subst. destruct (map_value d v) as [w| |] eqn:W; try discriminate. cbn [bind] in M.
  destruct (map_values d t) as [ws| |] eqn:T; try discriminate. injection M as <-.
  destruct (IH _ H2 eq_refl) as [L G]. cbn [List.length]. split; [congruence|]. constructor; auto. eapply map_value_small; eauto.
Qed.

Lemma linear_values_small : forall t ds ms vs, Forall (fun v => parts v = 1) t -> linear_values ds ms t = Ok vs ->
  Forall (fun v => parts v <= 2) vs.
Proof.
  induction t as [|v t IH]; intros ds ms vs F M; [destruct ds; injection M as <-; auto|].
  inversion F; subst. destruct ds as [|d ds]; [discriminate|]. cbn [linear_values] in M. destruct ms as [|[[p o| | | | | | | | |]|] ms]; try discriminate.
  destruct (map_value p v) as [w| |] eqn:W; try discriminate. cbn [bind] in M. destruct (unsupported _ _); [discriminate|].
  destruct (linear_values ds ms t) as [ws| |] eqn:T; try discriminate. injection M as <-. constructor; eauto. eapply map_value_small; eauto.
Qed.

Lemma read_small o bs t : read_from o bs = Ok t -> Forall (fun v => parts v = 1) t /\ List.length t = List.length (op_codes o).
Proof.
  unfold read_from. destruct (_ <? _); [discriminate|]. intros Q. injection Q as <-. split; [|apply unpack_length].
  apply Forall_forall. intros v I. eapply unpack_small; eauto.
Qed.

Lemma sum_small vs : Forall (fun v => parts v <= 2) vs -> sum (map parts vs) <= 2 * len vs.
Proof.
  intros F. rewrite <- sum_const. apply sum_le. intros x I. rewrite Forall_forall in F. exact (F x I).
Qed.

Lemma linear_seq_bounded orc e ed em op : steady (MSequence true e ed em op) -> bounded orc (MSequence true e ed em op) 1 2.
Proof.
  intros S fuel bs off vals depth v n Ho M. apply linear_seq_size in M.
  destruct M as [B (o & d & opm & t & vs & -> & _ & R & V & ->)]. destruct (S _ B) as [P W]. destruct (W _ eq_refl) as [W1 W2].
  apply read_small in R. destruct R as [R1 R2]. destruct (map_values_small _ _ _ R1 V) as [L F].
  rewrite parts_tuple. pose proof (sum_small _ F). pose proof (codes_count (op_codes o)). unfold len in *. rewrite L, R2 in H. lia.
Qed.

Lemma attrs_small names : forall args, Forall (fun v => parts v <= 2) args ->
  sum (map (fun x => parts (snd x)) (make_attrs names args)) <= 2 * len names.
Proof.
  induction names as [|n names IH]; intros args F; [unfold len; cbn; lia|].
  destruct args as [|a args]; cbn [make_attrs map sum fold_right snd].
  - specialize (IH [] F). unfold sum, len in *. cbn [List.length parts]. lia.
  - inversion F; subst. specialize (IH args H2). unfold sum, len in *. cbn [List.length]. lia.
Qed.

Lemma linear_struct_bounded orc d cls ms attrs op : bounded orc (MStructure true d cls ms attrs op) (1 + 2 * len attrs) 0.
Proof.
  intros fuel bs off vals depth v n Ho M. apply linear_struct_size in M.
  destruct M as [G (o & t & vs & -> & R & V & ->)]. apply read_small in R. destruct R as [R1 R2].
  apply linear_values_small in V; auto. unfold new_struct. rewrite parts_struct. pose proof (attrs_small (map fst attrs) vs V).
  unfold len in *. rewrite map_length in H. lia.
Qed.

Lemma setattr_parts s name v : parts (py_setattr s name v) <= parts s + parts v.
Proof.
  destruct s; cbn [py_setattr]; try (pose proof (parts_pos v); lia).
  rewrite !parts_struct. assert (sum (map (fun x => parts (snd x)) (dict_set name v attrs)) <= sum (map (fun x => parts (snd x)) attrs) + parts v); [|lia].
  induction attrs as [|[k x] l IH]; cbn [dict_set map sum fold_right snd]; [lia|].
  destruct (String.eqb _ _); cbn [map sum fold_right snd]; unfold sum in *; [pose proof (parts_pos x)|]; lia.
Qed.

Lemma fields_bounded orc : forall ms,
  Forall (fun y => exists c k, 0 <= c /\ 0 <= k /\ c + k <= 2 * nodes y /\
    forall ov m, create orc (type_of y) ov = Ok (Some m) -> bounded orc m c k) ms ->
  exists c k, 0 <= c /\ 0 <= k /\ c + k <= 2 * sum (map nodes ms) /\
    forall attrs, Forall (fun a : string * option dmap => on_opt (contained orc) (snd a)) attrs ->
      Forall2 (fun y (a : string * option dmap) => exists ov, create orc (type_of y) ov = Ok (snd a)) ms attrs ->
      forall fuel cls vals bs depth s off s' e, 0 <= off <= len bs ->
        fields orc fuel cls vals bs depth (combine ms attrs) s off s' e ->
        parts s' <= parts s + c + k * (e - off).
Proof.
  intros ms B. induction B as [|y ms (c & k & Hc & Hk & Hs & B) F IH].
  - exists 0, 0. cbn [map sum fold_right]. repeat (split; [lia|]). intros attrs _ _ fuel cls vals bs depth s off s' e Ho Q. inversion Q; subst. lia.
  - destruct IH as (c' & k' & Hc' & Hk' & Hs' & B').
    exists (c + c'), (Z.max k k'). cbn [map sum fold_right]. unfold sum in Hs'. repeat (split; [lia|]).
    intros attrs AC CR fuel cls vals bs depth s off s' e Ho Q.
    inversion CR as [|? a ? attrs' (ov & C1) C2]; subst. inversion AC as [|? ? A1 A2]; subst. cbn [combine] in Q.
    inversion Q as [|d name x r s1 off1 v n s1' e1 CD M AL Q'|d name x r s1 off1 s1' e1 CD Q']; subst; cbn [snd on_opt] in *.
    + destruct (A1 fuel bs off (scope cls s vals) (depth + 1) Ho) as [K _].
      pose proof (B _ _ C1 _ _ _ _ _ _ _ Ho M) as P. destruct (K _ _ M) as (r0 & R1 & R2 & _).
      assert (Ho' : 0 <= off + n <= len bs) by lia.
      pose proof (B' _ A2 C2 _ _ _ _ _ _ _ _ _ Ho' Q') as P'.
      destruct (fields_contained _ _ _ _ _ _ _ _ _ _ _ Q' (combine_contained _ _ _ A2) Ho') as (R & L & _).
      pose proof (setattr_parts s name v).
      assert (k * n <= Z.max k k' * n) by (apply Z.mul_le_mono_nonneg_r; lia).
      assert (k' * (e - (off + n)) <= Z.max k k' * (e - (off + n))) by (apply Z.mul_le_mono_nonneg_r; lia).
      replace (e - off) with (n + (e - (off + n))) by lia. rewrite Z.mul_add_distr_l. lia.
    + pose proof (B' _ A2 C2 _ _ _ _ _ _ _ _ _ Ho Q') as P'.
      destruct (fields_contained _ _ _ _ _ _ _ _ _ _ _ Q' (combine_contained _ _ _ A2) Ho) as (R & L & _).
      assert (k' * (e - off) <= Z.max k k' * (e - off)) by (apply Z.mul_le_mono_nonneg_r; lia). lia.
Qed.

Lemma elements_bounded orc fuel x bs depth c k vs off e : fills orc x -> contained orc x -> bounded orc x c k -> 0 <= c ->
  elements orc fuel x bs depth off vs e -> 0 <= off <= len bs ->
  sum (map parts vs) <= (c + k) * (e - off).
Proof.
  intros F C B Hc E. induction E as [off|off v n vs e O M E IH]; intros Ho; [cbn [map sum fold_right]; lia|].
  pose proof (F _ _ _ _ _ _ _ Ho M). pose proof (B _ _ _ _ _ _ _ Ho M). destruct (C fuel bs off [] (depth + 1) Ho) as [A _].
  destruct (A _ _ M) as (r & R1 & R2 & _). specialize (IH ltac:(lia)). cbn [map sum fold_right]. unfold sum in IH.
  replace (e - off) with (n + (e - (off + n))) by lia. rewrite Z.mul_add_distr_l. nia.
Qed.

Lemma string_bounded orc e ed em : never_longer orc -> steady (MString e ed em) -> bounded orc (MString e ed em) 1 1.
Proof.
  intros NL S fuel bs off vals depth v n Ho M.
  apply (string_layout orc fuel e ed em bs off vals depth (steady_terminator _ _ _ (stream_steady _ _ _ S))) in M.
  destruct M as (l & r & s & M & T & D & ->). destruct (stream_contained orc _ _ _ (stream_steady _ _ _ S) fuel bs off vals depth Ho) as [K _].
  destruct (K _ _ M) as (r0 & R1 & R2 & _).
  apply stream_value in M; auto. destruct M as [Q _]. injection Q as ->.
  apply NL in D. cbn [parts]. assert (len r <= len (window bs off n)).
  { destruct (e_terminator e) as [[]|]; cbn in T; try tauto; [|subst; lia].
    destruct T as [(k & _ & ->)|[_ ->]]; [|lia]. rewrite len_firstn. pose proof (len_nonneg (window bs off n)). lia. }
  rewrite window_len in H by lia. lia.
Qed.

Lemma stream_bounded orc e ed em : steady (MStream e ed em) -> bounded orc (MStream e ed em) 1 1.
Proof.
  intros S fuel bs off vals depth v n Ho M. destruct (stream_contained orc _ _ _ S fuel bs off vals depth Ho) as [K _].
  destruct (K _ _ M) as (r0 & R1 & R2 & _). apply stream_value in M; auto. destruct M as [-> _]. cbn [parts]. rewrite window_len by lia. lia.
Qed.

Lemma seq_bounded orc e ed em op c k : extensional orc -> steady (MSequence false e ed em op) ->
  on_opt (fun x => contained orc x /\ fills orc x /\ bounded orc x c k) em -> 0 <= c -> 0 <= k ->
  bounded orc (MSequence false e ed em op) 1 (c + k).
Proof.
  intros X S E Hc Hk fuel bs off vals depth v n Ho M.
  assert (C : on_opt (contained orc) em) by (destruct em; cbn in *; tauto).
  destruct (seq_elements _ _ _ _ _ _ _ _ _ _ _ _ X S C Ho M) as (vs & number & size & term & -> & _ & _ & Q).
  rewrite parts_tuple. destruct Q as [[-> ->]|(x & -> & Q)]; [cbn [map sum fold_right]; lia|]. cbn in E. destruct E as (E1 & E2 & E3).
  pose proof (elements_bounded _ _ _ _ _ _ _ _ _ _ E2 E1 E3 Hc Q Ho) as B. replace (off + n - off) with n in B by lia. lia.
Qed.

Lemma group_bounded orc ms : extensional orc ->
  Forall (fun x => everywhere sound x) ms ->
  Forall (fun x => exists c k, 0 <= c /\ 0 <= k /\ c + k <= 2 * nodes x /\ forall ov m, create orc x ov = Ok (Some m) -> bounded orc m c k) ms ->
  exists c k, 0 <= c /\ 0 <= k /\ c + k <= 2 * sum (map nodes ms) /\
    forall x ov m, In x ms -> create orc x ov = Ok (Some m) -> bounded orc m c k.
Proof.
  intros X ES F. induction F as [|x ms (c & k & Hc & Hk & Hs & B) F IH].
  - exists 0, 0. cbn [map sum fold_right]. repeat (split; [lia|]). intros x ov m [].
  - inversion ES; subst. destruct (IH H2) as (c' & k' & Hc' & Hk' & Hs' & B'). exists (Z.max c c'), (Z.max k k').
    cbn [map sum fold_right]. unfold sum in Hs'. repeat (split; [lia|]). intros y ov m [<-|I] C.
    + eapply bounded_more; [eapply (created_contained _ x); eauto|eapply B; eauto|lia|lia].
    + eapply bounded_more; [|eapply B'; eauto|lia|lia]. eapply (created_contained _ y); eauto. rewrite Forall_forall in H2. auto.
Qed.

Lemma sum_members ms : sum (map (fun x => 1 + nodes x) ms) = len ms + sum (map nodes ms).
Proof. unfold len. induction ms as [|m ms IH]; cbn [map sum fold_right List.length]; [lia|]. unfold sum in IH. lia. Qed.

Lemma value_bounded orc : extensional orc -> never_longer orc -> forall d,
  everywhere sound d -> everywhere elements_occupy d ->
  exists c k, 0 <= c /\ 0 <= k /\ c + k <= 2 * nodes d /\
    forall ov m, create orc d ov = Ok (Some m) -> bounded orc m c k.
Proof.
  intros X NL d. induction d as [d IH] using dtype_ind_type. intros E O.
  assert (SD : forall ov m, create orc d ov = Ok (Some m) -> steady m) by (intros; eapply created_steady; eauto).
  assert (NN : forall c k m, (forall fuel bs off vals depth v n, ~ maps orc fuel m bs off vals depth v n) -> bounded orc m c k).
  { intros c k m N fuel bs off vals depth v n _ M. apply N in M. destruct M. }
  destruct d.
  - exists 2, 0. cbn [nodes]. repeat (split; [lia|]). intros ov m C. cbn in C. destruct false_value, true_value; try discriminate;
      (apply bind_ok in C; destruct C as (o & _ & C); inversion C; subst; apply prim_bounded).
  - exists 2, 0. cbn [nodes]. repeat (split; [lia|]). intros ov m C. cbn in C. apply bind_ok in C; destruct C as (o & _ & C); inversion C; subst; apply prim_bounded.
  - exists 2, 0. cbn [nodes]. repeat (split; [lia|]). intros ov m C. cbn in C. apply bind_ok in C; destruct C as (o & _ & C); inversion C; subst; apply prim_bounded.
  - exists 2, 0. cbn [nodes]. repeat (split; [lia|]). intros ov m C. cbn in C. apply bind_ok in C; destruct C as (o & _ & C); inversion C; subst; apply prim_bounded.
  - exists 1, 0. cbn [nodes]. repeat (split; [lia|]). intros ov m C. cbn in C. inversion C; subst. apply uuid_bounded.
  - exists 1, 1. cbn [nodes]. repeat (split; [lia|]). intros ov x C. pose proof (SD _ _ C) as S. cbn in C. inversion C; subst.
    destruct S as (mt' & bo' & a & Q & P). rewrite Q. now apply padding_bounded.
  - assert (EE : everywhere sound d /\ everywhere elements_occupy d) by (cbn [everywhere] in *; tauto). destruct EE as [E1 O1].
    destruct (IH E1 O1) as (c & k' & Hc & Hk & Hs & B). pose proof (nodes_pos d).
    destruct k.
    + exists 1, (Z.max 2 (c + k')). cbn [nodes]. repeat (split; [lia|]). intros ov m C.
      pose proof (SD _ _ C) as S. pose proof (created_contained _ _ _ _ X E C) as K.
      apply create_elems in C. destruct C as (eov & em & _ & Ce & _ & C). destruct (sequence_is_linear _ _).
      * destruct C as (o & _ & ->). eapply bounded_more; [exact K|apply linear_seq_bounded; exact S|lia|lia].
      * subst m. eapply bounded_more; [exact K|apply (seq_bounded orc _ _ _ _ c k'); auto|lia|lia].
        destruct em as [x|]; cbn; auto. split; [eapply created_contained; eauto|]. split; [|eauto].
        apply everywhere_here in O. cbn in O. eapply occupies_space; eauto.
    + exists 1, 1. cbn [nodes]. repeat (split; [lia|]). intros ov m C. pose proof (SD _ _ C) as S.
      apply create_elems in C. destruct C as (eov & em & _ & Ce & _ & C). destruct C as [_ ->]. now apply stream_bounded.
    + exists 1, 1. cbn [nodes]. repeat (split; [lia|]). intros ov m C. pose proof (SD _ _ C) as S.
      apply create_elems in C. destruct C as (eov & em & _ & Ce & _ & C). destruct C as [_ ->]. now apply string_bounded.
  - rename m into mt, members into ms. pose proof (everywhere_struct _ _ _ _ E) as E1. pose proof (everywhere_struct _ _ _ _ O) as O1.
    assert (B : Forall (fun y => exists c k, 0 <= c /\ 0 <= k /\ c + k <= 2 * nodes y /\
              forall ov m, create orc (type_of y) ov = Ok (Some m) -> bounded orc m c k) ms).
    { rewrite Forall_forall in *. intros y I. destruct (IH y I (E1 y I) (O1 y I)) as (c & k & R). rewrite nodes_type in R. eauto. }
    destruct (fields_bounded _ _ B) as (c & k & Hc & Hk & Hs & Q).
    pose proof (len_nonneg ms). rewrite nodes_struct, sum_members.
    exists (1 + 2 * len ms + c), k. repeat (split; [lia|]). intros ov m C.
    pose proof (all_steady_ov _ _ _ _ E C) as AS. pose proof (SD _ _ C) as S.
    pose proof (own_maps _ _ _ _ _ _ E C) as (lin & d & cls & attrs & op & -> & F & _ & NE).
    assert (LN : len attrs = len ms) by (apply Forall2_len in F; unfold len; congruence).
    destruct lin.
    + eapply bounded_more; [now apply steady_contained|apply linear_struct_bounded|lia|lia].
    + intros fuel bs off vals depth v n Ho M. apply struct_fields in M; auto.
      pose proof (attrs_contained _ _ _ _ _ _ _ X AS) as AC.
      pose proof (Q _ AC F _ _ _ _ _ _ _ _ _ Ho M) as P. replace (off + n - off) with n in P by lia.
      assert (parts (blank cls attrs) = 1 + len ms); [|lia].
      unfold blank. rewrite parts_struct, map_map. cbn [snd parts]. rewrite sum_const. lia.
  - exists 0, 0. match goal with |- context [nodes ?x] => pose proof (nodes_pos x) end. repeat (split; [lia|]). discriminate.
  - exists 0, 0. match goal with |- context [nodes ?x] => pose proof (nodes_pos x) end. repeat (split; [lia|]). discriminate.
  - exists 0, 0. cbn [nodes]. repeat (split; [lia|]). intros ov x C. cbn in C. inversion C; subst. apply NN. intros ? ? ? ? ? ? ? M. apply maps_fst in M. discriminate.
  - exists 0, 0. cbn [nodes]. repeat (split; [lia|]). intros ov x C. cbn in C. inversion C; subst. apply NN. intros ? ? ? ? ? ? ? M. apply maps_fst in M. discriminate.
  - exists 0, 0. cbn [nodes]. repeat (split; [lia|]). intros ov x C. cbn in C. inversion C; subst. apply NN. intros ? ? ? ? ? ? ? M. apply maps_fst in M. discriminate.
  - exists 0, 0. match goal with |- context [nodes ?x] => pose proof (nodes_pos x) end. repeat (split; [lia|]). discriminate.
  - rename m into mt, members into ms. destruct IH as (_ & IH1 & IH2). apply everywhere_group in E. destruct E as (_ & Ed & Em).
    apply everywhere_group in O. destruct O as (_ & Od & Om). pose proof (nodes_pos d). pose proof (len_nonneg ms).
    assert (G : exists c k, 0 <= c /\ 0 <= k /\ c + k <= 2 * sum (map nodes ms) /\
        forall x ov m, In x ms -> create orc x ov = Ok (Some m) -> bounded orc m c k).
    { apply group_bounded; auto. rewrite Forall_forall in *. auto. }
    destruct G as (c & k & Hc & Hk & Hs & B).
    assert (D : exists c' k', 0 <= c' /\ 0 <= k' /\ c' + k' <= 2 * (match default with Some x => nodes x | None => 0 end) /\
        forall x ov m, default = Some x -> create orc x ov = Ok (Some m) -> bounded orc m c' k').
    { destruct default as [x|]; cbn [on_def] in *.
      - destruct (IH1 Ed Od) as (c' & k' & R1 & R2 & R3 & R4). exists c', k'. repeat (split; [lia|]). intros y ov m Q. injection Q as <-. apply R4.
      - exists 0, 0. repeat (split; [lia|]). discriminate. }
    destruct D as (c' & k' & Hc' & Hk' & Hs' & B').
    exists (Z.max c c'), (Z.max k k'). rewrite nodes_group, sum_members. repeat (split; [lia|]). intros ov m C.
    apply group_parts in C. destruct C as (d' & bm & dm & entries & -> & _ & Cd & Ce).
    intros fuel bs off vals depth v n Ho M. apply (group_layout orc fuel _ _ _ _ _ bs off vals depth X) in M.
    destruct M as (id & y & _ & _ & Ch & My). revert Ho My.
    apply (chosen_from _ _ _ _ (fun y => bounded orc y (Z.max c c') (Z.max k k'))) in Ch; [intros; eapply Ch; eauto| |].
    + destruct default as [x|]; [|subst; cbn; auto]. destruct dm as [z|]; cbn; auto. cbn in *.
      eapply bounded_more; [eapply (created_contained _ x); eauto|eapply (B' x); eauto|lia|lia].
    + rewrite Forall_forall in *. intros a I. destruct (Ce a I) as (x & Ix & Cx). destruct (snd a); cbn; auto.
      eapply bounded_more; [eapply (created_contained _ x); eauto|eapply (B x); eauto|lia|lia].
Qed.

(** A value is no larger than the number of bytes it takes up times twice the
    size of its definition. *)
Theorem value_size orc fuel d m bs off vals depth v n :
  extensional orc -> never_longer orc -> everywhere sound d -> everywhere elements_occupy d ->
  create orc d None = Ok (Some m) -> 0 <= off <= len bs ->
  maps orc fuel m bs off vals depth v n ->
  parts v <= 2 * nodes d * Z.max 1 n.
Proof.
  intros X NL E O C Ho M. destruct (value_bounded orc X NL d E O) as (c & k & Hc & Hk & Hs & B).
  pose proof (B _ _ C _ _ _ _ _ _ _ Ho M) as P.
  assert (k * n <= k * Z.max 1 n) by (apply Z.mul_le_mono_nonneg_l; lia).
  assert (c * 1 <= c * Z.max 1 n) by (apply Z.mul_le_mono_nonneg_l; lia).
  assert ((c + k) * Z.max 1 n <= 2 * nodes d * Z.max 1 n) by (apply Z.mul_le_mono_nonneg_r; lia). lia.
Qed.

(** Definitions that say so take up space. *)
Theorem value_space orc fuel d m bs off vals depth v n :
  extensional orc -> everywhere sound d -> occupies d ->
  create orc d None = Ok (Some m) -> 0 <= off <= len bs ->
  maps orc fuel m bs off vals depth v n -> 0 < n.
Proof. intros X E O C Ho M. exact (occupies_space orc X d E O None m C _ _ _ _ _ _ _ Ho M). Qed.

Lemma space_taken orc d m : extensional orc -> everywhere sound d -> everywhere elements_occupy d ->
  create orc d None = Ok (Some m) -> all_maps (takes_space orc) m.
Proof.
  intros X E O C.
  eapply (created_all orc (fun d => everywhere sound d /\ elements_occupy d)); [| |exact C].
  - clear -X. intros d ov m [E O] C. destruct d; try (cbn in C; discriminate).
    1-6: cbn in C; repeat match goal with H : match ?x with _ => _ end = _ |- _ => destruct x; try discriminate end;
      try (apply bind_ok in C; destruct C as (o & _ & C)); inversion C; subst; exact I.
    + apply create_elems in C. destruct C as (eov & em & _ & Ce & _ & C). destruct k; [|destruct C as [_ ->]; exact I|destruct C as [_ ->]; exact I].
      destruct (sequence_is_linear _ _); [destruct C as (o & _ & ->); exact I|]. subst m. destruct em as [x|]; [|exact I].
      cbn [takes_space]. cbn [everywhere] in E. destruct E as [_ E]. cbn in O. exact (occupies_space orc X d E O eov x Ce).
    + apply own_maps in C; auto. destruct C as (lin & d & cls & attrs & op & -> & _). destruct lin; exact I.
    + cbn in C. inversion C; subst. exact I.
    + cbn in C. inversion C; subst. exact I.
    + cbn in C. inversion C; subst. exact I.
    + apply group_parts in C. destruct C as (d' & bm & dm & entries & -> & _). exact I.
  - apply everywhere_and; auto. now apply everywhere_everywhere.
Qed.

(** Mapping ends if all elements of sequences take up space. *)
Theorem occupied_terminates orc fuel d m bs off vals depth :
  extensional orc -> everywhere sound d -> everywhere elements_occupy d -> create orc d None = Ok (Some m) ->
  0 <= off <= len bs -> (Z.to_nat (len bs - off) < fuel)%nat ->
  fst (mapbs orc fuel m bs off (Some (ctx_new vals)) depth) <> OutOfFuel /\
  forall fuel', (fuel <= fuel')%nat ->
    mapbs orc fuel' m bs off (Some (ctx_new vals)) depth = mapbs orc fuel m bs off (Some (ctx_new vals)) depth.
Proof. intros X E O C Ho L. eapply mapping_terminates; eauto. eapply space_taken; eauto. Qed.
