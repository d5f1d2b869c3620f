(** Termination: the loops over elements end. *)
From Coq Require Import String List ZArith Bool Lia.
From Verif Require Import Base PyVal PyStruct DataTypes ClassFactory DataMaps.
From Verif Require Import BytesProofs ContainerProofs SpecPrim PrimProofs SpecMap SpecCreate MapProofs ContextProofs
  StructProofs LayoutProofs CreateProofs LinearProofs SeqProofs StreamProofs PaddingProofs GroupProofs SteadyProofs WindowProofs SeqKindProofs.
Import ListNotations.
Open Scope Z_scope.
Arguments Z.pow : simpl never.
Arguments Z.mul : simpl never.

(** ** More fuel gives the same result *)

(** The second outcome equals the first one unless that ran out of fuel. *)
Definition refines {A B} (r r' : res A * B) : Prop := fst r <> OutOfFuel -> r' = r.

Definition improves (f f' : mapper) : Prop :=
  forall bs off c depth, refines (f bs off c depth) (f' bs off c depth).

Definition opt_improves (f f' : option mapper) : Prop :=
  match f, f' with
  | Some f, Some f' => improves f f'
  | None, None => True
  | _, _ => False
  end.

Lemma seq_loop_improves f f' bs number size term depth : opt_improves f f' ->
  forall fuel fuel' s, (fuel <= fuel')%nat ->
    seq_loop fuel f bs number size term depth s <> LFuel ->
    seq_loop fuel' f' bs number size term depth s = seq_loop fuel f bs number size term depth s.
Proof.
  intros I. induction fuel as [|k IH]; intros fuel' s L N; [cbn in N; congruence|].
  destruct fuel' as [|k']; [lia|]. cbn [seq_loop] in *.
  destruct (is_empty _); auto. destruct (opt_eqZ _ _); auto. destruct (opt_leZ _ _); auto.
  destruct f as [f|], f' as [f'|]; cbn in I; try contradiction; auto.
  specialize (I bs (q_off s) (Some (q_sub s)) (depth + 1)). unfold refines in I.
  destruct (f bs (q_off s) (Some (q_sub s)) (depth + 1)) as [[v|e|] c']; cbn [fst] in *; [| |congruence].
  - rewrite I by discriminate. destruct (c_byte_size _); auto. destruct (is_term _ _); auto. apply IH; auto; lia.
  - rewrite I by discriminate. destruct e; auto.
Qed.

Lemma struct_loop_improves orc bs depth : forall l l',
  Forall2 (fun a a' => a_name a' = a_name a /\ a_cond a' = a_cond a /\ a_vals a' = a_vals a /\
             opt_improves (a_map a) (a_map a')) l l' ->
  forall i s, struct_loop orc l i bs depth s <> RFuel ->
    struct_loop orc l' i bs depth s = struct_loop orc l i bs depth s.
Proof.
  intros l l' F. induction F as [|a a' l l' (N & C & V & I) F IH]; intros i s H; auto.
  cbn [struct_loop] in *. rewrite C. destruct (eval_condition _ _ _) as [[]| |]; auto.
  destruct (a_map a) as [f|], (a_map a') as [f'|]; cbn in I; try contradiction; auto.
  specialize (I bs (t_off s) (Some (t_sub s)) (depth + 1)). unfold refines in I.
  destruct (f bs (t_off s) (Some (t_sub s)) (depth + 1)) as [[v|e|] c']; cbn [fst] in *; [| |congruence].
  - rewrite I by discriminate. rewrite N, V. destruct (unsupported _ _); auto. destruct (c_byte_size _); auto.
  - rewrite I by discriminate. destruct e; auto.
Qed.

Lemma group_member_improves df df' l l' id : opt_improves df df' ->
  Forall2 (fun a a' => fst a' = fst a /\ opt_improves (snd a) (snd a')) l l' ->
  improves (map_group_member df l id) (map_group_member df' l' id).
Proof.
  intros D F bs off c depth. unfold map_group_member.
  assert (G : opt_improves (match val_get id l with Some m => m | None => df end)
                (match val_get id l' with Some m => m | None => df' end)).
  { unfold val_get. induction F as [|[k f] [k' f'] l l' (K & I) F IH]; auto. cbn in K. subst k'.
    cbn [find fst]. destruct (py_eq id k); auto. }
  destruct (match val_get id l with Some m => m | None => df end) as [f|],
    (match val_get id l' with Some m => m | None => df' end) as [f'|]; cbn in G; try contradiction; [|intros _; reflexivity].
  set (sub := opt_default _ _). specialize (G bs off (Some sub) depth). unfold refines in *.
  destruct (f bs off (Some sub) depth) as [[v|e|] c']; cbn [fst] in *; [| |congruence].
  - intros _. rewrite G by discriminate. reflexivity.
  - intros _. rewrite G by discriminate. destruct e; reflexivity.
Qed.

Lemma in_skipn {A} (x : A) n l : In x (skipn n l) -> In x l.
Proof. revert l. induction n as [|n IH]; intros [|a l] H; cbn in *; auto. Qed.

Lemma map_opt_improves (f : nat -> dmap -> mapper) k k' (x : option dmap) :
  on_opt (fun m => improves (f k m) (f k' m)) x ->
  opt_improves (match x with Some y => Some (f k y) | None => None end)
    (match x with Some y => Some (f k' y) | None => None end).
Proof. destruct x; auto. Qed.

Lemma more_fuel orc m : forall fuel fuel', (fuel <= fuel')%nat -> improves (mapbs orc fuel m) (mapbs orc fuel' m).
Proof.
  induction m using dmap_rect'; intros fuel fuel' L bs off c depth; try (intros _; reflexivity).
  - destruct l; [intros _; reflexivity|]. cbn [mapbs]. unfold map_seq, refines.
    destruct (_ <? _); auto. destruct (seq_bounds _ _ _ _) as [[[[number size] term]|x|] c1]; auto.
    set (s0 := mkSeq _ _ _ _ _ _).
    assert (I : opt_improves (match em with Some x => Some (mapbs orc fuel x) | None => None end)
                  (match em with Some x => Some (mapbs orc fuel' x) | None => None end)).
    { destruct em; cbn; auto. }
    pose proof (seq_loop_improves _ _ bs number size term depth I fuel fuel' s0 L) as Q.
    intros N. rewrite Q; auto. intros E. rewrite E in N. cbn in N. congruence.
  - destruct l; [intros _; reflexivity|]. cbn [mapbs]. rewrite !attrs_of_fields.
    unfold map_struct, refines. destruct (_ <? _); auto.
    set (st := ctx_state c).
    assert (F : forall l, (forall f, In f l -> In (snd f) attrs) ->
       Forall2 (fun a a' => a_name a' = a_name a /\ a_cond a' = a_cond a /\ a_vals a' = a_vals a /\
             opt_improves (a_map a) (a_map a')) (map (attr_of orc fuel) l) (map (attr_of orc fuel') l)).
    { induction l as [|[d0 [nm x]] l IHl]; intros HI; constructor.
      - cbn [attr_of a_name a_cond a_vals a_map fst snd]. repeat split.
        specialize (HI _ (or_introl eq_refl)). cbn [snd] in HI. rewrite Forall_forall in H. specialize (H _ HI).
        cbn [snd] in H. destruct x; cbn in *; auto.
      - apply IHl. intros f I. apply HI. now right. }
    assert (SK : forall {A} (g : A -> attr) n l, skipn n (map g l) = map g (skipn n l)).
    { clear. induction n; destruct l; cbn; auto. }
    rewrite !SK.
    assert (LN : len (map (attr_of orc fuel') (combine ms attrs)) = len (map (attr_of orc fuel) (combine ms attrs)))
      by (unfold len; now rewrite !map_length).
    rewrite LN. destruct (struct_values _ _ _); auto.
    destruct (_ <=? _); auto.
    match goal with |- context [struct_loop orc (map (attr_of orc fuel) ?l) ?i bs depth ?s] =>
      pose proof (struct_loop_improves orc bs depth _ _ (F l ltac:(intros f I; apply in_skipn in I; destruct f as [f1 f2]; apply in_combine_r in I; exact I)) i s) as Q
    end.
    intros N. rewrite Q; auto. intros E. rewrite E in N. cbn in N. congruence.
  - cbn [mapbs]. unfold map_group.
    set (l := map _ maps). set (l' := map (fun x => (fst x, match snd x with Some y => Some (mapbs orc fuel' y) | None => None end)) maps).
    assert (F : Forall2 (fun a a' => fst a' = fst a /\ opt_improves (snd a) (snd a')) l l').
    { subst l l'. clear -H1 L. induction H1 as [|[k x] maps HX HF IH]; cbn; constructor; auto.
      cbn [fst snd] in *. split; auto. destruct x; cbn in *; auto. }
    assert (D : opt_improves (match df with Some x => Some (mapbs orc fuel x) | None => None end)
                  (match df with Some x => Some (mapbs orc fuel' x) | None => None end)) by (destruct df; cbn in *; auto).
    destruct (s_member_identifier _) as [id|]; [now apply group_member_improves|].
    destruct b as [x|]; [|intros _; reflexivity]. cbn in H.
    specialize (H fuel fuel' L bs off (Some (opt_default (ctx_new []) (s_context (ctx_state c)))) depth).
    unfold refines in *.
    destruct (mapbs orc fuel x bs off _ depth) as [[v|e|] c']; cbn [fst] in *; [| |congruence].
    + rewrite H by discriminate.
      pose proof (group_member_improves _ _ _ _ (py_getattr v i) D F) as G.
      destruct (py_getattr v i); [intros _; reflexivity|..]; apply G.
    + rewrite H by discriminate. destruct e; intros _; reflexivity.
Qed.

(** ** The fuel that suffices *)

(** Mapping ends with as much fuel as there are bytes left, and one more. *)
Definition ends (orc : oracle) (m : dmap) : Prop :=
  forall fuel bs off vals depth, 0 <= off <= len bs -> (Z.to_nat (len bs - off) < fuel)%nat ->
    fst (mapbs orc fuel m bs off (Some (ctx_new vals)) depth) <> OutOfFuel.

Lemma map_value_ends d v : map_value d v <> OutOfFuel.
Proof.
  destruct d, v; cbn; try discriminate;
    try (unfold boolean_map_value; repeat match goal with |- context [match ?x with _ => _ end] => destruct x end; discriminate);
    destruct (_ && _); discriminate.
Qed.

Lemma map_values_ends d l : map_values d l <> OutOfFuel.
Proof.
  induction l as [|v l IH]; cbn; [discriminate|]. pose proof (map_value_ends d v).
  destruct (map_value d v); cbn; try congruence. destruct (map_values d l); cbn; congruence.
Qed.

Lemma linear_values_ends : forall ms vs xs, linear_values ms xs vs <> OutOfFuel.
Proof.
  induction ms as [|m ms IH]; intros [|v vs] xs; cbn; try discriminate.
  destruct xs as [|[[]|] xs]; try discriminate.
  pose proof (map_value_ends d v). destruct (map_value d v); cbn; try congruence.
  destruct (unsupported _ _); [discriminate|]. specialize (IH vs xs). destruct (linear_values ms xs vs); cbn; congruence.
Qed.

Lemma read_ends o b : read_from o b <> OutOfFuel.
Proof. unfold read_from. destruct (_ <? _); discriminate. Qed.

Lemma prim_ends orc d op : ends orc (MPrim d op).
Proof.
  intros fuel bs off vals depth _ _. cbn [mapbs]. unfold map_prim. destruct (get_byte_size d); [|discriminate].
  destruct (_ <? _); [discriminate|]. destruct op as [o|]; [|discriminate].
  pose proof (read_ends o (slice_from bs off)). destruct (read_from _ _) as [t| |]; cbn; try congruence; try discriminate.
  destruct t as [|v []]; try discriminate. pose proof (map_value_ends d v). destruct (map_value d v); cbn; congruence.
Qed.

Lemma uuid_ends orc d : ends orc (MUUID d).
Proof.
  intros fuel bs off vals depth _ _. cbn [mapbs]. unfold map_uuid. destruct (get_byte_size d); [|discriminate].
  destruct (_ <? _); [discriminate|]. destruct (dt_byte_order d) as [[]|]; try destruct (_ =? _); discriminate.
Qed.

Lemma padding_ends orc d : steady (MPadding d) -> ends orc (MPadding d).
Proof.
  intros (mt & bo & a & -> & P) fuel bs off vals depth _ _. cbn [mapbs]. unfold map_padding.
  cbn. destruct (Z.eqb_spec a 0); [lia|]. destruct (_ <? _); discriminate.
Qed.

Lemma linear_seq_ends orc e ed em op : ends orc (MSequence true e ed em op).
Proof.
  intros fuel bs off vals depth _ _. cbn [mapbs]. unfold map_seq_linear.
  destruct (elems_byte_size _ _); [|discriminate]. destruct (_ <? _); [discriminate|].
  destruct op as [o|]; [|discriminate]. destruct em as [[]|]; try discriminate.
  pose proof (read_ends o (slice_from bs off)). destruct (read_from _ _) as [t| |]; cbn; try congruence; try discriminate.
  pose proof (map_values_ends d t). destruct (map_values d t); cbn; congruence.
Qed.

Lemma linear_struct_ends orc d cls ms attrs op : ends orc (MStructure true d cls ms attrs op).
Proof.
  intros fuel bs off vals depth _ _. cbn [mapbs]. unfold map_struct_linear.
  destruct (get_byte_size d); [|discriminate]. destruct (_ <? _); [discriminate|].
  destruct op as [o|]; [|discriminate].
  pose proof (read_ends o (slice_from bs off)). destruct (read_from _ _) as [t| |]; cbn; try congruence; try discriminate.
  pose proof (linear_values_ends ms t (map snd attrs)). destruct (linear_values _ _ _) as [vs| |]; cbn; try congruence.
  destruct (instance_cases cls (map fst attrs) vs) as [-> | ->]; cbn; congruence.
Qed.

Lemma stream_ends orc e ed em : steady (MStream e ed em) -> ends orc (MStream e ed em).
Proof.
  intros [S1 S2] fuel bs off vals depth Ho _. cbn [mapbs]. unfold map_stream.
  destruct (calc_spec orc e ed vals) as (_ & _ & _ & N).
  destruct (calc_data_size _ _ _ _) as [[[n|]|x|] c1]; cbn [fst] in *; try congruence; try discriminate.
  - destruct (_ <? _); discriminate.
  - destruct (e_terminator e) as [t|]; [|discriminate]. destruct (S2 _ eq_refl) as (b & -> & B & P). rewrite B.
    destruct (scan_spec b bs off P (scan_fuel bs off) off ltac:(lia)) as [(k & K1 & S)|(N' & v & d & S & V)].
    + unfold scan_fuel. lia.
    + unfold scan_fuel. lia.
    + rewrite S. destruct (negb _); [discriminate|]. discriminate.
    + rewrite S. destruct (negb _); discriminate.
Qed.

Lemma string_ends orc e ed em : steady (MString e ed em) -> ends orc (MString e ed em).
Proof.
  intros St fuel bs off vals depth Ho Hf. pose proof (stream_ends orc e ed em St fuel bs off vals depth Ho Hf) as SE.
  cbn [mapbs] in *. unfold map_string. destruct (map_stream _ _ _ _ _ _ _) as [[v|x|] c1]; cbn [fst] in *; try congruence.
  destruct v; try discriminate. destruct (e_terminator e) as [t|] eqn:T; [|destruct (o_decode _ _ _); discriminate].
  destruct St as [_ St]. destruct (St _ T) as (tb & -> & _ & P). cbn [py_len bind].
  assert (C : forall k o, 0 <= o -> (Z.to_nat (len b - o) < k)%nat -> string_cut k b (VBytes tb) (len tb) o <> OutOfFuel).
  { induction k as [|k IH]; intros o Hq L; [lia|]. cbn [string_cut]. destruct (Z.ltb_spec o (len b)); [|discriminate].
    destruct (bytes_is _ _); [discriminate|]. apply IH; lia. }
  specialize (C (S (List.length b)) 0 ltac:(lia)).
  assert (L : (Z.to_nat (len b - 0) < S (List.length b))%nat) by (unfold len; lia). specialize (C L).
  destruct (string_cut _ _ _ _ _); cbn [bind] in *; [destruct (o_decode _ _ _); discriminate|discriminate|congruence].
Qed.

Lemma structure_ends orc d cls ms attrs op : extensional orc ->
  steady (MStructure false d cls ms attrs op) ->
  Forall (fun a => on_opt (contained orc) (snd a)) attrs -> Forall (fun a => on_opt (ends orc) (snd a)) attrs ->
  ends orc (MStructure false d cls ms attrs op).
Proof.
  intros X [SL SN] C H fuel bs off vals depth Ho Hf.
  destruct (Z.lt_ge_cases 10 depth) as [D|D]; [rewrite too_deep by (cbn; auto); discriminate|].
  destruct (clear_dec cls (map fst attrs)) as [CN|CN]; [|rewrite (unclear_run _ _ _ _ _ _ _ _ _ _ _ CN D); discriminate].
  destruct (struct_runs orc fuel d cls ms attrs op bs off vals depth X SL SN CN D) as (O & F & _).
  rewrite F. set (o := struct_loop _ _ _ _ _ _) in *. destruct o as [t|i t|e t|]; try discriminate.
  exfalso. cbn in O. destruct O as (before & m & name & x & after & s1 & o1 & E & B & (_ & y & -> & Q)).
  assert (C' : Forall (fun f : field => on_opt (contained orc) (snd (snd f))) (combine ms attrs)) by exact (Forall_combine _ ms attrs C).
  assert (H' : Forall (fun f : field => on_opt (ends orc) (snd (snd f))) (combine ms attrs)) by exact (Forall_combine _ ms attrs H).
  rewrite E in C', H'. apply Forall_app in C'. destruct C' as [C1 _]. apply Forall_app in H'. destruct H' as [_ H2]. inversion H2 as [|? ? Hy _]; subst.
  destruct (fields_monotone _ _ _ _ _ _ _ _ _ _ _ [] B C1 Ho) as [Lo _].
  cbn in Hy. eapply Hy; [|  |exact Q]; lia.
Qed.

Lemma seq_ends orc e ed em op : extensional orc -> steady (MSequence false e ed em op) ->
  takes_space orc (MSequence false e ed em op) ->
  on_opt (contained orc) em -> on_opt (ends orc) em -> ends orc (MSequence false e ed em op).
Proof.
  intros X [S1 S2] T C H fuel bs off vals depth Ho Hf.
  destruct (Z.lt_ge_cases 10 depth) as [D|D]; [rewrite too_deep by (cbn; auto); discriminate|].
  assert (G : exists x, contained orc x /\ ends orc x /\
     (forall fuel bs off vals depth v n, 0 <= off <= len bs -> maps orc fuel x bs off vals depth v n -> 0 < n) /\
     fst (mapbs orc fuel (MSequence false e ed em op) bs off (Some (ctx_new vals)) depth) =
     fst (mapbs orc fuel (MSequence false e ed (Some x) op) bs off (Some (ctx_new vals)) depth)).
  { destruct em as [x|].
    - exists x. auto.
    - exists (MSemantic ed). split; [apply semantic_contained|]. split; [intros ? ? ? ? ? _ _; discriminate|].
      split; [intros ? ? ? ? ? ? ? _ (? & Q & _); discriminate|]. now rewrite <- seq_none. }
  destruct G as (x & Cx & Hx & Tx & ->). clear C H T em.
  cbn [mapbs]. destruct (seq_bounds orc e ed (Some (ctx_new vals))) as [[[[number size] term]|y|] c1] eqn:B.
  - assert (TN : term <> Some VNone).
    { apply (seq_bounds_terminator orc e ed (Some (ctx_new vals)) number size term S1 S2). now rewrite B. }
    destruct (sequence_layout orc fuel x bs depth number size term off e ed op vals X ltac:(lia) (contained_nonneg _ _ Cx) TN) as (_ & _ & _ & L & _);
      [now rewrite B|auto|].
    change (fst (mapbs orc fuel (MSequence false e ed (Some x) op) bs off (Some (ctx_new vals)) depth) <> OutOfFuel).
    intros Q. apply L in Q. destruct Q as (vs & n & [W _] & Q).
    assert (G : forall vs off e, 0 <= off <= len bs -> elements orc fuel x bs depth off vs e -> len vs <= e - off /\ off <= e <= len bs).
    { clear -Tx Cx. induction vs as [|v vs IH]; intros off e Ho E; inversion E; subst.
      - change (len (@nil pyval)) with 0. lia.
      - match goal with M : maps _ _ _ _ _ _ _ _ _ |- _ => pose proof (Tx _ _ _ _ _ _ _ Ho M); destruct (maps_monotone _ _ _ _ _ _ _ _ _ [] Cx Ho M) as (? & ? & _) end.
        match goal with K : elements _ _ _ _ _ _ _ _ |- _ => apply IH in K; [|lia] end. rewrite len_cons. lia. }
    apply G in W; auto.
    destruct Q as [(_ & _ & _ & Q)|(Q & _)].
    + eapply Hx; [| |exact Q]; lia.
    + unfold len in *. lia.
  - cbn. unfold map_seq. destruct (_ <? _); [discriminate|]. rewrite B. discriminate.
  - exfalso. clear -B. unfold seq_bounds in B. destruct (has_data_size e).
    + destruct (eval_data_size_spec orc e vals) as (_ & _ & N). cbn [ctx_values c_values ctx_new] in B.
      destruct (eval_data_size orc e vals); cbn in *; try congruence.
      destruct (get_byte_size ed); [destruct (_ =? _); discriminate|].
      destruct ed; cbn in B; try discriminate. destruct (e_terminator e0); discriminate.
    + destruct (has_terminator e); [destruct (e_terminator e); discriminate|].
      destruct (has_number e); [|discriminate].
      destruct (eval_number_spec orc e (Some (ctx_new vals))) as (_ & _ & N).
      destruct (eval_number orc e (Some (ctx_new vals))) as [[]]; cbn in *; try congruence.
Qed.

Lemma group_ends orc d i b df entries : on_opt (ends orc) b -> on_opt (ends orc) df ->
  Forall (fun a => on_opt (ends orc) (snd a)) entries -> ends orc (MGroup d i b df entries).
Proof.
  intros Hb Hd He fuel bs off vals depth Ho Hf. cbn [mapbs]. unfold map_group.
  cbn [ctx_state ctx_new c_state st_empty s_member_identifier s_context opt_default].
  destruct b as [x|]; [|discriminate]. cbn in Hb. specialize (Hb fuel bs off [] depth Ho Hf).
  destruct (mapbs orc fuel x bs off (Some (ctx_new [])) depth) as [[v|ex|] c']; cbn [fst] in *; try congruence.
  2:{ destruct ex; discriminate. }
  assert (M : forall id c, s_context (ctx_state c) = None -> fst (map_group_member
      (match df with Some x => Some (mapbs orc fuel x) | None => None end)
      (map (fun x => (fst x, match snd x with Some y => Some (mapbs orc fuel y) | None => None end)) entries) id
      bs off c depth) <> OutOfFuel).
  { intros id c Hc. unfold map_group_member. rewrite Hc. cbn [opt_default].
    assert (G : forall f, (match val_get id (map (fun x => (fst x, match snd x with Some y => Some (mapbs orc fuel y) | None => None end)) entries) with
         | Some m => m | None => match df with Some x => Some (mapbs orc fuel x) | None => None end end) = Some f ->
         exists y, f = mapbs orc fuel y /\ ends orc y).
    { intros f. clear -He Hd. unfold val_get. induction entries as [|[k y] l IH]; cbn [map find fst].
      - destruct df; [|discriminate]. intros Q. inversion Q. eauto.
      - inversion He; subst. destruct (py_eq id k); [|now apply IH]. cbn [snd]. destruct y; [|discriminate].
        intros Q; inversion Q. eauto. }
    destruct (match val_get id _ with Some m => m | None => _ end) as [f|]; [|discriminate].
    destruct (G f eq_refl) as (y & -> & Hy). specialize (Hy fuel bs off [] depth Ho Hf).
    destruct (mapbs orc fuel y bs off (Some (ctx_new [])) depth) as [[w|ex|] c2]; cbn [fst] in *; try congruence; try discriminate.
    destruct ex; discriminate. }
  destruct (py_getattr v i); [discriminate|..]; apply M; reflexivity.
Qed.

Lemma steady_ends orc m : extensional orc -> all_maps steady m -> all_maps (takes_space orc) m -> ends orc m.
Proof.
  intros X. induction m using dmap_rect'; intros S T.
  - apply prim_ends.
  - apply uuid_ends.
  - apply padding_ends. exact (all_maps_here _ _ S).
  - destruct l; [apply linear_seq_ends|].
    pose proof (all_maps_here _ _ S) as S0. pose proof (all_maps_here _ _ T) as T0.
    apply (all_maps_elem steady (MSequence false e ed em op) em eq_refl) in S. destruct S as [_ S].
    apply (all_maps_elem (takes_space orc) (MSequence false e ed em op) em eq_refl) in T. destruct T as [_ T].
    apply seq_ends; auto; destruct em; cbn in *; auto. now apply steady_contained.
  - apply stream_ends. exact (all_maps_here _ _ S).
  - apply string_ends. exact (all_maps_here _ _ S).
  - destruct l; [apply linear_struct_ends|]. pose proof (all_maps_here _ _ S) as S0.
    apply all_maps_attrs in S. destruct S as [_ S]. apply all_maps_attrs in T. destruct T as [_ T].
    apply structure_ends; auto; rewrite Forall_forall in *; intros a I; specialize (H a I); specialize (S a I); specialize (T a I);
      destruct (snd a); cbn in *; auto. now apply steady_contained.
  - intros ? ? ? ? ? _ _; discriminate.
  - intros ? ? ? ? ? _ _; discriminate.
  - apply all_maps_group in S. destruct S as (_ & S1 & S2 & S3). apply all_maps_group in T. destruct T as (_ & T1 & T2 & T3).
    apply group_ends.
    + destruct b; cbn in *; auto.
    + destruct df; cbn in *; auto.
    + rewrite Forall_forall in *. intros a I. specialize (S3 a I). specialize (H1 a I). specialize (T3 a I). destruct (snd a); cbn in *; auto.
Qed.

(** C26 *)
Lemma mapping_terminates orc fuel d m bs off vals depth :
  extensional orc -> everywhere sound d -> create orc d None = Ok (Some m) -> all_maps (takes_space orc) m ->
  0 <= off <= len bs -> (Z.to_nat (len bs - off) < fuel)%nat ->
  fst (mapbs orc fuel m bs off (Some (ctx_new vals)) depth) <> OutOfFuel /\
  forall fuel', (fuel <= fuel')%nat ->
    mapbs orc fuel' m bs off (Some (ctx_new vals)) depth = mapbs orc fuel m bs off (Some (ctx_new vals)) depth.
Proof.
  intros X E C T Ho Hf.
  assert (N : fst (mapbs orc fuel m bs off (Some (ctx_new vals)) depth) <> OutOfFuel).
  { apply steady_ends; auto. eapply all_steady; eauto. }
  split; auto. intros fuel' L. apply (more_fuel orc m fuel fuel' L). exact N.
Qed.

Lemma fuel_irrelevant orc m fuel fuel' bs off c depth r :
  mapbs orc fuel m bs off c depth = r -> fst r <> OutOfFuel -> (fuel <= fuel')%nat ->
  mapbs orc fuel' m bs off c depth = r.
Proof. intros <- N L. now apply (more_fuel orc m fuel fuel' L). Qed.
