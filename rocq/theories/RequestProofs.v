(** What the requested size of a context says after an attempt to map. *)
From Coq Require Import String List ZArith Bool Lia.
From Verif Require Import Base PyVal PyStruct DataTypes ClassFactory DataMaps.
From Verif Require Import BytesProofs SpecPrim SpecMap SpecRequest MapProofs.
Import ListNotations.
Open Scope Z_scope.

Lemma value_not_small d v : map_value d v <> Raise ByteStreamTooSmallError.
Proof.
  unfold map_value, boolean_map_value. destruct d, v; try discriminate.
  - destruct (match false_value with Some _ => _ | None => _ end); [discriminate|].
    destruct (match true_value with Some _ => _ | None => _ end); [discriminate|].
    destruct false_value, true_value; discriminate.
  - destruct (_ && _); discriminate.
Qed.

Lemma values_not_small d l : map_values d l <> Raise ByteStreamTooSmallError.
Proof.
  induction l as [|v l IH]; cbn; [discriminate|]. pose proof (value_not_small d v).
  destruct (map_value d v); cbn; try congruence. destruct (map_values d l); cbn; congruence.
Qed.

Lemma sized_stream orc e el x : c_state x = st_empty -> ~ unsized_stream e el ->
  match calc_data_size orc e el (Some x) with
  | (Ok o, Some y) => o <> None
  | (Ok _, None) => False
  | (Raise z, _) => z <> ByteStreamTooSmallError
  | (OutOfFuel, _) => True
  end.
Proof.
  intros S U. unfold calc_data_size, unsized_stream in *. cbn [ctx_state]. rewrite S. cbn [s_elements_data_size st_empty truthy_Z s_number_of_elements].
  assert (K : forall r, check_size r <> Raise ByteStreamTooSmallError).
  { intros []; cbn; try discriminate. destruct (_ <? _); discriminate. }
  destruct (has_data_size e).
  - unfold eval_data_size. destruct (truthy_Z _).
    + pose proof (K (EvInt z)). destruct (check_size _); cbn; try exact I; congruence.
    + destruct (truthy_str _); cbn; [|congruence]. pose proof (K (o_eval orc s (ns (ctx_values (Some x))))). cbn in H.
      destruct (check_size _); cbn; try exact I; congruence.
  - destruct (has_number e); [|tauto]. destruct (get_byte_size el); [|tauto].
    unfold eval_number. destruct (truthy_Z _).
    + pose proof (K (EvInt z0)). destruct (check_size _); cbn; try exact I; congruence.
    + destruct (truthy_str _); cbn; [|congruence]. pose proof (K (o_eval orc s (ns (c_values x)))).
      destruct (check_size _); cbn; try exact I; congruence.
Qed.

Lemma unsized_calc orc e el x : c_state x = st_empty -> unsized_stream e el ->
  calc_data_size orc e el (Some x) = (Ok None, Some x).
Proof.
  intros S [H N]. unfold calc_data_size. cbn [ctx_state]. rewrite S. cbn [s_elements_data_size st_empty truthy_Z].
  rewrite H. destruct (has_number e); auto. destruct N as [N|N]; [discriminate|]. now rewrite N.
Qed.

(** What the sized part of a stream does. *)
Lemma stream_request orc e el x : c_state x = st_empty -> ~ unsized_stream e el ->
  exists o, forall bs off depth,
    match map_stream orc e el bs off (Some x) depth with
    | (Ok (VBytes _), Some y) => c_requested_size y = o /\ c_byte_size y = o /\ exists n, o = Some n /\ n <= len bs - off
    | (Ok _, _) => False
    | (Raise ByteStreamTooSmallError, Some y) => c_requested_size y = o /\ exists n, o = Some n /\ len bs - off < n
    | (Raise ByteStreamTooSmallError, None) => False
    | _ => True
    end.
Proof.
  intros S U. pose proof (sized_stream orc e el x S U) as K. unfold map_stream.
  destruct (calc_data_size orc e el (Some x)) as [[[n|]|z|] [y|]]; try tauto; try congruence.
  - exists (Some n). intros bs off depth. destruct (Z.ltb_spec (len bs - off) n); cbn; repeat split; eauto.
  - exists None. intros. destruct z; auto; congruence.
  - exists None. intros. destruct z; auto; congruence.
  - exists None. auto.
  - exists None. auto.
Qed.

(** C77 *)
Lemma needed_size orc fuel m x depth off bs x' :
  in_one_piece m -> c_state x = st_empty ->
  mapbs orc fuel m bs off (Some x) depth = (Raise ByteStreamTooSmallError, Some x') ->
  exists n, c_requested_size x' = Some n /\ len bs - off < n /\
    forall bs', n <= len bs' - off ->
      fst (mapbs orc fuel m bs' off (Some x) depth) <> Raise ByteStreamTooSmallError /\
      forall v y, mapbs orc fuel m bs' off (Some x) depth = (Ok v, Some y) -> c_byte_size y = Some n.
Proof.
  intros P Cl E. destruct m; cbn in P; try tauto; cbn [mapbs] in *.
  - unfold map_padding in *. destruct (match d with DPadding _ _ a => a | _ => None end) as [a|]; [|discriminate].
    destruct (a =? 0); [discriminate|]. destruct (Z.ltb_spec (len bs - off) (padding_size a off)); [|discriminate].
    injection E as <-. exists (padding_size a off). split; [reflexivity|]. split; [lia|]. intros bs' L.
    destruct (Z.ltb_spec (len bs' - off) (padding_size a off)); [lia|]. split; [discriminate|]. intros v y Q. now injection Q as <- <-.
  - destruct linear; [|tauto]. unfold map_seq_linear in *. destruct (elems_byte_size _ _) as [n|]; [|discriminate].
    destruct (Z.ltb_spec (len bs - off) n).
    + injection E as <-. exists n. split; [reflexivity|]. split; [lia|]. intros bs' L.
      destruct (Z.ltb_spec (len bs' - off) n); [lia|].
      destruct op; [|split; [discriminate|intros; discriminate]].
      destruct em as [[]|]; try (split; [discriminate|intros; discriminate]).
      destruct (read_from _ _); try (split; [discriminate|intros; discriminate]).
      pose proof (values_not_small d a). destruct (map_values d a); cbn; (split; [congruence|]); intros v y Q; try discriminate.
      now injection Q as <- <-.
    + exfalso. destruct op; [|discriminate]. destruct em as [[]|]; try discriminate.
      destruct (read_from _ _); try discriminate. pose proof (values_not_small d a). destruct (map_values d a); cbn in E; congruence.
  - destruct (stream_request orc e ed x Cl P) as (o & Q). pose proof (Q bs off depth) as Q1. rewrite E in Q1.
    destruct Q1 as (R & n & -> & L). exists n. split; [exact R|]. split; [exact L|]. intros bs' L'. specialize (Q bs' off depth).
    destruct (map_stream orc e ed bs' off (Some x) depth) as [[v|z|] y].
    + split; [discriminate|]. intros v' y' H. injection H as <- ->. destruct v; tauto.
    + split; [|intros; discriminate]. cbn. intros H. injection H as ->. destruct y; [|tauto]. destruct Q as (_ & n' & H & L2).
      injection H as <-. lia.
    + split; [discriminate|intros; discriminate].
  - destruct (stream_request orc e ed x Cl P) as (o & Q). pose proof (Q bs off depth) as Q1. unfold map_string in *.
    assert (C : forall b, (let* n := py_len b in Ok n) <> Raise ByteStreamTooSmallError) by (intros []; discriminate).
    assert (K : forall b t, (let* n := py_len t in let* k := string_cut (S (List.length b)) b t n 0 in Ok (slice b 0 k)) <> Raise ByteStreamTooSmallError).
    { intros b t. assert (G : forall f tz off, string_cut f b t tz off <> Raise ByteStreamTooSmallError).
      { induction f as [|f IH]; cbn [string_cut]; [discriminate|]. intros. destruct (_ <? _); [|discriminate]. destruct (bytes_is _ _); [discriminate|auto]. }
      specialize (C t). destruct (py_len t) as [k| |]; cbn in *; try congruence. specialize (G (S (List.length b)) k 0). cbn [string_cut] in G.
      cbn [string_cut]. destruct (if 0 <? len b then _ else _); cbn; congruence. }
    assert (D : forall b (y : option ctx) (z : res pyval * option ctx), (match (match e_terminator e with None => Ok b | Some t => let* n := py_len t in let* k := string_cut (S (List.length b)) b t n 0 in Ok (slice b 0 k) end) with
        | Ok b' => match o_decode orc (e_encoding e) b' with Some s => (Ok (VStr s), y) | None => (Raise MappingError, y) end
        | Raise x => (Raise x, y)
        | OutOfFuel => (OutOfFuel, y)
        end) = z -> fst z <> Raise ByteStreamTooSmallError /\ snd z = y).
    { intros b y z <-. destruct (e_terminator e) as [t|].
      - specialize (K b t). destruct (bind (py_len t) _); cbn in *; (split; [|reflexivity] || idtac); try congruence.
        destruct (o_decode _ _ _); split; cbn; congruence || reflexivity.
      - destruct (o_decode _ _ _); split; cbn; congruence || reflexivity. }
    assert (T : exists n, c_requested_size x' = Some n /\ len bs - off < n /\ o = Some n).
    { destruct (map_stream orc e ed bs off (Some x) depth) as [[v|z|] y].
      - destruct v; try discriminate. destruct (D _ _ _ E) as [D1 _]. cbn in D1. congruence.
      - injection E as -> ->. destruct Q1 as (R & n & -> & L). eauto.
      - discriminate. }
    destruct T as (n & R & L & ->). exists n. split; [exact R|]. split; [exact L|]. intros bs' L'. specialize (Q bs' off depth).
    destruct (map_stream orc e ed bs' off (Some x) depth) as [[v|z|] y].
    + destruct v; try (split; [discriminate|intros; discriminate]).
      match goal with |- fst ?z <> _ /\ _ => destruct (D b y z eq_refl) as [D1 D2] end. split; [exact D1|]. intros v y' H. rewrite H in D2. cbn in D2. subst y. cbn in Q. tauto.
    + split; [|intros; discriminate]. cbn. intros H. injection H as ->. destruct y; [|tauto]. destruct Q as (_ & n' & H & L2).
      injection H as <-. lia.
    + split; [discriminate|intros; discriminate].
  - destruct linear; [|tauto]. unfold map_struct_linear in *. destruct (get_byte_size d) as [n|]; [|discriminate].
    destruct (Z.ltb_spec (len bs - off) n).
    + injection E as <-. exists n. split; [reflexivity|]. split; [lia|]. intros bs' L.
      destruct (Z.ltb_spec (len bs' - off) n); [lia|].
      destruct (match op with Some _ => _ | None => _ end); cbn; (split; [discriminate|intros v y Q]); try discriminate.
      now injection Q as <- <-.
    + exfalso. destruct (match op with Some _ => _ | None => _ end); discriminate.
Qed.

(** Numbers and UUIDs leave the context alone. *)
Lemma unasked_size orc fuel m c depth off bs c' :
  single m -> mapbs orc fuel m bs off c depth = (Raise ByteStreamTooSmallError, c') -> c' = c.
Proof.
  intros P E. destruct m; cbn in P; try tauto; cbn [mapbs] in E.
  - unfold map_prim in E. destruct (get_byte_size d); [|discriminate]. destruct (_ <? _); [now injection E|].
    destruct (match op with Some _ => _ | None => _ end); discriminate.
  - unfold map_uuid in E. destruct (get_byte_size d); [|discriminate]. destruct (_ <? _); [now injection E|].
    destruct (match dt_byte_order d with Some _ => _ | None => _ end); discriminate.
Qed.

Lemma searched_size orc fuel m x depth off bs x' :
  searching m -> c_state x = st_empty ->
  snd (mapbs orc fuel m bs off (Some x) depth) = Some x' -> c_requested_size x' = None.
Proof.
  intros P Cl E.
  assert (L : forall e el, unsized_stream e el -> forall x', snd (map_stream orc e el bs off (Some x) depth) = Some x' -> c_requested_size x' = None).
  { clear - Cl. intros e el U x' E. unfold map_stream in E. rewrite (unsized_calc orc e el x Cl U) in E.
    destruct (e_terminator e); [|now injection E as <-]. destruct (get_byte_size el); [|now injection E as <-].
    destruct (stream_scan _ _ _ _ _ _ _ _) as [[[found value] doff]| |]; [|now injection E as <-|now injection E as <-].
    destruct (negb _); [now injection E as <-|]. destruct found; now injection E as <-. }
  destruct m; cbn in P; try tauto; cbn [mapbs] in E; [eauto|].
  apply (L _ _ P). unfold map_string in E. destruct (map_stream orc e ed bs off (Some x) depth) as [[v|z|] y]; auto.
  destruct v; auto. destruct (match e_terminator e with Some _ => _ | None => _ end); auto. destruct (o_decode _ _ _); auto.
Qed.

(** After success the requested size is the byte size. *)
Lemma mapped_size orc fuel m x depth off bs v x' :
  single m \/ in_one_piece m -> c_state x = st_empty ->
  mapbs orc fuel m bs off (Some x) depth = (Ok v, Some x') -> c_requested_size x' = c_byte_size x'.
Proof.
  intros P Cl E. destruct m; cbn in P; try tauto; cbn [mapbs] in E.
  - unfold map_prim in E. destruct (get_byte_size d); [|discriminate]. destruct (_ <? _); [discriminate|].
    destruct (match op with Some _ => _ | None => _ end); try discriminate. now injection E as <- <-.
  - unfold map_uuid in E. destruct (get_byte_size d); [|discriminate]. destruct (_ <? _); [discriminate|].
    destruct (match dt_byte_order d with Some _ => _ | None => _ end); try discriminate. now injection E as <- <-.
  - unfold map_padding in E. destruct (match d with DPadding _ _ a => a | _ => None end); [|discriminate].
    destruct (_ =? _); [discriminate|]. destruct (_ <? _); [discriminate|]. now injection E as <- <-.
  - destruct linear; [|tauto]. unfold map_seq_linear in E. destruct (elems_byte_size _ _); [|discriminate].
    destruct (_ <? _); [discriminate|]. destruct op; [|discriminate]. destruct em as [[]|]; try discriminate.
    destruct (read_from _ _); try discriminate. destruct (map_values d a); try discriminate. now injection E as <- <-.
  - destruct P as [[]|P]. destruct (stream_request orc e ed x Cl P) as (o & Q). specialize (Q bs off depth). rewrite E in Q.
    destruct v; try tauto. destruct Q as (-> & -> & _). reflexivity.
  - destruct P as [[]|P]. destruct (stream_request orc e ed x Cl P) as (o & Q). specialize (Q bs off depth). unfold map_string in E.
    destruct (map_stream orc e ed bs off (Some x) depth) as [[w|z|] y]; try discriminate. destruct w; try discriminate.
    destruct (match e_terminator e with Some _ => _ | None => _ end); try discriminate.
    destruct (o_decode _ _ _); try discriminate. injection E as <- ->. destruct Q as (-> & -> & _). reflexivity.
  - destruct linear; [|tauto]. unfold map_struct_linear in E. destruct (get_byte_size d); [|discriminate].
    destruct (_ <? _); [discriminate|]. destruct (match op with Some _ => _ | None => _ end); try discriminate. now injection E as <- <-.
Qed.

(** Everything else keeps the requested size of the context. *)
Definition requested (c : option ctx) : option Z := match c with Some x => c_requested_size x | None => None end.

Lemma requested_state f c : requested (on_state f c) = requested c.
Proof. now destruct c. Qed.
Lemma requested_bytes b c : requested (option_map (set_byte_size b) c) = requested c.
Proof. now destruct c. Qed.
Lemma requested_done n c : requested (ctx_done n c) = requested c.
Proof. now destruct c. Qed.
Lemma requested_reset b c : requested (option_map (fun x => set_state st_empty (set_byte_size b x)) c) = requested c.
Proof. now destruct c. Qed.
Lemma requested_number orc e c : requested (snd (eval_number orc e c)) = requested c.
Proof. unfold eval_number. destruct (truthy_Z _); auto. destruct (truthy_str _); auto. now destruct c. Qed.

Lemma requested_group_member df maps ident bs off c depth :
  requested (snd (map_group_member df maps ident bs off c depth)) = requested c.
Proof.
  unfold map_group_member. destruct (match val_get ident maps with Some m => m | None => df end); auto.
  destruct (m bs off _ depth) as [[v|e|] y]; cbn [snd]; rewrite ?requested_reset, ?requested_bytes; auto.
  destruct e; cbn [snd]; now rewrite requested_state, requested_bytes.
Qed.

Lemma kept_size orc fuel m x depth off bs x' :
  piecemeal m -> snd (mapbs orc fuel m bs off (Some x) depth) = Some x' -> c_requested_size x' = c_requested_size x.
Proof.
  intros (P1 & P2 & P3) E. change (requested (Some x') = requested (Some x)). rewrite <- E. clear E.
  set (c := Some x). clearbody c. clear x x'.
  destruct m; cbn in P1, P2, P3; try tauto; cbn [mapbs].
  - destruct linear; [tauto|]. unfold map_seq. destruct (max_depth <? depth); [reflexivity|].
    assert (B : requested (snd (seq_bounds orc e ed c)) = requested c).
    { unfold seq_bounds. destruct (has_data_size e); [reflexivity|]. destruct (has_terminator e); [reflexivity|].
      destruct (has_number e); [|reflexivity]. pose proof (requested_number orc e c). destruct (eval_number orc e c). exact H. }
    destruct (seq_bounds orc e ed c) as [r k]. cbn [snd] in B.
    destruct r as [[[nu ds] tm]|z|]; cbn [snd]; auto.
    match goal with |- requested (snd (match ?q with _ => _ end)) = _ => destruct q end; cbn [snd];
      rewrite ?requested_state, ?requested_bytes; auto.
    destruct (match nu with Some _ => _ | None => _ end); cbn [snd]; rewrite ?requested_state, ?requested_bytes; auto.
    destruct (_ && _); cbn [snd]; rewrite ?requested_done, ?requested_state, ?requested_bytes; auto.
  - destruct linear; [tauto|]. unfold map_struct. destruct (max_depth <? depth); [reflexivity|].
    destruct (struct_values _ _ _); cbn [snd]; auto. destruct (_ <=? _); cbn [snd]; [now rewrite requested_state, requested_bytes|].
    destruct (struct_loop _ _ _ _ _ _); cbn [snd]; rewrite ?requested_done, ?requested_state, ?requested_bytes; auto.
  - unfold map_group. destruct (s_member_identifier _); [apply requested_group_member|].
    destruct (match base with Some _ => _ | None => _ end); [|reflexivity].
    destruct (m bs off _ depth) as [[v|e|] y]; cbn [snd]; auto.
    + destruct (py_getattr v identifier); cbn [snd]; rewrite ?requested_group_member, ?requested_state; auto.
    + destruct e; cbn [snd]; now rewrite requested_state.
Qed.
