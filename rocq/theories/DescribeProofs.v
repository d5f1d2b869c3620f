(** The reader yields exactly the definitions that documents describe. *)
From Coq Require Import String Ascii List ZArith Bool Lia.
From Verif Require Import Base Ieee BytesProofs Yaml DataTypes Reader SpecReader SpecDescribe
  ReaderProofs ReaderTotal ReadFileProofs ReaderRefs EqualProofs.
Import ListNotations.
Open Scope Z_scope.

(** * Steps *)

Lemma rbind_iff : forall A B (r : rd A) (k : A -> rd B) b,
  rbind r k = ROk b <-> exists a, r = ROk a /\ k a = ROk b.
Proof.
  intros A B r k b. split; [apply rbind_ok|]. intros [a [-> H]]. exact H.
Qed.

Lemma field_or_get : forall d v key x, y_get_or d key v = Ok x <-> field_or d v key x.
Proof.
  intros d v key x. split.
  - intros H. apply y_get_or_ok in H. destruct H as [l [-> [H|[H ->]]]].
    + left. exists l. auto.
    + right. split; [eauto|]. split; [|reflexivity].
      intros y [l' [E M]]. injection E as <-. congruence.
  - intros [[l [-> M]]|[[l ->] [N ->]]]; cbn.
    + rewrite M. reflexivity.
    + destruct (map_get (Y key) l) as [y|] eqn:E; [|reflexivity].
      exfalso. apply (N y). exists l. auto.
Qed.

Lemma field_get : forall v key x, y_get key v = Ok x <-> field v key x.
Proof. intros v key x. apply field_or_get. Qed.

Lemma field_or_fun : forall d v key x y, field_or d v key x -> field_or d v key y -> x = y.
Proof. intros d v key x y H1 H2. apply field_or_get in H1, H2. congruence. Qed.

Lemma field_fun : forall v key x y, field v key x -> field v key y -> x = y.
Proof. intros v key x y. apply field_or_fun. Qed.

Lemma falsy_same : forall v, falsy v -> y_truthy v = false.
Proof. intros v H. exact H. Qed.

Lemma truthy_iff : forall v, y_truthy v = true <-> ~ falsy v.
Proof. intros v. unfold falsy; change truth with y_truthy. destruct (y_truthy v); intuition congruence. Qed.

Lemma or_empty_iff : forall a x, x = or_empty a <-> given_or a (YList []) x.
Proof.
  intros a x. unfold or_empty, given_or, falsy; change truth with y_truthy. destruct (y_truthy a); intuition congruence.
Qed.

Lemma keys_iff : forall a b v, incl a b -> incl b a -> (only_keys a v <-> only_keys b v).
Proof. intros a b v I J. split; apply only_keys_incl; assumption. Qed.

Ltac keys := apply keys_iff; apply incl_list; vm_compute; reflexivity.

Lemma check_iff : forall name v a b, (only_keys a v <-> only_keys b v) ->
  (check_keys name v a = ROk tt <-> only_keys b v).
Proof. intros name v a b H. rewrite check_keys_iff. exact H. Qed.

Lemma unit_iff : forall (P : unit -> Prop), (exists u, P u) <-> P tt.
Proof. intros P. split; [intros [[] H]; exact H|eauto]. Qed.

(** * Names and byte orders *)

Lemma meta_iff : forall v name m, field v "name" name ->
  (read_meta v name = ROk m <-> says_meta v m).
Proof.
  intros v name m Fn. unfold read_meta, says_meta. split.
  - intros H. inv_rd. cbn. apply field_get in E, E0, E1.
    repeat split; try assumption. exists x. split; [exact E|]. apply or_empty_iff. reflexivity.
  - intros [Hn [[a [Ha Ga]] [Hd Hu]]]. apply field_get in Ha, Hd, Hu.
    rewrite Ha, Hd, Hu. cbn. apply or_empty_iff in Ga.
    rewrite <- Ga, (field_fun _ _ _ _ Fn Hn). destruct m. reflexivity.
Qed.

Lemma data_type_iff : forall v name names m, field v "name" name ->
  (read_data_type v name names = ROk m <-> only_keys names v /\ says_meta v m).
Proof.
  intros v name names m Fn. unfold read_data_type. rewrite rbind_iff, unit_iff, check_keys_iff.
  rewrite (meta_iff _ _ _ Fn). reflexivity.
Qed.

Lemma order_iff : forall name a names bo,
  read_byte_order name a names = ROk bo <->
  only_keys names a /\ field_or (Y "native") a "byte_order" bo /\ a_byte_order bo.
Proof.
  intros name a names bo. unfold read_byte_order. split.
  - intros H. inv_rd. destruct x. apply check_keys_ok in E. apply field_or_get in E0.
    repeat split; try assumption. apply y_in_names. assumption.
  - intros [K [F O]]. apply (check_keys_iff name) in K. apply field_or_get in F.
    rewrite K. cbn [rbind]. change y_native with (Y "native"). rewrite F. cbn [lift rbind].
    apply y_in_names in O. replace (y_hashable bo) with true.
    + unfold hashed. pose proof (proj1 (y_in_names _ _) O) as [s [-> _]]. cbn [y_hashable rbind].
      change byte_orders with (map Y ["big-endian"; "little-endian"; "native"]%string).
      rewrite O. reflexivity.
    + pose proof (proj1 (y_in_names _ _) O) as [s [-> _]]. reflexivity.
Qed.

Lemma attributes_fun : forall v a b, field v "attributes" a -> field v "attributes" b -> a = b.
Proof. intros v a b. apply field_fun. Qed.

Lemma storage_iff : forall v name names names' ks (member : bool) m bo,
  field v "name" name ->
  (only_keys (if member then keys_member else keys_storage) v <-> only_keys ks v) ->
  (forall a, only_keys names a <-> only_keys names' a) ->
  (read_storage v name names member = ROk (m, bo) <->
   only_keys ks v /\ says_meta v m /\ says_order names' v bo).
Proof.
  intros v name names names' ks member m bo Fn HK HN. unfold read_storage.
  rewrite rbind_iff. split.
  - intros [m' [E H]]. apply (data_type_iff _ _ _ _ Fn) in E. destruct E as [K M].
    inv_rd. apply field_get in E. destruct (y_truthy x) eqn:T; inv_rd.
    + apply order_iff in E0. destruct E0 as [K0 [F O]].
      split; [apply HK, K|]. split; [exact M|]. exists x. split; [exact E|]. right.
      split; [apply truthy_iff, T|]. split; [apply HN, K0|auto].
    + split; [apply HK, K|]. split; [exact M|]. exists x. split; [exact E|]. left.
      split; [exact T|reflexivity].
  - intros [K [M [a [Fa C]]]]. exists m. split; [apply (data_type_iff _ _ _ _ Fn); split; [apply HK, K|exact M]|].
    apply field_get in Fa. rewrite Fa. cbn [lift rbind].
    destruct C as [[T ->]|[T [K0 [F O]]]].
    + rewrite (falsy_same _ T). reflexivity.
    + apply truthy_iff in T. rewrite T.
      assert (R : read_byte_order name a names = ROk bo).
      { apply order_iff. split; [apply HN, K0|auto]. }
      rewrite R. reflexivity.
Qed.

(** * Types of a fixed size *)

Lemma size_ok : forall env x sizes, a_size sizes x ->
  (y_eqb x y_native = true \/ exists z, y_int env x = Ok z /\ y_in x (map YInt sizes) = true).
Proof.
  intros env x sizes [-> | [z [I E]]]; [left; apply y_eqb_str; reflexivity|right].
  assert (Q : y_eqb x (YInt z) = true).
  { destruct E as [z|b|f z Q]; cbn [y_eqb]; [apply Z.eqb_refl|apply Z.eqb_refl|exact Q]. }
  assert (In' : y_in x (map YInt sizes) = true).
  { apply existsb_exists. exists (YInt z). split; [apply in_map, I|exact Q]. }
  destruct E as [z|b|f z Q']; cbn [y_int]; eauto.
  unfold f64_eqZ in Q'. destruct (ieee_decode 52 11 f); try discriminate Q'. eauto.
Qed.

Lemma fixed_iff : forall env v name names names' default ks (member : bool) sizes f,
  field v "name" name ->
  (only_keys (if member then keys_member else keys_storage) v <-> only_keys ks v) ->
  (forall a, only_keys names a <-> only_keys names' a) ->
  (read_fixed env v name names default default member sizes = ROk f <->
   only_keys ks v /\ says_meta v (rf_meta f) /\ says_order names' v (rf_bo f)
   /\ says_size default sizes v (rf_size f) (rf_units f)).
Proof.
  intros env v name names names' default ks member sizes f Fn HK HN. unfold read_fixed.
  split.
  - intros H. inv_rd. destruct x as [m bo].
    apply (storage_iff _ _ _ _ _ _ _ _ Fn HK HN) in E. destruct E as [K [M O]].
    apply field_get in E0. destruct (y_truthy x0) eqn:T; inv_rd; cbn.
    + apply field_or_get in E, E2. split; [exact K|]. split; [exact M|]. split; [exact O|].
      exists x0. split; [exact E0|]. right. split; [apply truthy_iff, T|]. split; [exact E|].
      split; [|exact E2].
      destruct (y_eqb x y_native) eqn:Q; [left; apply y_eqb_str in Q; exact Q|].
      right. destruct (y_int env x) as [z|e|]; [|destruct e; discriminate|discriminate].
      apply y_in_numbers. destruct (y_in x (map YInt sizes)); [reflexivity|discriminate].
    + split; [exact K|]. split; [exact M|]. split; [exact O|]. exists x0. split; [exact E0|].
      left. auto.
  - intros [K [M [O [a [Fa C]]]]].
    assert (R : read_storage v name names member = ROk (rf_meta f, rf_bo f)).
    { apply (storage_iff _ _ _ _ _ _ _ _ Fn HK HN). auto. }
    rewrite R. cbn [rbind fst snd]. apply field_get in Fa. rewrite Fa. cbn [lift rbind].
    destruct C as [[T [Es Eu]]|[T [Fs [S Fu]]]].
    + rewrite (falsy_same _ T), <- Es, <- Eu. destruct f. reflexivity.
    + apply truthy_iff in T. rewrite T. apply field_or_get in Fs, Fu. rewrite Fs. cbn [lift rbind].
      assert (G : (if y_eqb (rf_size f) y_native then ROk tt
                   else match y_int env (rf_size f) with
                        | Raise ValueError => RErr (DefErr name)
                        | Raise e => RErr (Err e)
                        | OutOfFuel => RFuel
                        | Ok _ => if y_in (rf_size f) (map YInt sizes) then ROk tt
                                  else RErr (DefErr name)
                        end) = ROk tt).
      { destruct (size_ok env _ _ S) as [Q|[z [Q1 Q2]]]; [rewrite Q; reflexivity|].
        rewrite Q1, Q2. destruct (y_eqb (rf_size f) y_native); reflexivity. }
      rewrite G. cbn [rbind]. rewrite Fu. cbn [lift rbind]. destruct f. reflexivity.
Qed.

(** * References *)

(** The registry holds these definitions, and its aliases are theirs. *)
Record holds (env : yenv) (r : rreg) : Prop := {
  ho_ok : reg_ok env r;
  ho_aliases : forall d l a, In d (registered r) -> y_iter (rd_aliases d) = Ok l -> In a l ->
    exists a' k, In (a', k) (rg_aliases r) /\ y_lower env (rd_name d) = Ok k
      /\ (a' = a \/ y_eqb a a' = true);
  ho_iter : forall d, In d (registered r) -> exists l, y_iter (rd_aliases d) = Ok l;
  ho_unique : forall k d l k' d' l' a, In (k, d) (rg_definitions r) -> In (k', d') (rg_definitions r) ->
    y_iter (rd_aliases d) = Ok l -> y_iter (rd_aliases d') = Ok l' -> In a l -> In a l' ->
    y_eqb a a = true -> k = k' }.

(** Strings and bytes are equal to themselves only. *)
Lemma lowered_eqb : forall env v k a, y_lower env v = Ok k -> y_eqb v a = true <-> a = v.
Proof.
  intros env v k a H. destruct v; cbn in H; try discriminate H.
  - apply y_eqb_str_l.
  - split; [|intros ->; cbn; apply bytes_eqb_eq; reflexivity].
    destruct a; cbn; intros E; try discriminate E. apply bytes_eqb_eq in E. congruence.
Qed.

Lemma assoc_some : forall A k l (v : A) k', In (k', v) l -> y_eqb k k' = true ->
  exists v', assoc k l = Some v'.
Proof.
  intros A k l v k'. induction l as [|[k1 v1] l IH]; cbn; [intros []|].
  intros [Q|I] E.
  - injection Q as -> ->. rewrite E. eauto.
  - destruct (y_eqb k k1); eauto.
Qed.

Lemma registered_in : forall r d, In d (registered r) <-> exists k, In (k, d) (rg_definitions r).
Proof.
  intros r d. unfold registered. rewrite in_map_iff. split.
  - intros [[k x] [E I]]. cbn in E. subst x. eauto.
  - intros [k I]. exists (k, d). auto.
Qed.

Lemma in_registered : forall r k d, In (k, d) (rg_definitions r) -> In d (registered r).
Proof. intros r k d I. apply registered_in. eauto. Qed.

Lemma lookup_iff : forall env r n d, holds env r ->
  (rlookup env r n = ROk (Some d) <-> stands_for env (registered r) n d).
Proof.
  intros env r n d [[K N A] HA HI HU]. unfold rlookup, stands_for. split.
  - intros H. inv_rd. cbv zeta in H. unfold assoc_mem in H.
    destruct (assoc x (rg_definitions r)) as [d1|] eqn:E1.
    + rewrite E1 in H. injection H as ->. apply assoc_in in E1. destruct E1 as [k [I Q]].
      apply (lower_eqb _ _ _ _ E) in Q. subst k.
      split; [apply registered_in; eauto|]. exists x. split; [exact E|left]. exact (K _ _ I).
    + destruct (assoc n (rg_aliases r)) as [k1|] eqn:F; [|congruence].
      apply assoc_in in F. destruct F as [a [I Q]]. apply (lowered_eqb _ _ _ _ E) in Q. subst a.
      destruct (A _ _ I) as [d1 [l [I1 [It Ia]]]].
      apply assoc_in in H. destruct H as [k2 [I2 Q2]].
      apply (lower_eqb _ _ _ _ (K _ _ I1)) in Q2. subst k2.
      rewrite (nodup_fun _ _ _ _ _ N I1 I2) in It.
      split; [apply registered_in; eauto|]. exists x. split; [exact E|right].
      split; [|eauto]. intros y Iy C. apply registered_in in Iy. destruct Iy as [ky Iy].
      pose proof (K _ _ Iy) as Ky. rewrite C in Ky. injection Ky as <-.
      pose proof (assoc_none _ _ _ _ _ E1 Iy) as Z.
      rewrite (proj2 (lower_eqb _ _ _ _ E) eq_refl) in Z. discriminate Z.
  - intros [I [k [L C]]]. rewrite L. cbn [lift rbind]. cbv zeta. unfold assoc_mem.
    apply registered_in in I. destruct I as [kd I]. pose proof (K _ _ I) as Kd.
    destruct C as [C|[C [l [It In']]]].
    + rewrite Kd in C. injection C as ->.
      destruct (assoc_some _ _ _ _ _ I (proj2 (lower_eqb _ _ _ _ Kd) eq_refl)) as [d' E].
      rewrite E, E. apply assoc_in in E. destruct E as [k' [I' Q]].
      apply (lower_eqb _ _ _ _ Kd) in Q. subst k'. rewrite (nodup_fun _ _ _ _ _ N I I'). reflexivity.
    + destruct (assoc k (rg_definitions r)) as [d1|] eqn:E1.
      { exfalso. apply assoc_in in E1. destruct E1 as [k' [I' Q]].
        apply (lower_eqb _ _ _ _ L) in Q. subst k'. apply (C d1).
        - apply registered_in. eauto.
        - exact (K _ _ I'). }
      destruct (HA d l n) as [a' [k1 [Ia [Lk Q]]]]; [apply registered_in; eauto|exact It|exact In'|].
      assert (a' = n). { destruct Q as [Q|Q]; [exact Q|]. apply (lowered_eqb _ _ _ _ L) in Q. exact Q. }
      subst a'. rewrite Kd in Lk. injection Lk as <-.
      destruct (assoc_some _ n _ _ _ Ia (proj2 (lowered_eqb _ _ _ _ L) eq_refl)) as [k2 E2].
      rewrite E2. pose proof E2 as E3. apply assoc_in in E3. destruct E3 as [a2 [I2 Q2]].
      apply (lowered_eqb _ _ _ _ L) in Q2. subst a2.
      assert (kd = k2).
      { destruct (A _ _ Ia) as [d3 [l3 [I3 [It3 J3]]]]. destruct (A _ _ I2) as [d4 [l4 [I4 [It4 J4]]]].
        exact (HU _ _ _ _ _ _ _ I3 I4 It3 It4 J3 J4 (proj2 (lowered_eqb _ _ _ _ L) eq_refl)). }
      subst k2.
      destruct (assoc_some _ _ _ _ _ I (proj2 (lower_eqb _ _ _ _ Kd) eq_refl)) as [d' E].
      rewrite E. apply assoc_in in E. destruct E as [k' [I' Q']].
      apply (lower_eqb _ _ _ _ Kd) in Q'. subst k'. rewrite (nodup_fun _ _ _ _ _ N I I'). reflexivity.
Qed.

(** * Registration *)

Lemma assoc_set_keep : forall A a (k : A) l k' v, In (k', v) l ->
  y_eqb a k' = false \/ v = k -> In (k', v) (assoc_set a k l).
Proof.
  intros A a k l k' v. induction l as [|[k1 v1] l IH]; cbn; [intros []|].
  intros I C. destruct (y_eqb a k1) eqn:E.
  - destruct I as [I|I]; [|right; exact I]. injection I as -> ->. left.
    destruct C as [C | ->]; [congruence|reflexivity].
  - destruct I as [I|I]; [left; exact I|right; auto].
Qed.

Lemma assoc_set_has : forall A a (k : A) l,
  exists a', In (a', k) (assoc_set a k l) /\ (a' = a \/ y_eqb a a' = true).
Proof.
  intros A a k l. induction l as [|[k1 v1] l IH]; cbn; [eauto|].
  destruct (y_eqb a k1) eqn:E; [exists k1; cbn; auto|].
  destruct IH as [a' [I Q]]. exists a'. cbn. auto.
Qed.

Lemma fold_keep : forall A (k : A) l al k' v, In (k', v) al ->
  (forall a, In a l -> y_eqb a k' = false) \/ v = k ->
  In (k', v) (fold_left (fun al a => assoc_set a k al) l al).
Proof.
  intros A k l. induction l as [|a l IH]; intros al k' v I C; cbn; [exact I|].
  apply IH.
  - apply assoc_set_keep; [exact I|]. destruct C as [C|C]; [left; apply C; left; reflexivity|auto].
  - destruct C as [C|C]; [left; intros b Ib; apply C; right; exact Ib|auto].
Qed.

Lemma fold_has : forall A (k : A) l al a, In a l ->
  exists a', In (a', k) (fold_left (fun al a => assoc_set a k al) l al) /\ (a' = a \/ y_eqb a a' = true).
Proof.
  intros A k l. induction l as [|b l IH]; intros al a I; [destruct I|]. cbn.
  destruct I as [-> | I]; [|apply IH, I].
  destruct (assoc_set_has _ a k al) as [a' [I Q]]. exists a'. split; [|exact Q].
  apply fold_keep; auto.
Qed.

Lemma holds_empty : forall env, holds env rreg_empty.
Proof.
  intros env. constructor; cbn; try (intros; contradiction). apply reg_ok_empty.
Qed.

Lemma holds_register : forall env r d r', holds env r -> rregister env r d = Ok r' -> holds env r'.
Proof.
  intros env r d r' [OK HA HI HU] H. pose proof (reg_ok_register _ _ _ _ OK H) as OK'.
  pose proof (registered_snoc _ _ _ _ H) as RS.
  apply rregister_ok in H. destruct H as [k [l [L [F [D [I [AF E]]]]]]].
  rewrite Forall_forall in AF. constructor.
  - exact OK'.
  - intros x lx a Ix Itx Ia. rewrite RS in Ix. apply in_app_or in Ix. destruct Ix as [Ix|[<-|[]]].
    + destruct (HA _ _ _ Ix Itx Ia) as [a' [k' [I' [L' Q]]]]. exists a', k'.
      split; [|auto]. rewrite E. apply fold_keep; [exact I'|]. left.
      intros b Ib. exact (assoc_none _ _ _ _ _ (AF _ Ib) I').
    + rewrite Itx in I. injection I as ->.
      destruct (fold_has _ k l (rg_aliases r) a Ia) as [a' [I' Q]]. exists a', k.
      rewrite E. auto.
  - intros x Ix. rewrite RS in Ix. apply in_app_or in Ix. destruct Ix as [Ix|[<-|[]]]; eauto.
  - assert (New : forall k1 d1 l1 a, In (k1, d1) (rg_definitions r) -> y_iter (rd_aliases d1) = Ok l1 ->
              In a l1 -> In a l -> y_eqb a a = true -> False).
    { intros k1 d1 l1 a I1 It1 J1 J Q.
      destruct (HA d1 l1 a) as [a' [k' [I' [_ Q']]]]; [apply registered_in; eauto|assumption|assumption|].
      pose proof (assoc_none _ _ _ _ _ (AF _ J) I') as Z.
      destruct Q' as [-> | Q']; congruence. }
    intros k1 d1 l1 k2 d2 l2 a I1 I2 It1 It2 J1 J2 Q. rewrite D in I1, I2.
    apply in_app_or in I1, I2.
    destruct I1 as [I1|[I1|[]]], I2 as [I2|[I2|[]]].
    + exact (HU _ _ _ _ _ _ _ I1 I2 It1 It2 J1 J2 Q).
    + exfalso. injection I2 as <- <-. rewrite I in It2. injection It2 as <-.
      exact (New _ _ _ _ I1 It1 J1 J2 Q).
    + exfalso. injection I1 as <- <-. rewrite I in It1. injection It1 as <-.
      exact (New _ _ _ _ I2 It2 J2 J1 Q).
    + congruence.
Qed.

Lemma hashable_same : forall v, hashable v = y_hashable v.
Proof. reflexivity. Qed.

Lemma check_aliases_iff : forall known l, check_aliases known l = Ok tt <->
  Forall (fun a => hashable a = true) l /\ Forall (fun a => assoc a known = None) l.
Proof.
  intros known l. induction l as [|a l IH]; cbn; [split; auto|].
  unfold assoc_mem. rewrite <- (hashable_same a). destruct (hashable a) eqn:Ha; cbn.
  - destruct (assoc a known) eqn:E.
    + split; [intros H; exfalso; exact (raise_key_ok _ _ _ H)|].
      intros [_ F]. inversion F; congruence.
    + rewrite IH. split; intros [F G]; (split; [|]); try (constructor; auto; fail);
        [inversion F|inversion G]; auto.
  - split; [discriminate|]. intros [F _]. inversion F; congruence.
Qed.

Lemma register_iff : forall env r d, holds env r ->
  ((exists r', rregister env r d = Ok r') <-> fresh env (registered r) d).
Proof.
  intros env r d [[K N A] HA HI HU]. unfold fresh, rregister. split.
  - intros [r' H].
    destruct (y_lower env (rd_name d)) as [k|e|] eqn:L; cbn [bind] in H; try discriminate H.
    unfold assoc_mem in H.
    destruct (assoc k (rg_definitions r)) eqn:E1; [exfalso; exact (raise_key_ok _ _ _ H)|].
    destruct (assoc (rd_name d) _) eqn:E2; [exfalso; exact (raise_key_ok _ _ _ H)|].
    destruct (y_iter (rd_aliases d)) as [l|e|] eqn:I; cbn [bind] in H; try discriminate H.
    destruct (check_aliases (rg_aliases r) l) as [[]|e|] eqn:C; cbn [bind] in H; try discriminate H.
    apply check_aliases_iff in C. destruct C as [C1 C2]. rewrite Forall_forall in C2.
    exists k, l. split; [reflexivity|]. split; [reflexivity|]. split; [exact C1|].
    intros x Ix. split.
    + apply registered_in in Ix. destruct Ix as [kx Ix]. rewrite (K _ _ Ix). intros Q.
      injection Q as ->. pose proof (assoc_none _ _ _ _ _ E1 Ix) as Z.
      rewrite (proj2 (lower_eqb _ _ _ _ L) eq_refl) in Z. discriminate Z.
    + intros al Ital. split.
      * intros J. destruct (HA _ _ _ Ix Ital J) as [a' [k' [I' [_ Q]]]].
        pose proof (assoc_none _ _ _ _ _ E2 I') as Z.
        destruct Q as [-> | Q]; [|congruence].
        rewrite (proj2 (lowered_eqb _ _ _ _ L) eq_refl) in Z. discriminate Z.
      * intros a b Ja Jb. destruct (y_eqb a b) eqn:Q; [|reflexivity].
        destruct (HA _ _ _ Ix Ital Jb) as [b' [k' [I' [_ Q']]]].
        pose proof (assoc_none _ _ _ _ _ (C2 _ Ja) I') as Z.
        destruct Q' as [-> | Q']; [congruence|].
        rewrite (y_eqb_trans _ _ _ Q Q') in Z. discriminate Z.
  - intros [k [l [L [I [Hl F]]]]]. rewrite L. cbn [bind]. unfold assoc_mem.
    destruct (assoc k (rg_definitions r)) as [d1|] eqn:E1.
    { exfalso. apply assoc_in in E1. destruct E1 as [k' [I' Q]].
      apply (lower_eqb _ _ _ _ L) in Q. subst k'.
      apply (proj1 (F d1 (in_registered _ _ _ I'))). exact (K _ _ I'). }
    destruct (assoc (rd_name d) (rg_aliases r)) as [k2|] eqn:E2.
    { exfalso. apply assoc_in in E2. destruct E2 as [a [I' Q]].
      apply (lowered_eqb _ _ _ _ L) in Q. subst a.
      destruct (A _ _ I') as [d2 [l2 [I2 [It2 J2]]]].
      exact (proj1 (proj2 (F d2 (in_registered _ _ _ I2)) _ It2) J2). }
    rewrite I. cbn [bind].
    assert (C : check_aliases (rg_aliases r) l = Ok tt).
    { apply check_aliases_iff. split; [exact Hl|]. apply Forall_forall. intros a Ia.
      destruct (assoc a (rg_aliases r)) as [k2|] eqn:E3; [|reflexivity].
      apply assoc_in in E3. destruct E3 as [b [I' Q]].
      destruct (A _ _ I') as [d2 [l2 [I2 [It2 J2]]]].
      rewrite (proj2 (proj2 (F d2 (in_registered _ _ _ I2)) _ It2) _ _ Ia J2) in Q.
      discriminate Q. }
    rewrite C. cbn [bind]. eauto.
Qed.

(** * Types of a fixed size, padding and elements *)

Lemma encode_iff : forall limit s b, limit <= 256 ->
  (u_encode limit s = Ok b <-> Forall2 (fun c a => c = byteZ a /\ c < limit) s b).
Proof.
  intros limit s b HL. unfold u_encode. split.
  - destruct (forallb _ s) eqn:F; [|discriminate]. intros H. injection H as <-.
    rewrite forallb_forall in F. induction s as [|c s IH]; [constructor|].
    cbn [map]. constructor.
    + specialize (F c (or_introl eq_refl)). apply andb_true_iff in F.
      rewrite byteZ_Zbyte. rewrite Z.mod_small; lia.
    + apply IH. intros x Hx. apply F. right. exact Hx.
  - intros F. assert (E : b = map Zbyte s /\ forallb (fun c => (0 <=? c) && (c <? limit)) s = true).
    { induction F as [|c a s b [Hc Hl] F [IH1 IH2]]; [split; reflexivity|].
      cbn. split.
      - subst c. rewrite Zbyte_byteZ, IH1. reflexivity.
      - rewrite IH2. pose proof (byteZ_range a). lia. }
    destruct E as [-> ->]. reflexivity.
Qed.

Lemma text_not : forall x, ~ text x <-> is_ystr x = false.
Proof. intros x. unfold text. destruct x; cbn; split; intros H; try congruence; try (intros [s Q]; discriminate Q). exfalso. eauto. Qed.

Lemma integer_iff : forall env v name member f fmt, field v "name" name ->
  (read_integer env v name member = ROk (RInteger f fmt) <->
   says_fixed member "integer" (Y "native") [1; 2; 4; 8] v f /\ says_format v fmt).
Proof.
  intros env v name member f fmt Fn.
  assert (FX := fixed_iff env v name attrs_integer (type_attributes "integer") y_native
    (if member then member_keys None else definition_keys "integer") member [1; 2; 4; 8] f Fn).
  specialize (FX ltac:(destruct member; keys) ltac:(intros a; keys)).
  unfold read_integer, says_fixed, says_format. split.
  - intros H. apply rbind_ok in H. destruct H as [g [E H]].
    apply rbind_ok in H. destruct H as [a [Ea H]]. apply lift_ok, field_get in Ea.
    destruct (y_truthy a) eqn:T; inv_rd.
    + split; [apply FX, E|]. exists a. split; [exact Ea|]. right.
      split; [apply truthy_iff, T|]. split; [apply field_or_get; assumption|].
      apply y_in_names. assumption.
    + split; [apply FX, E|]. exists a. split; [exact Ea|]. left. auto.
  - intros [Hf [a [Ha C]]]. apply FX in Hf. rewrite Hf. cbn [rbind].
    apply field_get in Ha. rewrite Ha. cbn [lift rbind].
    destruct C as [[T ->]|[T [Ff O]]].
    + rewrite (falsy_same _ T). reflexivity.
    + apply truthy_iff in T. rewrite T. apply field_or_get in Ff. rewrite Ff. cbn [lift rbind].
      apply y_in_names in O. pose proof (proj1 (y_in_names _ _) O) as [s [-> _]].
      unfold hashed. cbn [y_hashable rbind Y].
      change integer_formats with (map Y ["signed"; "unsigned"]%string).
      rewrite O. reflexivity.
Qed.

Lemma fixed_says : forall env v name attrs type default member sizes f, field v "name" name ->
  (only_keys keys_storage v <-> only_keys (definition_keys type) v) ->
  (forall a, only_keys attrs a <-> only_keys (type_attributes type) a) ->
  (read_fixed env v name attrs default default member sizes = ROk f <->
   says_fixed member type default sizes v f).
Proof.
  intros env v name attrs type default member sizes f Fn HK HA. unfold says_fixed.
  apply fixed_iff; [exact Fn| |exact HA]. destruct member; [keys|exact HK].
Qed.

Lemma number_truthy : forall x z, z <> 0 -> equals_number x z -> y_truthy x = true.
Proof.
  intros x z N E. destruct E as [z|b|f z Q]; cbn.
  - apply negb_true_iff, Z.eqb_neq, N.
  - destruct b; [reflexivity|]. cbn in N. lia.
  - apply negb_true_iff. destruct (f64_eqZ f 0) eqn:Q0; [|reflexivity]. exfalso. apply N.
    assert (T : y_eqb (YInt z) (YInt 0) = true).
    { apply (y_eqb_trans _ (YFloat f)); cbn; assumption. }
    cbn in T. apply Z.eqb_eq in T. exact T.
Qed.

Lemma padding_iff : forall env v name member d, field v "name" name ->
  field v "type" (Y "padding") ->
  (read_padding env v name member = ROk d <->
   exists m align, d = RPadding m (Y "native") align /\ member = true
     /\ only_keys (member_keys (Some "padding"%string)) v /\ says_meta v m
     /\ field v "alignment_size" align
     /\ exists z, In z [2; 4; 8; 16] /\ equals_number align z).
Proof.
  intros env v name member d Fn Ft.
  assert (KK : only_keys keys_padding v <-> only_keys (member_keys (Some "padding"%string)) v) by keys.
  unfold read_padding. split.
  - intros H. destruct member; cbn [negb] in H; [|discriminate H].
    apply rbind_ok in H. destruct H as [m [E H]].
    apply (data_type_iff _ _ _ _ Fn) in E. destruct E as [K M].
    inv_rd. apply field_get in E. exists m, x.
    destruct (y_int env x) as [z|e|]; [|destruct e; discriminate|discriminate].
    destruct (y_in x _) eqn:I; [|discriminate H]. injection H as <-.
    split; [reflexivity|]. split; [reflexivity|]. split; [apply KK, K|]. split; [exact M|].
    split; [exact E|]. apply y_in_numbers. exact I.
  - intros [m [align [-> [-> [K [M [Fa S]]]]]]]. cbn [negb].
    assert (R : read_data_type v name keys_padding = ROk m).
    { apply (data_type_iff _ _ _ _ Fn). split; [apply KK, K|exact M]. }
    rewrite R. cbn [rbind]. apply field_get in Fa. rewrite Fa. cbn [lift rbind].
    assert (T : y_truthy align = true).
    { destruct S as [z [I E]]. apply (number_truthy _ z); [|exact E].
      intros ->. destruct I as [I|[I|[I|[I|[]]]]]; discriminate I. }
    rewrite T. cbn [negb].
    destruct (size_ok env align [2; 4; 8; 16]) as [Q|[z [Q1 Q2]]]; [right; exact S| |].
    + apply y_eqb_str in Q. subst align. destruct S as [z [_ E]]. inversion E.
    + rewrite Q1, Q2. reflexivity.
Qed.

Lemma amount_iff : forall env x a b,
  (if y_is_none x then ROk (None, None) else int_or_expr env x) = ROk (a, b) <->
  says_amount env x a b.
Proof.
  intros env x a b. unfold says_amount, int_or_expr. destruct (y_is_none x) eqn:N.
  - apply is_none_iff in N. subst x. split.
    + intros H. injection H as <- <-. left. auto.
    + intros [[_ [-> ->]]|[[C _]|[C _]]]; [reflexivity|congruence|congruence].
  - assert (N' : x <> YNull) by (intros ->; discriminate N). split.
    + intros H. destruct (y_int env x) as [z|e|] eqn:E; [| |discriminate H].
      * injection H as <- <-. right. left. eauto.
      * destruct e; try discriminate H. injection H as <- <-. right. right. auto.
    + intros [[C _]|[[_ [z [-> [-> ->]]]]|[_ [-> [-> ->]]]]]; [congruence|reflexivity|reflexivity].
Qed.

(** The text of one value as bytes. *)
Lemma bytes_iff : forall limit x y, limit <= 256 ->
  (match x with
   | YStr s => do* b := lift (u_encode limit s) in ROk (YBytes b)
   | v => ROk v
   end = ROk y <-> says_bytes limit x y).
Proof.
  intros limit x y HL. unfold says_bytes. split.
  - intros H. destruct (is_ystr x) eqn:T.
    + destruct x; try discriminate T. inv_rd. left. apply (encode_iff _ _ _ HL) in E. eauto.
    + right. split; [apply text_not, T|]. destruct x; try discriminate T; congruence.
  - intros [[s [b [-> [-> F]]]]|[N ->]].
    + apply (encode_iff _ _ _ HL) in F. rewrite F. reflexivity.
    + apply text_not in N. destruct x; try discriminate N; reflexivity.
Qed.

Lemma terminator_iff : forall x t,
  match x with
  | YNull => ROk None
  | YStr s => do* b := lift (u_encode 128 s) in ROk (Some (YBytes b))
  | v => ROk (Some v)
  end = ROk t <-> says_terminator x t.
Proof.
  intros x t. unfold says_terminator.
  assert (B : forall y, _) by (intros y; exact (bytes_iff 128 x y ltac:(lia))).
  destruct (y_is_none x) eqn:N.
  - apply is_none_iff in N. subst x. split.
    + intros H. injection H as <-. auto.
    + intros [[_ ->]|[C _]]; [reflexivity|congruence].
  - assert (N' : x <> YNull) by (intros ->; discriminate N).
    split.
    + intros H. right. split; [exact N'|].
      destruct x; try (injection H as <-; eexists; split; [reflexivity|apply B; reflexivity]);
        [congruence|].
      inv_rd. eexists. split; [reflexivity|]. apply B. rewrite E. reflexivity.
    + intros [[C _]|[_ [y [-> S]]]]; [congruence|]. apply B in S.
      destruct x; try (injection S as <-; reflexivity); [congruence|].
      inv_rd. rewrite E. reflexivity.
Qed.

Lemma none_bool : forall x, y_is_none x = false <-> x <> YNull.
Proof. intros []; cbn; split; congruence. Qed.

Lemma elements_iff : forall env r v name sup e elem, holds env r -> field v "name" name ->
  (read_elements env r v name sup = ROk (e, elem) <->
   only_keys sup v /\ says_meta v (re_meta e)
   /\ field v "element_data_type" (re_data_type e) /\ ~ falsy (re_data_type e)
   /\ stands_for env (registered r) (re_data_type e) elem
   /\ re_bo e = rd_byte_order elem
   /\ (exists size number terminator,
       field v "elements_data_size" size /\ field v "number_of_elements" number
       /\ field v "elements_terminator" terminator
       /\ ~ (size = YNull /\ number = YNull /\ terminator = YNull)
       /\ ~ (size <> YNull /\ number <> YNull)
       /\ says_amount env size (re_data_size e) (re_data_size_expr e)
       /\ says_amount env number (re_number e) (re_number_expr e)
       /\ says_terminator terminator (re_terminator e))
   /\ re_encoding e = Y "ascii").
Proof.
  intros env r v name sup e elem Ho Fn. unfold read_elements. split.
  - intros H. apply rbind_ok in H. destruct H as [[] [K H]]. apply check_keys_ok in K.
    apply rbind_ok in H. destruct H as [dt [Fd H]]. apply lift_ok, field_get in Fd.
    destruct (y_truthy dt) eqn:T; cbn [negb] in H; [|discriminate H].
    apply rbind_ok in H. destruct H as [size [Fs H]]. apply lift_ok, field_get in Fs.
    apply rbind_ok in H. destruct H as [term [Ft H]]. apply lift_ok, field_get in Ft.
    apply rbind_ok in H. destruct H as [number [Fm H]]. apply lift_ok, field_get in Fm.
    destruct (y_is_none size && y_is_none term && y_is_none number) eqn:C1; [discriminate H|].
    destruct (negb (y_is_none size) && negb (y_is_none number)) eqn:C2; [discriminate H|].
    apply rbind_ok in H. destruct H as [[d|] [L H]]; [|exfalso; exact (raise_def_ok _ _ _ _ H)].
    apply rbind_ok in H. destruct H as [m [M H]]. apply (meta_iff _ _ _ Fn) in M.
    apply rbind_ok in H. destruct H as [[a1 b1] [A1 H]]. apply amount_iff in A1.
    apply rbind_ok in H. destruct H as [[a2 b2] [A2 H]].
    assert (C3 : negb (y_is_none size) || y_is_none number = y_is_none number)
      by (destruct (y_is_none size), (y_is_none number); cbn in C2 |- *; congruence).
    rewrite C3 in A2.
    apply amount_iff in A2.
    apply rbind_ok in H. destruct H as [t [Ht H]]. apply terminator_iff in Ht.
    injection H as <- <-. cbn.
    split; [exact K|]. split; [exact M|]. split; [exact Fd|]. split; [apply truthy_iff, T|].
    split; [apply (lookup_iff _ _ _ _ Ho), L|]. split; [reflexivity|]. split; [|reflexivity].
    exists size, number, term. repeat (split; [assumption|]).
    split; [intros [-> [-> ->]]; discriminate C1|].
    split; [|auto]. intros [N1 N2]. apply none_bool in N1, N2. rewrite N1, N2 in C2. discriminate C2.
  - intros (K & M & Fd & T & L & B & (size & number & term & Fs & Fm & Ft & C1 & C2 & A1 & A2 & Ht) & En).
    apply (check_keys_iff name) in K. rewrite K. cbn [rbind].
    apply field_get in Fd, Fs, Fm, Ft. rewrite Fd. cbn [lift rbind].
    apply truthy_iff in T. rewrite T. cbn [negb].
    rewrite Fs, Ft, Fm. cbn [lift rbind].
    replace (y_is_none size && y_is_none term && y_is_none number) with false.
    2:{ symmetry. destruct (y_is_none size) eqn:E1; [|reflexivity].
        destruct (y_is_none term) eqn:E2; [|reflexivity].
        destruct (y_is_none number) eqn:E3; [|reflexivity].
        apply is_none_iff in E1, E2, E3. exfalso. auto. }
    replace (negb (y_is_none size) && negb (y_is_none number)) with false.
    2:{ symmetry. destruct (y_is_none size) eqn:E1; [reflexivity|].
        destruct (y_is_none number) eqn:E3; [reflexivity|].
        apply none_bool in E1, E3. exfalso. auto. }
    apply (lookup_iff _ _ _ _ Ho) in L. rewrite L. cbn [rbind].
    apply (meta_iff _ _ _ Fn) in M. rewrite M. cbn [rbind].
    apply amount_iff in A1, A2. rewrite A1. cbn [rbind].
    replace (negb (y_is_none size) || y_is_none number) with (y_is_none number).
    2:{ destruct (y_is_none size) eqn:E1; [reflexivity|].
        destruct (y_is_none number) eqn:E3; [reflexivity|].
        apply none_bool in E1, E3. exfalso. auto. }
    rewrite A2. cbn [rbind]. apply terminator_iff in Ht. rewrite Ht. cbn [rbind fst snd].
    rewrite <- B, <- En. destruct e. reflexivity.
Qed.

Lemma elems_iff : forall env r k v name member d, holds env r -> field v "name" name ->
  (read_elems env r k v name member = ROk d <->
   exists e elem, d = RElems k e elem /\ says_elements env (registered r) member k v e elem).
Proof.
  intros env r k v name member d Ho Fn. unfold says_elements.
  assert (KE : only_keys (if member then keys_elements_member else keys_elements) v <->
    only_keys (if member then member_keys (Some "sequence"%string) else definition_keys "sequence") v)
    by (destruct member; keys).
  assert (KS : only_keys (if member then keys_string_member else keys_string) v <->
    only_keys (if member then member_keys (Some "string"%string) else definition_keys "string") v)
    by (destruct member; keys).
  unfold read_elems. destruct k; cbn [kind_type].
  - split.
    + intros H. apply rbind_ok in H. destruct H as [[e elem] [E H]]. injection H as <-.
      exists e, elem. split; [reflexivity|]. apply (elements_iff _ _ _ _ _ _ _ Ho Fn) in E.
      rewrite KE in E. exact E.
    + intros [e [elem [-> S]]].
      assert (E : read_elements env r v name
        (if member then keys_elements_member else keys_elements) = ROk (e, elem)).
      { apply (elements_iff _ _ _ _ _ _ _ Ho Fn). rewrite KE. exact S. }
      rewrite E. reflexivity.
  - split.
    + intros H. apply rbind_ok in H. destruct H as [[e elem] [E H]]. injection H as <-.
      exists e, elem. split; [reflexivity|]. apply (elements_iff _ _ _ _ _ _ _ Ho Fn) in E.
      rewrite KE in E. exact E.
    + intros [e [elem [-> S]]].
      assert (E : read_elements env r v name
        (if member then keys_elements_member else keys_elements) = ROk (e, elem)).
      { apply (elements_iff _ _ _ _ _ _ _ Ho Fn). rewrite KE. exact S. }
      rewrite E. reflexivity.
  - split.
    + intros H. apply rbind_ok in H. destruct H as [[e elem] [E H]]. inv_rd.
      apply (elements_iff _ _ _ _ _ _ _ Ho Fn) in E. rewrite KS in E.
      apply field_get in E0. apply negb_false_iff, truthy_iff in E1.
      do 2 eexists. split; [reflexivity|]. cbn [fst snd re_meta re_bo re_data_size re_data_size_expr
        re_data_type re_terminator re_number re_number_expr re_encoding]. tauto.
    + intros [e [elem [-> [K [M [Fd [T [L [B [X [Fe Te]]]]]]]]]]].
      assert (E : read_elements env r v name
        (if member then keys_string_member else keys_string) =
        ROk (mkRElems (re_meta e) (re_bo e) (re_data_size e) (re_data_size_expr e)
               (re_data_type e) (re_terminator e) (re_number e) (re_number_expr e) (Y "ascii"), elem)).
      { apply (elements_iff _ _ _ _ _ _ _ Ho Fn). rewrite KS. cbn. tauto. }
      rewrite E. cbn [rbind]. apply field_get in Fe. rewrite Fe. cbn [lift rbind].
      apply truthy_iff in Te. rewrite Te. cbn. destruct e. reflexivity.
Qed.

(** * Kinds *)

Definition inline_kind (k : kind) : bool :=
  match k with
  | KBoolean | KCharacter | KFloat | KInteger | KUUID | KPadding | KElems _ => true
  | _ => false
  end.

Lemma kind_name_inj : forall a b, kind_name a = kind_name b -> a = b.
Proof.
  intros a b H.
  destruct a as [ | | | | | | | |[]| | | | | ], b as [ | | | | | | | |[]| | | | | ];
    cbn in H; try reflexivity; discriminate H.
Qed.

Lemma callback_of_name : forall k, find_callback (Y (kind_name k)) = ROk (Some k).
Proof. intros [ | | | | | | | |[]| | | | | ]; vm_compute; reflexivity. Qed.

Ltac same_type :=
  match goal with
  | H : field ?v "type" (Y (kind_name ?k)), H' : field ?v "type" ?t |- _ =>
      let Q := fresh "Q" in
      pose proof (Y_inj _ _ (field_fun _ _ _ _ H H')) as Q;
      destruct k as [ | | | | | | | |[]| | | | | ]; cbn in Q; try discriminate Q; clear Q
  end.

Lemma inline_iff : forall env r rm k v name member d,
  holds env r -> field v "name" name -> field v "type" (Y (kind_name k)) -> inline_kind k = true ->
  (callback env r rm k v name member = ROk d <-> says_inline env (registered r) member v d).
Proof.
  intros env r rm k v name member d Ho Fn Ft Ik. split.
  - intros H. destruct k as [ | | | | | | | |s| | | | | ]; try discriminate Ik; cbn [callback] in H.
    + unfold read_boolean in H. inv_rd. apply SayBoolean; [exact Ft|].
      eapply fixed_says; [exact Fn| | |exact E]; [keys|intros a; keys].
    + unfold read_character in H. inv_rd. apply SayCharacter; [exact Ft|].
      eapply fixed_says; [exact Fn| | |exact E]; [keys|intros a; keys].
    + unfold read_float in H. inv_rd. apply SayFloat; [exact Ft|].
      eapply fixed_says; [exact Fn| | |exact E]; [keys|intros a; keys].
    + assert (exists f fmt, d = RInteger f fmt) as [f [fmt ->]].
      { unfold read_integer in H. inv_rd. destruct (y_truthy x0); inv_rd; eauto. }
      apply (integer_iff _ _ _ _ _ _ Fn) in H. destruct H. apply SayInteger; assumption.
    + apply (padding_iff _ _ _ _ _ Fn Ft) in H.
      destruct H as [m [align [-> [-> [K [M [Fa S]]]]]]]. apply SayPadding; auto.
    + apply (elems_iff _ _ _ _ _ _ _ Ho Fn) in H. destruct H as [e [elem [-> S]]].
      apply SayElems; [|exact S]. destruct s; exact Ft.
    + unfold read_uuid in H. inv_rd. apply SayUUID; [exact Ft|].
      eapply fixed_says; [exact Fn| | |exact E]; [keys|intros a; keys].
  - intros S. destruct S.
    + same_type. cbn [callback]. unfold read_boolean.
      erewrite (proj2 (fixed_says _ _ _ _ _ _ _ _ f Fn _ _)); [reflexivity|eassumption].
      Unshelve. keys. intros a; keys.
    + same_type. cbn [callback]. unfold read_character.
      erewrite (proj2 (fixed_says _ _ _ _ _ _ _ _ f Fn _ _)); [reflexivity|eassumption].
      Unshelve. keys. intros a; keys.
    + same_type. cbn [callback]. unfold read_float.
      erewrite (proj2 (fixed_says _ _ _ _ _ _ _ _ f Fn _ _)); [reflexivity|eassumption].
      Unshelve. keys. intros a; keys.
    + same_type. cbn [callback]. apply (integer_iff _ _ _ _ _ _ Fn). auto.
    + same_type. cbn [callback]. unfold read_uuid.
      erewrite (proj2 (fixed_says _ _ _ _ _ _ _ _ f Fn _ _)); [reflexivity|eassumption].
      Unshelve. keys. intros a; keys.
    + same_type. cbn [callback]. apply (padding_iff _ _ _ _ _ Fn Ft). eauto 10.
    + match goal with H : field _ "type" (Y (kind_type _)) |- _ => rename H into Ft' end.
      assert (k = KElems k0).
      { apply kind_name_inj. apply Y_inj. rewrite (field_fun _ _ _ _ Ft Ft'). destruct k0; reflexivity. }
      subst k. cbn [callback]. apply (elems_iff _ _ _ _ _ _ _ Ho Fn). eauto.
Qed.

(** * Members *)

Lemma distinct_front : forall l a r, distinct (l ++ a :: r) -> y_in a l = false.
Proof.
  intros l a r D. destruct (y_in a l) eqn:E; [|reflexivity].
  apply existsb_exists in E. destruct E as [b [I Q]].
  apply In_nth_error in I. destruct I as [i Hi].
  assert (i < List.length l)%nat by (apply nth_error_Some; congruence).
  rewrite (D i (List.length l) b a) in Q; [discriminate Q|assumption| |].
  - rewrite nth_error_app1 by assumption. exact Hi.
  - rewrite nth_error_app2 by lia. rewrite Nat.sub_diag. reflexivity.
Qed.

Lemma distinct_prefix : forall l r, distinct (l ++ r) -> distinct l.
Proof.
  intros l r D i j a b L Hi Hj.
  assert (i < List.length l)%nat by (apply nth_error_Some; congruence).
  assert (j < List.length l)%nat by (apply nth_error_Some; congruence).
  apply (D i j a b L); rewrite nth_error_app1 by assumption; assumption.
Qed.

Lemma add_member_iff : forall dname ms d ms',
  add_member dname ms d = ROk ms' <->
  ms' = ms ++ [d] /\ hashable (rd_name d) = true /\ y_in (rd_name d) (map rd_name ms) = false.
Proof.
  intros dname ms d ms'. unfold add_member. split.
  - intros H. inv_rd. rewrite hashable_same. auto.
  - intros [-> [H I]]. unfold hashed. rewrite <- hashable_same, H. cbn [rbind]. rewrite I. reflexivity.
Qed.

(** Names appended to the last section. *)
Definition extend (ss : list (yval * list yval)) (names : list yval) : list (yval * list yval) :=
  fold_left (fun ss n => add_to_section n ss) names ss.

Lemma add_last : forall ss s l n, add_to_section n (ss ++ [(s, l)]) = ss ++ [(s, l ++ [n])].
Proof.
  induction ss as [|x ss IH]; intros s l n; [reflexivity|].
  cbn [app add_to_section]. rewrite IH. destruct ss; reflexivity.
Qed.

Lemma extend_last : forall names ss s l, extend (ss ++ [(s, l)]) names = ss ++ [(s, l ++ names)].
Proof.
  induction names as [|n names IH]; intros ss s l; cbn.
  - rewrite app_nil_r. reflexivity.
  - rewrite add_last. unfold extend in IH. rewrite IH, <- app_assoc. reflexivity.
Qed.

Lemma extend_nil : forall names, extend [] names = [].
Proof. induction names as [|n names IH]; [reflexivity|exact IH]. Qed.

Lemma members_iff : forall env prior cs read dname l ms0 ss0 ms' ss',
  (forall x d, In x l -> (read x = ROk d <-> says_member env prior cs x d)) ->
  distinct (map rd_name ms0) ->
  (read_members read dname ms0 ss0 l = ROk (ms', ss') <->
   exists ms names ss, says_members env prior cs l ms names ss
   /\ ms' = ms0 ++ ms /\ ss' = extend ss0 names ++ ss
   /\ Forall (fun d => hashable (rd_name d) = true) ms
   /\ distinct (map rd_name (ms0 ++ ms))).
Proof.
  intros env prior cs read dname l. induction l as [|x l IH]; intros ms0 ss0 ms' ss' R D.
  - cbn [read_members]. split.
    + intros H. injection H as <- <-. exists [], [], []. rewrite !app_nil_r.
      split; [constructor|]. cbn. auto.
    + intros (ms & names & ss & S & -> & -> & _ & _). inversion S; subst. cbn.
      rewrite !app_nil_r. reflexivity.
  - assert (R' : forall y d, In y l -> (read y = ROk d <-> says_member env prior cs y d))
      by (intros y d I; apply R; right; exact I).
    cbn [read_members]. split.
    + intros H. apply rbind_ok in H. destruct H as [s [Fs H]]. apply lift_ok, field_get in Fs.
      destruct (y_truthy s) eqn:T.
      * apply (IH _ _ _ _ R' D) in H. destruct H as (ms & names & ss & S & -> & -> & Hh & Hd).
        exists ms, [], ((s, names) :: ss). split; [|split; [reflexivity|split; [|auto]]].
        -- econstructor; [exact Fs|apply truthy_iff, T|exact S].
        -- rewrite extend_last. cbn. rewrite <- app_assoc. reflexivity.
      * apply rbind_ok in H. destruct H as [d [Rd H]]. apply (R _ _ (or_introl eq_refl)) in Rd.
        apply rbind_ok in H. destruct H as [ms1 [Am H]]. apply add_member_iff in Am.
        destruct Am as [-> [Hd Hi]].
        assert (D1 : distinct (map rd_name (ms0 ++ [d])))
          by (rewrite map_app; apply distinct_snoc; assumption).
        apply (IH _ _ _ _ R' D1) in H. destruct H as (ms & names & ss & S & -> & -> & Hh & Hd').
        exists (d :: ms), (rd_name d :: names), ss. rewrite <- !app_assoc in *. cbn [app] in *.
        split; [|split; [reflexivity|split; [reflexivity|split; [constructor; assumption|assumption]]]].
        econstructor; eassumption.
    + intros (ms & names & ss & S & -> & -> & Hh & Hd). inversion S; subst.
      * match goal with H : field x "section" _ |- _ => apply field_get in H; rewrite H end.
        cbn [lift rbind].
        match goal with H : ~ falsy _ |- _ => apply truthy_iff in H; rewrite H end.
        apply (IH _ _ _ _ R' D). do 3 eexists. split; [eassumption|]. split; [reflexivity|].
        split; [|auto]. rewrite extend_last. cbn. rewrite <- app_assoc. reflexivity.
      * match goal with H : field x "section" _ |- _ => apply field_get in H; rewrite H end.
        cbn [lift rbind].
        match goal with H : falsy _ |- _ => unfold falsy in H; change truth with y_truthy in H; rewrite H end.
        match goal with H : says_member _ _ _ x _ |- _ => apply (R _ _ (or_introl eq_refl)) in H; rewrite H end.
        cbn [rbind]. inversion Hh; subst.
        rewrite (proj2 (add_member_iff dname ms0 d (ms0 ++ [d]))).
        2:{ split; [reflexivity|]. split; [assumption|]. rewrite map_app in Hd. cbn in Hd.
            apply distinct_front in Hd. exact Hd. }
        cbn [rbind]. apply (IH _ _ _ _ R').
        { replace (ms0 ++ d :: ms1) with ((ms0 ++ [d]) ++ ms1) in Hd by (rewrite <- app_assoc; reflexivity).
          rewrite map_app in Hd. apply distinct_prefix in Hd. exact Hd. }
        do 3 eexists. split; [eassumption|]. rewrite <- !app_assoc. cbn [app]. auto.
Qed.

Lemma distinct_nil : distinct [].
Proof. intros i j a b _ H. destruct i; discriminate H. Qed.

Lemma order_says : forall names v bo name a, field v "attributes" a ->
  ((if y_truthy a then read_byte_order name a names else ROk y_native) = ROk bo <->
   says_order names v bo).
Proof.
  intros names v bo name a Fa. unfold says_order. split.
  - intros H. exists a. split; [exact Fa|]. destruct (y_truthy a) eqn:T.
    + right. split; [apply truthy_iff, T|]. apply order_iff in H. exact H.
    + left. injection H as <-. auto.
  - intros [b [Fb C]]. rewrite <- (field_fun _ _ _ _ Fa Fb) in C. destruct C as [[T ->]|[T C]].
    + rewrite (falsy_same _ T). reflexivity.
    + apply truthy_iff in T. rewrite T. apply order_iff. exact C.
Qed.

Lemma container_iff : forall env prior cs read v name m bo ss ms type,
  (forall x d, (y_height x < y_height v)%nat -> (read x = ROk d <-> says_member env prior cs x d)) ->
  field v "name" name -> field v "type" (Y type) -> (only_keys keys_with_members v <-> only_keys (definition_keys type) v) ->
  (read_with_members read v name = ROk (m, bo, ss, ms) <->
   exists l names, says_container type v m bo l /\ says_members env prior cs l ms names ss
     /\ unique_names ms).
Proof.
  intros env prior cs read v name m bo ss ms type R Fn Ft HK. unfold read_with_members, says_container. split.
  - intros H. apply rbind_ok in H. destruct H as [x [Fx H]]. apply lift_ok, field_get in Fx.
    destruct (y_truthy x) eqn:T; cbn [negb] in H; [|discriminate H].
    apply rbind_ok in H. destruct H as [m' [M H]]. apply (data_type_iff _ _ _ _ Fn) in M.
    apply rbind_ok in H. destruct H as [a [Fa H]]. apply lift_ok, field_get in Fa.
    apply rbind_ok in H. destruct H as [bo' [B H]]. apply (order_says _ _ _ _ _ Fa) in B.
    apply rbind_ok in H. destruct H as [l [I H]]. apply lift_ok in I.
    apply rbind_ok in H. destruct H as [[ms' ss'] [Rm H]]. injection H as <- <- <- <-.
    apply (members_iff env prior cs) in Rm; [|intros y d Iy; apply R|apply distinct_nil].
    + cbn [app] in Rm. destruct Rm as (ms1 & names & ss1 & S & -> & -> & Hh & Hd).
      exists l, names. cbn [fst snd]. rewrite extend_nil. cbn [app].
      destruct M as [K M]. split; [|split; [exact S|split; assumption]].
      split; [exact Ft|]. split; [apply HK, K|]. split; [exact M|]. split; [exact B|].
      exists x. split; [exact Fx|]. split; [apply truthy_iff, T|exact I].
    + apply (items_height v "members" l); [|exact Iy]. exists x. split; [|exact I].
      apply field_get in Fx. apply y_get_entry; [exact Fx|]. apply y_truthy_null, T.
  - intros (l & names & (_ & K & M & B & x & Fx & T & I) & S & [Hh Hd]).
    apply truthy_iff in T.
    assert (Hx : items v "members" l).
    { exists x. split; [|exact I]. apply field_get in Fx. apply y_get_entry; [exact Fx|].
      apply y_truthy_null, T. }
    apply field_get in Fx. rewrite Fx. cbn [lift rbind]. rewrite T. cbn [negb].
    rewrite (proj2 (data_type_iff _ _ _ m Fn)) by (split; [apply HK, K|exact M]). cbn [rbind].
    pose proof B as [a [Fa _]]. pose proof (proj1 (field_get _ _ _) (proj2 (field_get _ _ _) Fa)) as Fa'.
    apply field_get in Fa. rewrite Fa. cbn [lift rbind].
    apply (order_says _ _ _ name _ Fa') in B. change ["byte_order"%string] with attrs_storage in B.
    rewrite B. cbn [rbind]. rewrite I. cbn [lift rbind].
    assert (Rm : read_members read name [] [] l = ROk (ms, ss)).
    { apply (members_iff env prior cs); [intros y d Iy; apply R, (items_height v "members" l); assumption|apply distinct_nil|].
      exists ms, names, ss. rewrite extend_nil. cbn [app]. auto. }
    rewrite Rm. reflexivity.
Qed.

Lemma encode_values_iff : forall l ys, encode_values l = ROk ys <-> Forall2 (says_bytes 256) l ys.
Proof.
  induction l as [|x l IH]; intros ys; cbn [encode_values].
  - split; [intros H; injection H as <-; constructor|intros H; inversion H; reflexivity].
  - split.
    + intros H. apply rbind_ok in H. destruct H as [y [Hy H]].
      apply (bytes_iff 256 x y ltac:(lia)) in Hy.
      apply rbind_ok in H. destruct H as [r [Hr H]]. injection H as <-.
      constructor; [exact Hy|apply IH, Hr].
    + intros H. inversion H as [|? y ? r Hy Hr]; subst.
      apply (bytes_iff 256 x y ltac:(lia)) in Hy. rewrite Hy. cbn [rbind].
      apply IH in Hr. rewrite Hr. reflexivity.
Qed.

Lemma values_iff : forall v value vals vs,
  field v "value" value -> field v "values" vals ->
  ((negb (y_is_none value) && negb (y_is_none vals) = false
    /\ (if y_truthy (if negb (y_is_none value) && y_is_none vals then YList [value] else vals) then
           do* l := lift (y_iter (if negb (y_is_none value) && y_is_none vals then YList [value] else vals)) in
           do* l := encode_values l in
           ROk (Some l)
         else ROk None) = ROk vs) <-> says_values v vs).
Proof.
  intros v value vals vs Fv Fs. unfold says_values. split.
  - intros [C H]. exists value, vals. split; [exact Fv|]. split; [exact Fs|].
    destruct (y_is_none value) eqn:N; cbn [negb andb] in C, H.
    + apply is_none_iff in N. destruct (y_truthy vals) eqn:T.
      * right. right. split; [exact N|]. split; [apply truthy_iff, T|]. inv_rd.
        apply encode_values_iff in E0. eauto.
      * right. left. injection H as <-. auto.
    + apply negb_false_iff in C. rewrite C in H. cbn [y_truthy is_empty negb] in H.
      left. split; [apply none_bool, N|]. split; [apply is_none_iff, C|].
      inv_rd. cbn in E. injection E as <-. apply encode_values_iff in E0.
      inversion E0 as [|? y ? r Hy Hr]; subst. inversion Hr; subst. eauto.
  - intros (value' & vals' & Fv' & Fs' & C).
    rewrite <- (field_fun _ _ _ _ Fv Fv'), <- (field_fun _ _ _ _ Fs Fs') in C. clear Fv' Fs'.
    destruct C as [(N & -> & y & -> & S)|[(-> & T & ->)|(-> & T & l & ys & I & -> & S)]].
    + apply none_bool in N. rewrite N. cbn [y_is_none negb andb]. split; [reflexivity|].
      cbn [y_truthy is_empty negb y_iter lift rbind].
      rewrite (proj2 (encode_values_iff [value] [y])) by (constructor; [exact S|constructor]). reflexivity.
    + cbn [y_is_none negb andb]. rewrite (falsy_same _ T). auto.
    + cbn [y_is_none negb andb]. apply truthy_iff in T. rewrite T, I. cbn [lift rbind].
      apply encode_values_iff in S. rewrite S. auto.
Qed.

Lemma in_member_iff : forall A dname (x : rd A) a, in_member dname x = ROk a <-> x = ROk a.
Proof.
  intros A dname [x|[n|e]|] a; cbn [in_member]; try reflexivity.
  split; [intros H; exfalso; exact (raise_def_ok _ _ _ _ H)|discriminate].
Qed.

Lemma absent : forall names v key, only_keys names v -> ~ In key names -> field v key YNull.
Proof.
  intros names v key K N. right. split; [apply (only_keys_map _ _ K)|]. split; [|reflexivity].
  intros y E. apply N. exact (only_keys_entry _ _ _ _ K E).
Qed.

Ltac not_in := intros Q; cbn in Q; decompose [or] Q; try discriminate; assumption.

Ltac get_fields :=
  repeat match goal with
  | H : field ?v ?k ?x |- context [y_get ?k ?v] =>
      rewrite (proj2 (field_get v k x) H); cbn [lift rbind]
  end.

Lemma map_truthy : forall v k x, field v k x -> x <> YNull -> y_truthy v = true.
Proof.
  intros v k x F N. destruct F as [[l [-> M]]|[_ [_ C]]]; [|congruence].
  destruct l; [discriminate M|reflexivity].
Qed.

Lemma truthy_some : forall v l, y_truthy v = true -> y_iter v = Ok l -> forall vs,
  encode_values l = ROk vs -> match vs with [] => false | _ => true end = true.
Proof.
  intros v l T I vs E. pose proof (truthy_iter _ _ T I) as N.
  apply encode_values_iff in E. inversion E; subst; [congruence|reflexivity].
Qed.

Lemma values_some : forall v vs, says_values v vs ->
  match vs with Some (_ :: _) => true | _ => false end = match vs with Some _ => true | None => false end.
Proof.
  intros v vs (value & vals & _ & _ & C).
  destruct C as [(N & -> & y & -> & S)|[(-> & T & ->)|(-> & T & l & ys & I & -> & S)]];
    try reflexivity.
  apply truthy_iff in T. pose proof (truthy_iter _ _ T I) as Q. inversion S; subst; [congruence|reflexivity].
Qed.

Lemma not_union_kind : forall v d t, field v "type" (Y t) ->
  forall env prior, says_inline env prior true v d -> exists k, t = kind_name k /\ inline_kind k = true.
Proof.
  intros v d t Ft env prior S.
  destruct S as [? ? F|? ? F|? ? F|? ? ? F|? ? F|? ? ? ? F|? k ? ? F];
    pose proof (Y_inj _ _ (field_fun _ _ _ _ Ft F)) as ->.
  - exists KBoolean; auto.
  - exists KCharacter; auto.
  - exists KFloat; auto.
  - exists KInteger; auto.
  - exists KUUID; auto.
  - exists KPadding; auto.
  - exists (KElems k). destruct k; auto.
Qed.

Lemma inline_type : forall env prior member v d, says_inline env prior member v d ->
  exists k, field v "type" (Y (kind_name k)) /\ inline_kind k = true.
Proof.
  intros env prior member v d S.
  destruct S as [? ? F|? ? F|? ? F|? ? ? F|? ? F|? ? ? ? F|? k ? ? F].
  - exists KBoolean; auto.
  - exists KCharacter; auto.
  - exists KFloat; auto.
  - exists KInteger; auto.
  - exists KUUID; auto.
  - exists KPadding; auto.
  - exists (KElems k). destruct k; auto.
Qed.

Lemma union_no : forall k, inline_kind k = true -> y_eqb (Y (kind_name k)) (Y "union") = false.
Proof. intros [ | | | | | | | |[]| | | | | ] H; try discriminate H; reflexivity. Qed.

Lemma member_iff : forall env r, holds env r -> forall fuel v dname cs d,
  (y_height v < fuel)%nat ->
  (read_member env r fuel v dname cs = ROk d <-> says_member env (registered r) cs v d).
Proof.
  intros env r Ho fuel. induction fuel as [|fuel IH]; intros v dname cs d HF; [lia|].
  cbn [read_member]. split.
  - intros H. destruct (y_truthy v) eqn:Tv; cbn [negb] in H; [|discriminate H].
    apply rbind_ok in H. destruct H as [name [Fn H]]. apply lift_ok, field_get in Fn.
    apply rbind_ok in H. destruct H as [ti [Ft H]]. apply lift_ok, field_get in Ft.
    destruct (negb (y_truthy name) && negb (y_eqb ti (Y "union"))) eqn:C1; [discriminate H|].
    apply rbind_ok in H. destruct H as [dt [Fd H]]. apply lift_ok, field_get in Fd.
    destruct (y_is_none dt && y_is_none ti) eqn:C2; [exfalso; exact (raise_def_ok _ _ _ _ H)|].
    destruct (negb (y_is_none dt) && negb (y_is_none ti)) eqn:C3; [exfalso; exact (raise_def_ok _ _ _ _ H)|].
    apply rbind_ok in H. destruct H as [c [Fc H]]. apply lift_ok, field_get in Fc.
    destruct (negb cs && y_truthy c) eqn:C4; [exfalso; exact (raise_def_ok _ _ _ _ H)|].
    apply rbind_ok in H. destruct H as [value [Fv H]]. apply lift_ok, field_get in Fv.
    apply rbind_ok in H. destruct H as [vals [Fs H]]. apply lift_ok, field_get in Fs.
    destruct (negb (y_is_none value) && negb (y_is_none vals)) eqn:C5; [exfalso; exact (raise_def_ok _ _ _ _ H)|].
    cbv zeta in H. apply rbind_ok in H. destruct H as [vs [V H]].
    pose proof (proj1 (values_iff _ _ _ vs Fv Fs) (conj C5 V)) as SV.
    assert (SC : says_condition cs v c).
    { split; [exact Fc|]. destruct cs; [auto|]. right. exact C4. }
    destruct (y_is_none ti) eqn:Nt; cbn [negb] in H.
    + (* by name *)
      apply is_none_iff in Nt. subst ti. cbn [y_eqb Y negb] in C1. rewrite andb_true_r in C1.
      apply negb_false_iff in C1. rewrite andb_true_r in C2.
      apply rbind_ok in H. destruct H as [[x|] [L H]]; [|exfalso; exact (raise_def_ok _ _ _ _ H)].
      apply rbind_ok in H. destruct H as [[] [K H]]. apply check_keys_ok in K.
      inv_rd. apply field_get in E, E0.
      eapply SayReference; cbn; try eassumption; try reflexivity.
      * apply truthy_iff, C1.
      * apply none_bool, C2.
      * apply (lookup_iff _ _ _ _ Ho), L.
      * apply or_empty_iff. reflexivity.
    + rewrite andb_true_r in C3. apply negb_false_iff, is_none_iff in C3. subst dt.
      apply rbind_ok in H. destruct H as [[k|] [Fk H]]; [|exfalso; exact (raise_def_ok _ _ _ _ H)].
      apply find_callback_ok in Fk. subst ti.
      apply rbind_ok in H. destruct H as [x [Cb H]]. apply in_member_iff in Cb.
      destruct (inline_kind k) eqn:Ik.
      * rewrite (union_no _ Ik) in C1. cbn [negb] in C1. rewrite andb_true_r in C1.
        apply negb_false_iff, truthy_iff in C1.
        apply (inline_iff _ _ _ _ _ _ _ _ Ho Fn Ft Ik) in Cb.
        rewrite (values_some _ _ SV) in H.
        destruct (y_truthy c) eqn:Tc; cbn [orb] in H.
        -- injection H as <-. eapply SayWrapped; try eassumption. intros [C _]. apply falsy_same in C. congruence.
        -- destruct vs as [ys|]; injection H as <-.
           ++ eapply SayWrapped; try eassumption. intros [_ C]. discriminate C.
           ++ eapply SayInline; try eassumption. reflexivity.
      * destruct k as [ | | | | | | | |s| | | | | ]; try discriminate Ik; cbn [callback] in Cb;
          try (unfold read_constant, read_enumeration, read_format, read_family, read_group in Cb; discriminate Cb).
        apply rbind_ok in Cb. destruct Cb as [[[[m bo] ss] ms] [W Cb]]. injection Cb as <-.
        apply (container_iff env (registered r) false) with (type := "union"%string) in W;
          [|intros y e Hy; apply IH; lia|exact Fn|exact Ft|keys].
        destruct W as (l & names & SCo & SM & U).
        pose proof SCo as (_ & K & _).
        assert (c = YNull) as ->
          by (apply (field_fun _ _ _ _ Fc); apply (absent _ _ _ K); not_in).
        assert (value = YNull) as ->
          by (apply (field_fun _ _ _ _ Fv); apply (absent _ _ _ K); not_in).
        assert (vals = YNull) as ->
          by (apply (field_fun _ _ _ _ Fs); apply (absent _ _ _ K); not_in).
        cbn in V. injection V as <-. cbn in H. injection H as <-.
        eapply SayUnion; eassumption.
  - intros S. inversion S; subst.
    + match goal with H : field v "name" _ |- _ => rename H into Fn end.
      match goal with H : ~ falsy _ |- _ => pose proof (proj2 (truthy_iff _) H) as Tn end.
      match goal with H : says_condition _ _ _ |- _ => destruct H as [Fc Cc] end.
      match goal with H : says_values _ _ |- _ =>
        pose proof H as (value & vals & Fv & Fs & _);
        pose proof (proj2 (values_iff _ _ _ _ Fv Fs) H) as [C5 V] end.
      rewrite (map_truthy _ _ _ Fn) by (intros Q; rewrite Q in Tn; discriminate Tn).
      cbn [negb]. get_fields. rewrite Tn. cbn [negb andb].
      match goal with H : dt <> YNull |- _ => apply none_bool in H; rewrite H end.
      cbn [negb andb y_is_none].
      replace (negb cs && y_truthy c) with false
        by (destruct Cc as [-> | Cc]; [reflexivity|unfold falsy in Cc; change truth with y_truthy in Cc; rewrite Cc, andb_false_r; reflexivity]).
      rewrite C5, V. cbn [rbind].
      match goal with H : stands_for _ _ _ _ |- _ => apply (lookup_iff _ _ _ _ Ho) in H; rewrite H end.
      cbn [rbind].
      match goal with H : only_keys _ v |- _ => apply (check_keys_iff dname) in H;
        change keys_member with (member_keys None); rewrite H end.
      cbn [rbind].
      match goal with H : given_or _ _ _ |- _ => apply or_empty_iff in H; rewrite <- H end.
      destruct m. cbn in *. subst. reflexivity.
    + match goal with H : field v "name" _ |- _ => rename H into Fn end.
      match goal with H : ~ falsy _ |- _ => pose proof (proj2 (truthy_iff _) H) as Tn end.
      match goal with H : says_condition _ _ _ |- _ => destruct H as [Fc Cc] end.
      match goal with H : says_values _ _ |- _ =>
        pose proof H as (value & vals & Fv & Fs & _);
        pose proof (proj2 (values_iff _ _ _ _ Fv Fs) H) as [C5 V] end.
      match goal with H : says_inline _ _ _ _ _ |- _ =>
        destruct (inline_type _ _ _ _ _ H) as [k [Ft Ik]]; rename H into SI end.
      rewrite (map_truthy _ _ _ Fn) by (intros Q; rewrite Q in Tn; discriminate Tn).
      cbn [negb]. get_fields. rewrite Tn. cbn [negb andb y_is_none Y].
      replace (negb cs && y_truthy c) with false
        by (destruct Cc as [-> | Cc]; [reflexivity|unfold falsy in Cc; change truth with y_truthy in Cc; rewrite Cc, andb_false_r; reflexivity]).
      rewrite C5, V. cbn [rbind]. fold (Y (kind_name k)). rewrite callback_of_name. cbn [rbind].
      rewrite (proj2 (in_member_iff _ dname _ d)) by (apply (inline_iff _ _ _ _ _ _ _ _ Ho Fn Ft Ik), SI).
      cbn [rbind].
      match goal with H : falsy c |- _ => unfold falsy in H; change truth with y_truthy in H; rewrite H end. reflexivity.
    + match goal with H : field v "name" _ |- _ => rename H into Fn end.
      match goal with H : ~ falsy name |- _ => pose proof (proj2 (truthy_iff _) H) as Tn end.
      match goal with H : says_condition _ _ _ |- _ => destruct H as [Fc Cc] end.
      match goal with H : says_values _ _ |- _ =>
        rename H into SV;
        pose proof SV as (value & vals & Fv & Fs & _);
        pose proof (proj2 (values_iff _ _ _ _ Fv Fs) SV) as [C5 V] end.
      match goal with H : says_inline _ _ _ _ _ |- _ =>
        destruct (inline_type _ _ _ _ _ H) as [k [Ft Ik]]; rename H into SI end.
      rewrite (map_truthy _ _ _ Fn) by (intros Q; rewrite Q in Tn; discriminate Tn).
      cbn [negb]. get_fields. rewrite Tn. cbn [negb andb y_is_none Y].
      replace (negb cs && y_truthy c) with false
        by (destruct Cc as [-> | Cc]; [reflexivity|unfold falsy in Cc; change truth with y_truthy in Cc; rewrite Cc, andb_false_r; reflexivity]).
      rewrite C5, V. cbn [rbind]. fold (Y (kind_name k)). rewrite callback_of_name. cbn [rbind].
      match goal with H : says_inline _ _ _ _ ?x |- _ =>
        rewrite (proj2 (in_member_iff _ dname _ x)) by (apply (inline_iff _ _ _ _ _ _ _ _ Ho Fn Ft Ik), SI) end.
      cbn [rbind]. rewrite (values_some _ _ SV).
      destruct (y_truthy c) eqn:Tc; [reflexivity|]. destruct vs; [reflexivity|].
      exfalso. match goal with H : ~ (falsy _ /\ _) |- _ => apply H end. auto.
    + match goal with H : says_container _ _ _ _ _ |- _ => rename H into SCo end.
      pose proof SCo as (Ft & K & M & _).
      pose proof M as (Fn & _). set (name := rm_name m) in *.
      assert (Fc : field v "condition" YNull) by (apply (absent _ _ _ K); not_in).
      assert (Fv : field v "value" YNull) by (apply (absent _ _ _ K); not_in).
      assert (Fs : field v "values" YNull) by (apply (absent _ _ _ K); not_in).
      assert (Fd : field v "data_type" YNull) by (apply (absent _ _ _ K); not_in).
      rewrite (map_truthy _ _ _ Ft) by discriminate. cbn [negb]. get_fields.
      replace (y_eqb (Y "union") (Y "union")) with true by reflexivity. cbn [negb]. rewrite !andb_false_r.
      cbn [y_is_none negb andb Y y_truthy rbind]. fold (Y "union").
      change (Y "union") with (Y (kind_name KUnion)). rewrite callback_of_name. cbn [rbind].
      rewrite (proj2 (in_member_iff _ dname _ (RUnion m bo ss ms))); [reflexivity|].
      cbn [callback].
      assert (W : read_with_members (fun x => read_member env r fuel x name false) v name = ROk (m, bo, ss, ms)).
      { apply (container_iff env (registered r) false) with (type := "union"%string);
          [intros y e Hy; apply IH; lia|exact Fn|exact Ft|keys|]. eauto. }
      rewrite W. reflexivity.
Qed.

(** * Enumerations *)

Lemma unique_front : forall vs x r, unique_aliases (vs ++ x :: r) -> forall l,
  y_iter (rv_aliases x) = Ok l -> Forall (fun a => y_in a (enum_aliases vs) = false) l.
Proof.
  intros vs x r U l E. apply Forall_forall. intros a Ia. apply in_false. intros b Ib.
  apply enum_aliases_in in Ib. destruct Ib as [y [l' [Iy [Ey Jb]]]].
  apply In_nth_error in Iy. destruct Iy as [i Hi].
  assert (i < List.length vs)%nat by (apply nth_error_Some; congruence).
  eapply (U i (List.length vs) y x); try eassumption.
  - rewrite nth_error_app1 by assumption. exact Hi.
  - rewrite nth_error_app2 by lia. rewrite Nat.sub_diag. reflexivity.
Qed.

Lemma unique_prefix : forall a b, unique_aliases (a ++ b) -> unique_aliases a.
Proof.
  intros vs r U i j x y l l' a b L Hi Hj.
  assert (i < List.length vs)%nat by (apply nth_error_Some; congruence).
  assert (j < List.length vs)%nat by (apply nth_error_Some; congruence).
  apply (U i j x y l l' a b L); rewrite nth_error_app1 by assumption; assumption.
Qed.

Lemma app_cons : forall A (l : list A) a r, l ++ a :: r = (l ++ [a]) ++ r.
Proof. intros. rewrite <- app_assoc. reflexivity. Qed.

Lemma enum_values_iff : forall dname l last vs0 vs,
  distinct (map rv_name vs0) -> distinct (map rv_number vs0) -> unique_aliases vs0 ->
  (read_enum_values dname last vs0 l = ROk vs <->
   exists new, vs = vs0 ++ new /\ Forall2 says_enum_value l new
     /\ distinct (map rv_name (vs0 ++ new)) /\ distinct (map rv_number (vs0 ++ new))
     /\ unique_aliases (vs0 ++ new)).
Proof.
  intros dname l. induction l as [|v l IH]; intros last vs0 vs D1 D2 U; cbn [read_enum_values].
  - split.
    + intros H. injection H as <-. exists []. rewrite app_nil_r. auto.
    + intros (new & -> & F & _). inversion F; subst. rewrite app_nil_r. reflexivity.
  - split.
    + intros H. apply rbind_ok in H. destruct H as [al [Fa H]]. apply lift_ok, field_get in Fa.
      apply rbind_ok in H. destruct H as [de [Fd H]]. apply lift_ok, field_get in Fd.
      apply rbind_ok in H. destruct H as [name [Fn H]]. apply lift_ok, field_get in Fn.
      apply rbind_ok in H. destruct H as [number [Fm H]]. apply lift_ok, field_get in Fm.
      destruct (negb (y_truthy name) || y_is_none number) eqn:C; [exfalso; exact (raise_def_ok _ _ _ _ H)|].
      apply orb_false_iff in C. destruct C as [C1 C2]. apply negb_false_iff, truthy_iff in C1.
      apply none_bool in C2.
      apply rbind_ok in H. destruct H as [vs1 [A H]].
      unfold add_value in A. cbn [rv_name rv_number rv_aliases] in A. inv_rd.
      match goal with H : check_enum_aliases _ _ _ = ROk ?u |- _ =>
        destruct u; apply check_enum_iff in H; destruct H as [G1 G2] end.
      set (v1 := mkREnum name number (or_empty al) de) in *.
      assert (U1 : unique_aliases (vs0 ++ [v1])) by (eapply unique_snoc; eassumption).
      apply IH in H.
      * destruct H as (new & -> & F & H1 & H2 & H3). exists (v1 :: new).
        rewrite !(app_cons _ vs0 v1 new). split; [reflexivity|]. split; [|auto].
        constructor; [|exact F]. unfold says_enum_value, v1. cbn.
        repeat (split; [assumption|]). split.
        -- exists al. split; [exact Fa|]. apply or_empty_iff. reflexivity.
        -- eauto.
      * rewrite map_app. apply distinct_snoc; assumption.
      * rewrite map_app. apply distinct_snoc; assumption.
      * exact U1.
    + intros (new & -> & F & H1 & H2 & H3). inversion F as [|? v1 ? new' Sv F']; subst.
      destruct Sv as (Fn & Tn & Hn & Fm & Nm & Hm & Fd & [al [Fa Ga]] & [la [Ia Ha]]).
      get_fields. apply truthy_iff in Tn. rewrite Tn. cbn [negb orb].
      apply none_bool in Nm. rewrite Nm.
      apply or_empty_iff in Ga. rewrite <- Ga.
      assert (A : add_value dname vs0 (mkREnum (rv_name v1) (rv_number v1) (rv_aliases v1) (rv_desc v1))
                  = ROk (vs0 ++ [v1])).
      { unfold add_value. cbn [rv_name rv_number rv_aliases]. unfold hashed at 1. rewrite hashable_same in Hn, Hm. rewrite Hn. cbn [rbind].
        rewrite map_app in H1, H2. cbn [map] in H1, H2.
        rewrite (distinct_front _ _ _ H1). unfold hashed at 1. rewrite Hm. cbn [rbind].
        rewrite (distinct_front _ _ _ H2). rewrite Ia. cbn [lift rbind].
        rewrite (proj2 (check_enum_iff dname (enum_aliases vs0) la))
          by (split; [exact Ha|exact (unique_front _ _ _ H3 _ Ia)]).
        cbn [rbind]. destruct v1. reflexivity. }
      rewrite A. cbn [rbind]. rewrite !(app_cons _ vs0 v1 new') in *.
      apply IH.
      * rewrite map_app in H1. apply distinct_prefix in H1. exact H1.
      * rewrite map_app in H2. apply distinct_prefix in H2. exact H2.
      * apply unique_prefix in H3. exact H3.
      * exists new'. auto.
Qed.

(** * Formats, families and groups *)

Lemma layout_iff : forall dname l out, read_layout dname l = ROk out <-> Forall2 says_layout l out.
Proof.
  intros dname. induction l as [|v l IH]; intros out; cbn [read_layout].
  - split; [intros H; injection H as <-; constructor|intros H; inversion H; reflexivity].
  - split.
    + intros H. apply rbind_ok in H. destruct H as [dt [Fd H]]. apply lift_ok, field_get in Fd.
      apply rbind_ok in H. destruct H as [o [Fo H]]. apply lift_ok, field_get in Fo.
      destruct (y_truthy dt) eqn:T; cbn [negb] in H; [|discriminate H].
      apply rbind_ok in H. destruct H as [[] [K H]]. apply check_keys_ok in K.
      apply rbind_ok in H. destruct H as [rest [R H]]. injection H as <-.
      constructor; [|apply IH, R]. unfold says_layout. cbn. apply truthy_iff in T. auto.
    + intros F. inversion F as [|? [dt o] ? rest (Fd & T & Fo & K) F']; subst. cbn [fst snd] in *.
      get_fields. apply truthy_iff in T. rewrite T. cbn [negb].
      apply (check_keys_iff dname) in K. change keys_layout_element with ["data_type"; "offset"]%string.
      rewrite K. cbn [rbind]. apply IH in F'. rewrite F'. reflexivity.
Qed.

Lemma family_members_iff : forall env r dname l ms0 ms, holds env r -> distinct (map rd_name ms0) ->
  (read_family_members env r dname ms0 l = ROk ms <->
   exists new, ms = ms0 ++ new /\ Forall2 (stands_for env (registered r)) l new
   /\ Forall (fun d => hashable (rd_name d) = true) new /\ distinct (map rd_name (ms0 ++ new))).
Proof.
  intros env r dname l ms0 ms Ho. revert ms0.
  induction l as [|x l IH]; intros ms0 D; cbn [read_family_members].
  - split.
    + intros H. injection H as <-. exists []. rewrite app_nil_r. auto.
    + intros (new & -> & F & _). inversion F; subst. rewrite app_nil_r. reflexivity.
  - split.
    + intros H. apply rbind_ok in H. destruct H as [[d|] [L H]]; [|exfalso; exact (raise_def_ok _ _ _ _ H)].
      apply rbind_ok in H. destruct H as [ms1 [A H]]. apply add_member_iff in A.
      destruct A as [-> [Hh Hi]]. apply IH in H; [|rewrite map_app; apply distinct_snoc; assumption].
      destruct H as (new & -> & F & G & Hd). exists (d :: new). rewrite !(app_cons _ ms0 d new).
      split; [reflexivity|]. split; [constructor; [apply (lookup_iff _ _ _ _ Ho), L|exact F]|].
      split; [constructor; assumption|exact Hd].
    + intros (new & -> & F & G & Hd). inversion F as [|? d ? new' L F']; subst. inversion G; subst.
      apply (lookup_iff _ _ _ _ Ho) in L. rewrite L. cbn [rbind].
      rewrite (proj2 (add_member_iff dname ms0 d (ms0 ++ [d]))).
      2:{ split; [reflexivity|]. split; [assumption|]. rewrite map_app in Hd.
          exact (distinct_front _ _ _ Hd). }
      cbn [rbind]. rewrite (app_cons _ ms0 d new') in *. apply IH.
      * rewrite map_app in Hd. exact (distinct_prefix _ _ Hd).
      * exists new'. auto.
Qed.

Lemma group_members_iff : forall env r dname i l ms0 ms, holds env r -> distinct (map rd_name ms0) ->
  (read_group_members env r dname i ms0 l = ROk ms <->
   exists new, ms = ms0 ++ new /\ Forall2 (stands_for env (registered r)) l new
   /\ Forall (fun d => hashable (rd_name d) = true) new /\ distinct (map rd_name (ms0 ++ new))
   /\ Forall (fun d => exists inner y, rd_members d = Some inner /\ In y inner /\
        y_eqb i (rd_name y) = true) new).
Proof.
  intros env r dname i l ms0 ms Ho. revert ms0.
  induction l as [|x l IH]; intros ms0 D; cbn [read_group_members].
  - split.
    + intros H. injection H as <-. exists []. rewrite app_nil_r. auto.
    + intros (new & -> & F & _). inversion F; subst. rewrite app_nil_r. reflexivity.
  - split.
    + intros H. apply rbind_ok in H. destruct H as [[d|] [L H]]; [|exfalso; exact (raise_def_ok _ _ _ _ H)].
      destruct (rd_members d) as [inner|] eqn:Em; [|discriminate H].
      destruct (y_in i (map rd_name inner)) eqn:Ei; cbn [negb] in H; [|exfalso; exact (raise_def_ok _ _ _ _ H)].
      apply rbind_ok in H. destruct H as [ms1 [A H]]. apply add_member_iff in A.
      destruct A as [-> [Hh Hi]]. apply IH in H; [|rewrite map_app; apply distinct_snoc; assumption].
      destruct H as (new & -> & F & G & Hd & P). exists (d :: new). rewrite !(app_cons _ ms0 d new).
      split; [reflexivity|]. split; [constructor; [apply (lookup_iff _ _ _ _ Ho), L|exact F]|].
      split; [constructor; assumption|]. split; [exact Hd|]. constructor; [|exact P].
      apply existsb_exists in Ei. destruct Ei as [n [In' Q]]. apply in_map_iff in In'.
      destruct In' as [y [<- Iy]]. eauto.
    + intros (new & -> & F & G & Hd & P). inversion F as [|? d ? new' L F']; subst. inversion G; subst.
      inversion P as [|? ? [inner [y [Em [Iy Q]]]] P']; subst.
      apply (lookup_iff _ _ _ _ Ho) in L. rewrite L. cbn [rbind]. rewrite Em.
      replace (y_in i (map rd_name inner)) with true.
      2:{ symmetry. apply existsb_exists. exists (rd_name y). split; [apply in_map, Iy|exact Q]. }
      cbn [negb].
      rewrite (proj2 (add_member_iff dname ms0 d (ms0 ++ [d]))).
      2:{ split; [reflexivity|]. split; [assumption|]. rewrite map_app in Hd.
          exact (distinct_front _ _ _ Hd). }
      cbn [rbind]. rewrite (app_cons _ ms0 d new') in *. apply IH.
      * rewrite map_app in Hd. exact (distinct_prefix _ _ Hd).
      * exists new'. auto.
Qed.

(** * Documents *)

Ltac step H x F :=
  apply rbind_ok in H; destruct H as [x [F H]]; apply lift_ok, field_get in F.
Ltac test H T :=
  match type of H with
  | (if negb (y_truthy ?x) then _ else _) = _ =>
      destruct (y_truthy x) eqn:T; cbn [negb] in H; [apply truthy_iff in T|discriminate H]
  end.

Lemma says_type : forall env prior v d, says env prior v d ->
  exists k, field v "type" (Y (kind_name k)).
Proof.
  intros env prior v d S. destruct S; try match goal with
    | H : says_inline _ _ _ _ _ |- _ => destruct (inline_type _ _ _ _ _ H) as [k [F _]]; exists k; exact F
    | H : says_container _ _ _ _ _ |- _ => destruct H as [F _] end.
  - exists KStructure; exact F.
  - exists KUnion; exact F.
  - exists KConstant; assumption.
  - exists KEnumeration; assumption.
  - exists KFormat; assumption.
  - exists KFamily; assumption.
  - exists KGroup; assumption.
Qed.

Lemma callback_iff : forall env r v k name d,
  holds env r -> field v "name" name -> field v "type" (Y (kind_name k)) ->
  (callback env r (read_member env r (S (y_height v))) k v name false = ROk d
   <-> says env (registered r) v d).
Proof.
  intros env r v k name d Ho Fn Ft.
  assert (RM : forall cs x e, (y_height x < y_height v)%nat ->
    (read_member env r (S (y_height v)) x name cs = ROk e <-> says_member env (registered r) cs x e)).
  { intros cs x e Hx. apply member_iff; [exact Ho|lia]. }
  split.
  - intros H. destruct (inline_kind k) eqn:Ik.
    + apply SaysInline. apply (inline_iff _ _ _ _ _ _ _ _ Ho Fn Ft Ik) in H. exact H.
    + destruct k as [ | | | | | | | |s| | | | | ]; try discriminate Ik; cbn [callback] in H.
      * unfold read_constant in H. step H x Fx.
        destruct (y_is_none x) eqn:N; [discriminate H|]. apply none_bool in N.
        apply rbind_ok in H. destruct H as [m [M H]]. injection H as <-.
        apply (data_type_iff _ _ _ _ Fn) in M. destruct M as [K M].
        apply SaysConstant; try assumption. revert K. apply only_keys_incl, incl_list. reflexivity.
      * unfold read_enumeration in H. step H x Fx. test H T.
        apply rbind_ok in H. destruct H as [m [M H]].
        apply (data_type_iff _ _ _ _ Fn) in M. destruct M as [K M].
        inv_rd. apply enum_values_iff in E0; [|apply distinct_nil|apply distinct_nil|apply unique_nil].
        destruct E0 as (new & -> & F & D1 & D2 & U). cbn [app] in *.
        eapply SaysEnumeration; try eassumption. revert K. apply only_keys_incl, incl_list. reflexivity.
      * unfold read_format in H. apply rbind_ok in H. destruct H as [m [M H]].
        apply (data_type_iff _ _ _ _ Fn) in M. destruct M as [K M].
        apply rbind_ok in H; destruct H as [x [Fx H]]; apply lift_ok, field_or_get in Fx.
        apply rbind_ok in H. destruct H as [l [I H]]. apply lift_ok in I.
        apply rbind_ok in H. destruct H as [lay [Ly H]]. apply layout_iff in Ly.
        apply rbind_ok in H; destruct H as [md [Fm H]]; apply lift_ok, field_or_get in Fm.
        step H a Fa.
        assert (KK : only_keys (definition_keys "format") v)
          by (revert K; apply only_keys_incl, incl_list; reflexivity).
        destruct (y_truthy a) eqn:T.
        -- apply rbind_ok in H. destruct H as [bo [B H]]. injection H as <-.
           eapply SaysFormat; try eassumption. right. exists bo.
           split; [apply truthy_iff, T|]. split; [reflexivity|].
           apply (order_says _ _ _ name _ Fa). rewrite T. exact B.
        -- injection H as <-. eapply SaysFormat; try eassumption. left. auto.
      * apply rbind_ok in H. destruct H as [[[[m bo] ss] ms] [W H]]. injection H as <-.
        apply (container_iff env (registered r) true) with (type := "structure"%string) in W;
          [|intros; apply RM; assumption|exact Fn|exact Ft|keys].
        destruct W as (l & names & SCo & SM & U). eapply SaysStructure; eassumption.
      * unfold read_family in H.
        apply rbind_ok in H. destruct H as [[] [K H]]. apply check_keys_ok in K.
        step H n Fb. test H T.
        apply rbind_ok in H. destruct H as [[b|] [L H]]; [|exfalso; exact (raise_def_ok _ _ _ _ H)].
        apply rbind_ok in H. destruct H as [m [M H]]. apply (meta_iff _ _ _ Fn) in M.
        step H x Fx. test H Tx.
        apply rbind_ok in H. destruct H as [l [I H]]. apply lift_ok in I.
        apply rbind_ok in H. destruct H as [ms [R H]]. injection H as <-.
        apply (family_members_iff env r name l [] ms Ho distinct_nil) in R.
        destruct R as (new & -> & F & G & Hd). cbn [app] in *.
        eapply SaysFamily; try eassumption.
        -- revert K. apply only_keys_incl, incl_list. reflexivity.
        -- apply (lookup_iff _ _ _ _ Ho), L.
        -- split; assumption.
      * unfold read_group in H.
        apply rbind_ok in H. destruct H as [[] [K H]]. apply check_keys_ok in K.
        step H n Fb. test H T.
        apply rbind_ok in H. destruct H as [[b|] [L H]]; [|exfalso; exact (raise_def_ok _ _ _ _ H)].
        step H i Fi. test H Ti. step H dn Fd.
        apply rbind_ok in H. destruct H as [df [Df H]].
        apply rbind_ok in H. destruct H as [m [M H]]. apply (meta_iff _ _ _ Fn) in M.
        step H x Fx. test H Tx.
        apply rbind_ok in H. destruct H as [l [I H]]. apply lift_ok in I.
        apply rbind_ok in H. destruct H as [ms [R H]]. injection H as <-.
        apply (group_members_iff env r name i l [] ms Ho distinct_nil) in R.
        destruct R as (new & -> & F & G & Hd & P). cbn [app] in *.
        eapply SaysGroup; try eassumption.
        -- revert K. apply only_keys_incl, incl_list. reflexivity.
        -- apply (lookup_iff _ _ _ _ Ho), L.
        -- destruct (y_truthy dn) eqn:Td; cbn [negb] in Df.
           ++ right. apply rbind_ok in Df. destruct Df as [[e|] [Le Df]]; [|exfalso; exact (raise_def_ok _ _ _ _ Df)].
              injection Df as <-. exists e. split; [apply truthy_iff, Td|]. split; [reflexivity|].
              apply (lookup_iff _ _ _ _ Ho), Le.
           ++ left. injection Df as <-. auto.
        -- split; assumption.
      * apply rbind_ok in H. destruct H as [[[[m bo] ss] ms] [W H]]. injection H as <-.
        apply (container_iff env (registered r) false) with (type := "union"%string) in W;
          [|intros; apply RM; assumption|exact Fn|exact Ft|keys].
        destruct W as (l & names & SCo & SM & U). eapply SaysUnion; eassumption.
  - intros S. destruct S.
    + destruct (inline_type _ _ _ _ _ H) as [k' [Ft' Ik]].
      pose proof (kind_name_inj _ _ (Y_inj _ _ (field_fun _ _ _ _ Ft Ft'))) as <-.
      apply (inline_iff _ _ _ _ _ _ _ _ Ho Fn Ft Ik). exact H.
    + pose proof H as [Ft' _]. same_type. cbn [callback].
      assert (W : read_with_members (fun x => read_member env r (S (y_height v)) x name true) v name = ROk (m, bo, ss, ms)).
      { apply (container_iff env (registered r) true) with (type := "structure"%string);
          [intros; apply RM; assumption|exact Fn|exact Ft'|keys|]. eauto. }
      rewrite W. reflexivity.
    + pose proof H as [Ft' _]. same_type. cbn [callback].
      assert (W : read_with_members (fun x => read_member env r (S (y_height v)) x name false) v name = ROk (m, bo, ss, ms)).
      { apply (container_iff env (registered r) false) with (type := "union"%string);
          [intros; apply RM; assumption|exact Fn|exact Ft'|keys|]. eauto. }
      rewrite W. reflexivity.
    + same_type. cbn [callback]. unfold read_constant. get_fields.
      match goal with H : x <> YNull |- _ => apply none_bool in H; rewrite H end.
      rewrite (proj2 (data_type_iff _ _ _ m Fn)); [reflexivity|]. split; [|assumption].
      eapply only_keys_incl; [|eassumption]. apply incl_list. reflexivity.
    + same_type. cbn [callback]. unfold read_enumeration. get_fields.
      match goal with H : ~ falsy x |- _ => apply truthy_iff in H; rewrite H end. cbn [negb].
      rewrite (proj2 (data_type_iff _ _ _ m Fn)).
      2:{ split; [|assumption]. eapply only_keys_incl; [|eassumption]. apply incl_list. reflexivity. }
      cbn [rbind]. match goal with H : y_iter x = Ok _ |- _ => rewrite H end. cbn [lift rbind].
      rewrite (proj2 (enum_values_iff name l YNull [] vs distinct_nil distinct_nil unique_nil)); [reflexivity|].
      exists vs. auto.
    + same_type. cbn [callback]. unfold read_format.
      rewrite (proj2 (data_type_iff _ _ _ m Fn)).
      2:{ split; [|assumption]. eapply only_keys_incl; [|eassumption]. apply incl_list. reflexivity. }
      cbn [rbind].
      match goal with H : field_or _ v "layout" _ |- _ => apply field_or_get in H; rewrite H end.
      cbn [lift rbind]. match goal with H : y_iter x = Ok _ |- _ => rewrite H end. cbn [lift rbind].
      match goal with H : Forall2 says_layout _ _ |- _ => apply (layout_iff name) in H; rewrite H end.
      cbn [rbind].
      match goal with H : field_or _ v "metadata" _ |- _ => apply field_or_get in H; rewrite H end.
      cbn [lift rbind]. get_fields.
      match goal with H : (falsy a /\ _) \/ _ |- _ => destruct H as [[T ->]|[b [T [-> B]]]] end.
      * rewrite (falsy_same _ T). reflexivity.
      * match goal with H : field v "attributes" a |- _ => apply (order_says _ _ _ name _ H) in B end.
        apply truthy_iff in T. rewrite T in B |- *.
        change ["byte_order"%string] with attrs_format in B. rewrite B. reflexivity.
    + same_type. cbn [callback]. unfold read_family.
      rewrite (proj2 (check_keys_iff name v keys_family)).
      2:{ eapply only_keys_incl; [|eassumption]. apply incl_list. reflexivity. }
      cbn [rbind]. get_fields.
      match goal with H : ~ falsy n |- _ => apply truthy_iff in H; rewrite H end. cbn [negb].
      match goal with H : stands_for _ _ _ _ |- _ => apply (lookup_iff _ _ _ _ Ho) in H; rewrite H end.
      cbn [rbind]. rewrite (proj2 (meta_iff _ _ m Fn)) by assumption. cbn [rbind]. get_fields.
      match goal with H : ~ falsy x |- _ => apply truthy_iff in H; rewrite H end. cbn [negb].
      match goal with H : y_iter x = Ok _ |- _ => rewrite H end. cbn [lift rbind].
      rewrite (proj2 (family_members_iff env r name l [] ms Ho distinct_nil)); [reflexivity|].
      match goal with H : unique_names ms |- _ => destruct H end. exists ms. auto.
    + same_type. cbn [callback]. unfold read_group.
      rewrite (proj2 (check_keys_iff name v keys_group)).
      2:{ eapply only_keys_incl; [|eassumption]. apply incl_list. reflexivity. }
      cbn [rbind]. get_fields.
      match goal with H : ~ falsy n |- _ => apply truthy_iff in H; rewrite H end. cbn [negb].
      match goal with H : stands_for _ _ n _ |- _ => apply (lookup_iff _ _ _ _ Ho) in H; rewrite H end.
      cbn [rbind]. get_fields.
      match goal with H : ~ falsy identifier |- _ => apply truthy_iff in H; rewrite H end. cbn [negb].
      get_fields.
      assert (Df : (if negb (y_truthy dn) then ROk None
         else do* found := rlookup env r dn in
              match found with
              | None => raise_def name [dn]
              | Some d => ROk (Some d)
              end) = ROk default).
      { match goal with H : (falsy dn /\ _) \/ _ |- _ => destruct H as [[T ->]|[e [T [-> L]]]] end.
        - rewrite (falsy_same _ T). reflexivity.
        - apply truthy_iff in T. rewrite T. cbn [negb]. apply (lookup_iff _ _ _ _ Ho) in L. rewrite L. reflexivity. }
      rewrite Df. cbn [rbind].
      rewrite (proj2 (meta_iff _ _ m Fn)) by assumption. cbn [rbind]. get_fields.
      match goal with H : ~ falsy x |- _ => apply truthy_iff in H; rewrite H end. cbn [negb].
      match goal with H : y_iter x = Ok _ |- _ => rewrite H end. cbn [lift rbind].
      rewrite (proj2 (group_members_iff env r name identifier l [] ms Ho distinct_nil)); [reflexivity|].
      match goal with H : unique_names ms |- _ => destruct H end. exists ms. auto.
Qed.

Lemma definition_iff : forall env r v d, holds env r ->
  (read_definition env r v = ROk d <-> says env (registered r) v d /\ ~ falsy (rd_name d)).
Proof.
  intros env r v d Ho. unfold read_definition. split.
  - intros H. test H T. step H name Fn. test H Tn. step H ti Ft. test H Tt.
    apply rbind_ok in H. destruct H as [[k|] [Fk H]]; [|exfalso; exact (raise_def_ok _ _ _ _ H)].
    apply find_callback_ok in Fk. subst ti.
    pose proof (callback_name _ _ _ _ _ _ _ _ H) as N.
    apply (callback_iff _ _ _ _ _ _ Ho Fn Ft) in H. split; [exact H|]. rewrite N. exact Tn.
  - intros [S Tn]. destruct (says_type _ _ _ _ S) as [k Ft].
    rewrite (map_truthy _ _ _ Ft) by discriminate. cbn [negb].
    assert (exists name, field v "name" name) as [name Fn].
    { destruct Ft as [[l [-> _]]|[_ [_ C]]]; [|discriminate C].
      destruct (y_get "name" (YMap l)) as [x|e|] eqn:E; [|discriminate E|discriminate E].
      exists x. apply field_get, E. }
    pose proof (proj2 (callback_iff _ _ _ _ _ _ Ho Fn Ft) S) as H.
    pose proof (callback_name _ _ _ _ _ _ _ _ H) as N. rewrite N in Tn. apply truthy_iff in Tn.
    get_fields. rewrite Tn. cbn [negb].
    replace (y_truthy (Y (kind_name k))) with true
      by (destruct k as [ | | | | | | | |[]| | | | | ]; reflexivity).
    cbn [negb]. rewrite callback_of_name. cbn [rbind]. exact H.
Qed.

Lemma docs_say : forall env docs r last r', holds env r ->
  read_docs env r last docs YEnd = (Ok tt, r') ->
  exists ds, registered r' = registered r ++ ds /\ says_file env (registered r) docs ds.
Proof.
  intros env docs. induction docs as [|v docs IH]; intros r last r' Ho H; cbn [read_docs] in H.
  - injection H as <-. exists []. rewrite app_nil_r. split; [reflexivity|constructor].
  - destruct (read_definition env r v) as [d|[n|x]|] eqn:R; try discriminate H.
    destruct (rregister env r d) as [r1|x|] eqn:G; try discriminate H.
    pose proof (holds_register _ _ _ _ Ho G) as Ho1.
    pose proof (registered_snoc _ _ _ _ G) as RS.
    apply (definition_iff _ _ _ _ Ho) in R. destruct R as [S T].
    apply (IH _ _ _ Ho1) in H. destruct H as [ds [E F]]. rewrite RS in E, F.
    exists (d :: ds). rewrite <- app_assoc in E. split; [exact E|].
    constructor; try assumption. apply (register_iff _ _ _ Ho). eauto.
Qed.

Lemma says_docs : forall env docs r last ds, holds env r -> says_file env (registered r) docs ds ->
  exists r', read_docs env r last docs YEnd = (Ok tt, r') /\ registered r' = registered r ++ ds.
Proof.
  intros env docs. induction docs as [|v docs IH]; intros r last ds Ho S; cbn [read_docs].
  - inversion S; subst. exists r. rewrite app_nil_r. auto.
  - inversion S; subst.
    match goal with H : fresh _ _ _ |- _ => rename H into Fr end.
    apply (register_iff _ _ _ Ho) in Fr. destruct Fr as [r1 G].
    rewrite (proj2 (definition_iff _ _ v d Ho)) by auto.
    rewrite G. pose proof (holds_register _ _ _ _ Ho G) as Ho1.
    pose proof (registered_snoc _ _ _ _ G) as RS.
    match goal with H : says_file _ _ docs _ |- _ => rename H into SF end.
    rewrite <- RS in SF. apply (IH _ (Some d) _ Ho1) in SF. destruct SF as [r' [H E]].
    exists r'. split; [exact H|]. rewrite E, RS, <- app_assoc. reflexivity.
Qed.

(** A file is read without error into these definitions exactly if it says
    them. *)
Theorem file_says : forall env docs ds,
  (exists r, read_file env rreg_empty (Some (docs, YEnd)) = (Ok tt, r) /\ registered r = ds) <->
  says_file env [] docs ds.
Proof.
  intros env docs ds. cbn [read_file]. split.
  - intros [r [H E]]. destruct (docs_say _ _ _ _ _ (holds_empty env) H) as [ds' [E' S]].
    cbn in E', S. rewrite E in E'. subst ds'. exact S.
  - intros S. exact (says_docs _ _ _ None _ (holds_empty env) S).
Qed.

(** The definitions a file describes are unique. *)
Theorem says_unique : forall env docs ds ds',
  says_file env [] docs ds -> says_file env [] docs ds' -> ds = ds'.
Proof.
  intros env docs ds ds' S S'. apply file_says in S, S'.
  destruct S as [r [H <-]], S' as [r' [H' <-]]. congruence.
Qed.
