(** Proofs about registries, enumerations, member containers and classes. *)
From Coq Require Import String Ascii List ZArith NArith Bool Lia.
From Verif Require Import Base PyVal DataTypes Registry ClassFactory.
From Verif Require Import SpecContainers.
Import ListNotations.
Open Scope Z_scope.

(** ** Dicts *)

Lemma dict_get_app {A} k (d1 d2 : dict A) :
  dict_get k (d1 ++ d2) = match dict_get k d1 with Some v => Some v | None => dict_get k d2 end.
Proof.
  induction d1 as [|[k' v'] d1 IH]; cbn; auto. destruct (String.eqb k k'); auto.
Qed.

Lemma dict_get_none {A} k (d : dict A) : dict_get k d = None <-> ~ In k (map fst d).
Proof.
  induction d as [|[k' v'] d IH]; cbn; [intuition|].
  destruct (String.eqb_spec k k'); subst; split; intros H; try congruence; intuition.
Qed.

Lemma dict_get_in {A} k v (d : dict A) : dict_get k d = Some v -> In (k, v) d.
Proof.
  induction d as [|[k' v'] d IH]; cbn; [discriminate|].
  destruct (String.eqb_spec k k'); intros H.
  - inversion H; subst; auto.
  - auto.
Qed.

Lemma dict_get_nodup {A} k v (d : dict A) :
  NoDup (map fst d) -> In (k, v) d -> dict_get k d = Some v.
Proof.
  induction d as [|[k' v'] d IH]; cbn; [tauto|].
  intros Hn [H|H].
  - inversion H; subst. now rewrite String.eqb_refl.
  - inversion Hn; subst. destruct (String.eqb_spec k k'); [|auto].
    subst. exfalso. apply H2. now apply (in_map fst) in H.
Qed.

Lemma dict_set_new {A} k (v : A) d : dict_get k d = None -> dict_set k v d = d ++ [(k, v)].
Proof.
  induction d as [|[k' v'] d IH]; cbn; auto.
  destruct (String.eqb k k'); [discriminate|]. intros. now rewrite IH.
Qed.

Lemma dict_get_set {A} k k' (v : A) d :
  dict_get k (dict_set k' v d) = if String.eqb k k' then Some v else dict_get k d.
Proof.
  induction d as [|[k2 v2] d IH]; cbn.
  - reflexivity.
  - destruct (String.eqb_spec k' k2); cbn.
    + subst. destruct (String.eqb k k2); auto.
    + rewrite IH. destruct (String.eqb_spec k k2), (String.eqb_spec k k'); subst; congruence.
Qed.

Lemma dict_mem_spec {A} k (d : dict A) : dict_mem k d = true <-> In k (map fst d).
Proof.
  unfold dict_mem. destruct (dict_get k d) eqn:E.
  - apply dict_get_in in E. apply (in_map fst) in E. cbn in E. tauto.
  - apply dict_get_none in E. split; [discriminate|tauto].
Qed.

Lemma dict_mem_false {A} k (d : dict A) : dict_mem k d = false <-> dict_get k d = None.
Proof. unfold dict_mem. destruct (dict_get k d); split; congruence. Qed.

(** ** Registry *)

Lemma lower_letter_ascii c : ascii_lower c = lower_letter c.
Proof. destruct c as [[] [] [] [] [] [] [] []]; reflexivity. Qed.

Lemma str_lower_case s : str_lower s = lower_case s.
Proof.
  unfold lower_case. induction s as [|c s IH]; cbn [str_lower list_ascii_of_string map string_of_list_ascii]; auto.
  now rewrite IH, lower_letter_ascii.
Qed.

Definition reg_inv (r : registry) (l : list dtype) (t : list (string * string)) : Prop :=
  r_definitions r = map (fun d => (lower_name d, d)) l /\
  NoDup (map lower_name l) /\
  (forall a, dict_get a (r_aliases r) = dict_get a t) /\
  (forall a n n', In (a, n) t -> In (a, n') t -> n = n').

Lemma map_fst_pair {A B} (f : A -> B) (l : list A) : map fst (map (fun d => (f d, d)) l) = map f l.
Proof. rewrite map_map. apply map_ext. auto. Qed.

Lemma map_snd_pair {A B} (f : A -> B) (l : list A) : map snd (map (fun d => (f d, d)) l) = l.
Proof. rewrite map_map. cbn. apply map_id. Qed.

Lemma dict_del_filter l n :
  NoDup (map lower_name l) ->
  dict_del n (map (fun d => (lower_name d, d)) l)
  = map (fun d => (lower_name d, d)) (filter (fun d' => negb (String.eqb (lower_name d') n)) l).
Proof.
  induction l as [|d l IH]; cbn; auto. intros Hn. inversion Hn; subst.
  rewrite String.eqb_sym. destruct (String.eqb_spec (lower_name d) n).
  - subst. cbn. f_equal. symmetry. clear IH Hn H2.
    induction l as [|e l IH]; cbn; auto. destruct (String.eqb_spec (lower_name e) (lower_name d)).
    + exfalso. apply H1. cbn. auto.
    + cbn. f_equal. apply IH. intros H. apply H1. cbn. auto.
  - cbn. now rewrite IH.
Qed.

Lemma NoDup_filter_map {A B} (f : A -> B) p l : NoDup (map f l) -> NoDup (map f (filter p l)).
Proof.
  induction l as [|a l IH]; cbn; auto. intros H; inversion H; subst.
  destruct (p a); cbn; auto. constructor; auto.
  intros Hi. apply H2. apply in_map_iff in Hi as (x & <- & Hx). apply filter_In in Hx.
  apply in_map. tauto.
Qed.

Lemma NoDup_snoc {A} (l : list A) x : NoDup l -> ~ In x l -> NoDup (l ++ [x]).
Proof.
  induction l as [|a l IH]; cbn; intros Hn Hx.
  - constructor; [tauto|constructor].
  - inversion Hn; subst. constructor.
    + rewrite in_app_iff. cbn. intros [H|[H|[]]]; subst; intuition.
    + apply IH; intuition.
Qed.

Lemma dict_get_const {A} a (n : A) (l : list string) :
  dict_get a (map (fun x => (x, n)) l) = if str_in a l then Some n else None.
Proof.
  induction l as [|b l IH]; cbn; auto. destruct (String.eqb a b); cbn; auto.
Qed.

Lemma str_in_cons a b l : str_in a (b :: l) = String.eqb a b || str_in a l.
Proof. reflexivity. Qed.

Lemma dict_get_fold_aliases {A} a (n : A) (l : list string) d :
  dict_get a (fold_left (fun al x => dict_set x n al) l d)
  = if str_in a l then Some n else dict_get a d.
Proof.
  revert d; induction l as [|b l IH]; intros d; cbn [fold_left]; auto.
  rewrite IH. rewrite dict_get_set, str_in_cons.
  destruct (str_in a l); cbn; [now rewrite orb_true_r|]. rewrite orb_false_r. auto.
Qed.

Lemma str_in_spec s l : str_in s l = true <-> In s l.
Proof.
  unfold str_in. rewrite existsb_exists. split.
  - intros (x & Hx & E). apply String.eqb_eq in E. now subst.
  - intros H. exists s. split; auto. apply String.eqb_refl.
Qed.

Definition name_taken (l : list dtype) (t : list (string * string)) (d : dtype) : Prop :=
  In (lower_name d) (map lower_name l) \/
  In (dt_name d) (map fst t) \/
  (exists a, In a (dt_aliases d) /\ In a (map fst t)).

Lemma alias_mem r l t a : reg_inv r l t -> dict_mem a (r_aliases r) = true <-> In a (map fst t).
Proof.
  intros (_ & _ & Ha & _). rewrite <- dict_mem_spec. unfold dict_mem. now rewrite Ha.
Qed.

Lemma existsb_alias r l t d : reg_inv r l t ->
  existsb (fun a => dict_mem a (r_aliases r)) (dt_aliases d) = true <->
  (exists a, In a (dt_aliases d) /\ In a (map fst t)).
Proof.
  intros Hi. rewrite existsb_exists. split; intros (a & H1 & H2); exists a; split; auto;
    now apply (alias_mem r l t).
Qed.

Lemma register_inv r l t d :
  reg_inv r l t ->
  (fst (register r d) = Ok tt /\ ~ name_taken l t d /\
   reg_inv (snd (register r d)) (l ++ [d]) (t ++ map (fun a => (a, lower_name d)) (dt_aliases d)))
  \/ (register r d = (Raise KeyError, r) /\ name_taken l t d).
Proof.
  intros Hi. pose proof Hi as (Hd & Hn & Ha & Hu).
  unfold register. rewrite !str_lower_case. fold (lower_name d).
  assert (Hm : dict_mem (lower_name d) (r_definitions r) = true <-> In (lower_name d) (map lower_name l)).
  { rewrite dict_mem_spec, Hd, map_fst_pair. tauto. }
  destruct (dict_mem (lower_name d) (r_definitions r)) eqn:E1.
  { right. split; auto. left. tauto. }
  destruct (dict_mem (dt_name d) (r_aliases r)) eqn:E2.
  { right. split; auto. right; left. now apply (alias_mem r l t). }
  destruct (existsb _ (dt_aliases d)) eqn:E3.
  { right. split; auto. right; right. now apply (existsb_alias r l t). }
  left. cbn [fst snd]. split; auto.
  assert (N3 : forall a, In a (dt_aliases d) -> ~ In a (map fst t)).
  { intros a Hx Hy. assert (existsb (fun a => dict_mem a (r_aliases r)) (dt_aliases d) = true);
      [|congruence]. apply (existsb_alias r l t); eauto. }
  assert (N1 : ~ In (lower_name d) (map lower_name l)) by (intros H; apply Hm in H; congruence).
  split.
  - intros [H|[H|(a & H1 & H2)]].
    + tauto.
    + apply (alias_mem r l t) in H; auto. congruence.
    + exact (N3 a H1 H2).
  - unfold reg_inv; cbn [r_definitions r_aliases]. repeat split.
    + rewrite dict_set_new.
      * rewrite Hd, map_app. reflexivity.
      * now apply dict_mem_false.
    + rewrite map_app. apply NoDup_snoc; auto.
    + intros a. rewrite dict_get_fold_aliases, dict_get_app, dict_get_const, Ha.
      destruct (str_in a (dt_aliases d)) eqn:E.
      * apply str_in_spec in E. apply N3 in E. apply dict_get_none in E. now rewrite E.
      * now destruct (dict_get a t).
    + intros a n n' H1 H2. rewrite in_app_iff in H1, H2.
      assert (X : forall m, In (a, m) (map (fun a => (a, lower_name d)) (dt_aliases d)) ->
                  m = lower_name d /\ In a (dt_aliases d)).
      { intros m H. apply in_map_iff in H as (y & E & Hy). inversion E; subst. auto. }
      destruct H1 as [H1|H1], H2 as [H2|H2].
      * eauto.
      * apply X in H2 as [-> H2]. apply N3 in H2. exfalso. apply H2. now apply (in_map fst) in H1.
      * apply X in H1 as [-> H1]. apply N3 in H1. exfalso. apply H1. now apply (in_map fst) in H2.
      * apply X in H1 as [-> _], H2 as [-> _]. auto.
Qed.

Lemma deregister_inv r l t d :
  reg_inv r l t ->
  (fst (deregister r d) = Ok tt /\ In (lower_name d) (map lower_name l) /\
   reg_inv (snd (deregister r d))
     (filter (fun d' => negb (String.eqb (lower_name d') (lower_name d))) l) t)
  \/ (deregister r d = (Raise KeyError, r) /\ ~ In (lower_name d) (map lower_name l)).
Proof.
  intros Hi. pose proof Hi as (Hd & Hn & Ha & Hu).
  unfold deregister. rewrite !str_lower_case. fold (lower_name d).
  assert (Hm : dict_mem (lower_name d) (r_definitions r) = true <-> In (lower_name d) (map lower_name l)).
  { rewrite dict_mem_spec, Hd, map_fst_pair. tauto. }
  destruct (dict_mem (lower_name d) (r_definitions r)) eqn:E1.
  - left. cbn [fst snd]. repeat split; auto; try tauto.
    + cbn. rewrite Hd. now apply dict_del_filter.
    + now apply NoDup_filter_map.
  - right. split; auto. intros H. apply Hm in H. congruence.
Qed.

Lemma reg_run_inv cs : forall r l t, reg_inv r l t ->
  reg_inv (snd (reg_run r cs))
    (fold_left live_step (fst (reg_run r cs)) l)
    (fold_left taken_step (fst (reg_run r cs)) t).
Proof.
  induction cs as [|c cs IH]; intros r l t Hi; [exact Hi|].
  cbn [reg_run]. destruct (reg_step r c) as [o r1] eqn:Es.
  destruct (reg_run r1 cs) as [lg r2] eqn:Er. cbn [fst snd fold_left].
  assert (H1 : reg_inv r1 (live_step l (c, o)) (taken_step t (c, o))).
  { destruct c as [d|d]; cbn [reg_step] in Es.
    - destruct (register_inv r l t d Hi) as [(H1 & _ & H2)|[H1 _]]; rewrite Es in *; cbn [fst snd] in *.
      + subst. exact H2.
      + inversion H1; subst. exact Hi.
    - destruct (deregister_inv r l t d Hi) as [(H1 & _ & H2)|[H1 _]]; rewrite Es in *; cbn [fst snd] in *.
      + subst. exact H2.
      + inversion H1; subst. exact Hi. }
  specialize (IH _ _ _ H1). rewrite Er in IH. exact IH.
Qed.

Lemma reg_empty_inv : reg_inv reg_empty [] [].
Proof. repeat split; auto; cbn; try constructor; tauto. Qed.

Lemma history_inv cs :
  reg_inv (snd (reg_run reg_empty cs)) (live (fst (reg_run reg_empty cs)))
    (taken (fst (reg_run reg_empty cs))).
Proof. apply reg_run_inv, reg_empty_inv. Qed.

Lemma lookup_inv r l t name :
  reg_inv r l t ->
  lookup r name =
  match find (fun d => String.eqb (lower_case name) (lower_name d)) l with
  | Some d => Some d
  | None => match dict_get name t with
            | Some n => find (fun d => String.eqb n (lower_name d)) l
            | None => None
            end
  end.
Proof.
  intros (Hd & Hn & Ha & Hu). unfold lookup. rewrite !str_lower_case.
  assert (G : forall n, dict_get n (r_definitions r) = find (fun d => String.eqb n (lower_name d)) l).
  { intros n. rewrite Hd. clear. induction l as [|d l IH]; cbn; auto.
    destruct (String.eqb n (lower_name d)); auto. }
  unfold dict_mem. rewrite (G (lower_case name)), Ha.
  destruct (find (fun d => String.eqb (lower_case name) (lower_name d)) l) eqn:E.
  - now rewrite G, E.
  - destruct (dict_get name t); cbn [opt_default].
    + apply G.
    + now rewrite G, E.
Qed.

Lemma find_live l d : NoDup (map lower_name l) -> In d l -> forall n, n = lower_name d ->
  find (fun d => String.eqb n (lower_name d)) l = Some d.
Proof.
  induction l as [|e l IH]; cbn; [tauto|]. intros Hn [->|Hi] n ->.
  - now rewrite String.eqb_refl.
  - inversion Hn; subst. destruct (String.eqb_spec (lower_name d) (lower_name e)) as [E|].
    + exfalso. apply H1. rewrite <- E. now apply in_map.
    + now apply IH.
Qed.

Lemma find_none_name l n :
  find (fun d => String.eqb n (lower_name d)) l = None <-> ~ In n (map lower_name l).
Proof.
  induction l as [|e l IH]; cbn; [tauto|].
  destruct (String.eqb_spec n (lower_name e)) as [E|E].
  - split; [discriminate|]. intros H. exfalso. apply H. auto.
  - rewrite IH. split; intros H; [intros [X|X]; congruence || tauto | tauto].
Qed.

(** C31 *)
Lemma registry_lookup cs :
  let log := fst (reg_run reg_empty cs) in
  let r := snd (reg_run reg_empty cs) in
  definitions r = live log /\
  NoDup (map lower_name (live log)) /\
  (forall d name, In d (live log) -> lower_case name = lower_name d -> lookup r name = Some d) /\
  (forall name, ~ In (lower_case name) (map lower_name (live log)) -> ~ In name (map fst (taken log)) ->
     lookup r name = None) /\
  (forall name d, lookup r name = Some d -> In d (live log)).
Proof.
  intros log r. pose proof (history_inv cs) as Hi. fold log in Hi. fold r in Hi.
  pose proof Hi as (Hd & Hn & Ha & Hu). repeat split.
  - unfold definitions. rewrite Hd. apply map_snd_pair.
  - exact Hn.
  - intros d name H1 H2. rewrite (lookup_inv _ _ _ _ Hi).
    now rewrite (find_live _ d Hn H1) by auto.
  - intros name H1 H2. rewrite (lookup_inv _ _ _ _ Hi).
    apply find_none_name in H1. rewrite H1. apply dict_get_none in H2. now rewrite H2.
  - intros name d. rewrite (lookup_inv _ _ _ _ Hi).
    destruct (find _ (live log)) eqn:E.
    + intros H; inversion H; subst. now apply find_some in E.
    + destruct (dict_get name (taken log)); [|discriminate]. intros H. now apply find_some in H.
Qed.

Lemma reg_run_app cs1 : forall r cs2,
  reg_run r (cs1 ++ cs2) =
  (fst (reg_run r cs1) ++ fst (reg_run (snd (reg_run r cs1)) cs2),
   snd (reg_run (snd (reg_run r cs1)) cs2)).
Proof.
  induction cs1 as [|c cs1 IH]; intros r cs2; cbn.
  - now destruct (reg_run r cs2).
  - destruct (reg_step r c) as [o r1]. rewrite IH. destruct (reg_run r1 cs1) as [l r2]. cbn. reflexivity.
Qed.

(** C32 *)
Lemma registry_failure cs :
  let log := fst (reg_run reg_empty cs) in
  let r := snd (reg_run reg_empty cs) in
  (forall d, fst (register r d) = Ok tt \/ fst (register r d) = Raise KeyError) /\
  (forall d, fst (register r d) = Raise KeyError <->
     In (lower_name d) (map lower_name (live log)) \/
     In (dt_name d) (map fst (taken log)) \/
     (exists a, In a (dt_aliases d) /\ In a (map fst (taken log)))) /\
  (forall d, fst (deregister r d) = Ok tt \/ fst (deregister r d) = Raise KeyError) /\
  (forall d, fst (deregister r d) = Raise KeyError <->
     ~ In (lower_name d) (map lower_name (live log))) /\
  (forall c later, fst (reg_step r c) = Raise KeyError ->
     let run1 := reg_run reg_empty (cs ++ c :: later) in
     let run2 := reg_run reg_empty (cs ++ later) in
     fst run1 = log ++ (c, Raise KeyError) :: skipn (List.length log) (fst run2) /\
     (forall name, lookup (snd run1) name = lookup (snd run2) name) /\
     definitions (snd run1) = definitions (snd run2)).
Proof.
  intros log r. pose proof (history_inv cs) as Hi. fold log in Hi. fold r in Hi.
  split; [|split; [|split; [|split]]].
  - intros d. destruct (register_inv r _ _ d Hi) as [(H & _)|[-> _]]; auto.
  - intros d. destruct (register_inv r _ _ d Hi) as [(H & Hn & _)|[-> Hn]].
    + rewrite H. split; [discriminate|]. intros X. exfalso. exact (Hn X).
    + cbn. split; auto.
  - intros d. destruct (deregister_inv r _ _ d Hi) as [(H & _)|[-> _]]; auto.
  - intros d. destruct (deregister_inv r _ _ d Hi) as [(H & Hn & _)|[-> Hn]].
    + rewrite H. split; [discriminate|]. tauto.
    + cbn. split; auto.
  - intros c later Hc run1 run2.
    assert (Es : reg_step r c = (Raise KeyError, r)).
    { destruct c as [d|d]; cbn [reg_step] in *.
      - destruct (register_inv r _ _ d Hi) as [(H & _)|[-> _]]; auto. congruence.
      - destruct (deregister_inv r _ _ d Hi) as [(H & _)|[-> _]]; auto. congruence. }
    unfold run1, run2. rewrite !reg_run_app. fold r. fold log. cbn [reg_run].
    rewrite Es. destruct (reg_run r later) as [l2 r2] eqn:E2. cbn [fst snd].
    repeat split. f_equal. f_equal.
    rewrite skipn_app, skipn_all, Nat.sub_diag. reflexivity.
Qed.

(** C33 *)
Lemma registry_alias cs :
  let log := fst (reg_run reg_empty cs) in
  let r := snd (reg_run reg_empty cs) in
  (forall d a, In d (live log) -> In (a, lower_name d) (taken log) ->
     ~ In (lower_case a) (map lower_name (live log)) -> lookup r a = Some d) /\
  (forall d a, In d (live log) -> lower_case a = lower_name d -> lookup r a = Some d) /\
  (forall d a, In d (live log) -> In a (dt_aliases d) -> In (a, lower_name d) (taken log)) /\
  (forall d a, In a (dt_aliases d) -> In a (map fst (taken log)) ->
     fst (register r d) = Raise KeyError) /\
  (forall later a, In a (map fst (taken log)) ->
     In a (map fst (taken (fst (reg_run reg_empty (cs ++ later)))))) /\
  (forall a n, In (a, n) (taken log) ->
     ~ In (lower_case a) (map lower_name (live log)) ->
     ~ In n (map lower_name (live log)) -> lookup r a = None).
Proof.
  intros log r. pose proof (history_inv cs) as Hi. fold log in Hi. fold r in Hi.
  pose proof Hi as (Hd & Hn & Ha & Hu).
  assert (G : forall a n, In (a, n) (taken log) -> dict_get a (taken log) = Some n).
  { intros a n H. destruct (dict_get a (taken log)) as [m|] eqn:E.
    - apply dict_get_in in E. f_equal. eapply Hu; eauto.
    - apply dict_get_none in E. exfalso. apply E. now apply (in_map fst) in H. }
  split; [|split; [|split; [|split; [|split]]]].
  - intros d a H1 H2 H3. rewrite (lookup_inv _ _ _ _ Hi).
    apply find_none_name in H3. rewrite H3, (G _ _ H2).
    now rewrite (find_live _ d Hn H1) by auto.
  - intros d a H1 H2. rewrite (lookup_inv _ _ _ _ Hi).
    now rewrite (find_live _ d Hn H1) by auto.
  - intros d a H1 H2. revert H1. unfold live, taken, log.
    enough (X : forall cs r l t,
      (forall d, In d l -> forall a, In a (dt_aliases d) -> In (a, lower_name d) t) ->
      forall d, In d (fold_left live_step (fst (reg_run r cs)) l) -> forall a, In a (dt_aliases d) ->
      In (a, lower_name d) (fold_left taken_step (fst (reg_run r cs)) t)).
    { intros H. eapply X; eauto. cbn. tauto. }
    clear. induction cs as [|c cs IH]; intros r l t H d Hd a Ha; [now apply (H d)|].
    cbn [reg_run] in *. destruct (reg_step r c) as [o r1]. destruct (reg_run r1 cs) as [lg r2] eqn:E.
    cbn [fst fold_left] in *.
    assert (fst (reg_run r1 cs) = lg) by now rewrite E. subst lg. eapply IH; eauto.
    intros d0 Hd0 a0 Ha0. destruct c as [e|e], o as [u|x|]; cbn [live_step taken_step] in *; auto.
    + rewrite in_app_iff in *. destruct Hd0 as [Hd0|[->|[]]]; [left; now apply H|].
      right. apply in_map_iff. eauto.
    + apply filter_In in Hd0 as [Hd0 _]. now apply H.
  - intros d a H1 H2. destruct (register_inv r _ _ d Hi) as [(_ & X & _)|[-> _]]; auto.
    exfalso. apply X. right; right. eauto.
  - intros later a H. rewrite reg_run_app. fold log. cbn [fst].
    unfold taken. rewrite fold_left_app. fold (taken log).
    set (lg := fst (reg_run _ later)). clearbody lg. revert H. generalize (taken log).
    induction lg as [|x lg IH]; intros t H; cbn; auto. apply IH.
    destruct x as [[d|d] [u|y|]]; cbn [taken_step]; auto. rewrite map_app, in_app_iff. auto.
  - intros a n H1 H2 H3. rewrite (lookup_inv _ _ _ _ Hi).
    apply find_none_name in H2, H3. now rewrite H2, (G _ _ H1), H3.
Qed.

(** ** Enumerations *)

Lemma py_eq_refl_integral a : integral a -> py_eq a a = true.
Proof. destruct a; cbn; try tauto; intros _; [apply eqb_reflx|apply Z.eqb_refl]. Qed.

Lemma py_eq_trans_integral a b c : integral a -> integral b -> integral c ->
  py_eq a b = true -> py_eq a c = true -> py_eq b c = true.
Proof.
  intros Ha Hb Hc H1 H2. destruct a, b, c; cbn in *; try tauto;
    repeat match goal with
    | H : Bool.eqb _ _ = true |- _ => apply eqb_prop in H; subst
    | H : (_ =? _) = true |- _ => apply Z.eqb_eq in H; subst
    | b : bool |- _ => destruct b
    end; try reflexivity; try discriminate; try apply Z.eqb_refl; cbn in *; try lia.
Qed.

Record enum_inv (e : enum_def) (l : list enum_value) : Prop := {
  ei_values : en_values e = l;
  ei_names : en_per_name e = map (fun v => (ev_name v, v)) l;
  ei_numbers : en_per_number e = map (fun v => (ev_number v, v)) l;
  ei_nodup : NoDup (map ev_name l);
  ei_distinct : forall i j v w, nth_error l i = Some v -> nth_error l j = Some w ->
    i <> j -> py_eq (ev_number v) (ev_number w) = false /\
              (forall a, In a (ev_aliases v) -> In a (ev_aliases w) -> False);
  ei_alias : forall a, dict_get a (en_per_alias e)
    = find (fun v => str_in a (ev_aliases v)) l;
  ei_integral : Forall (fun v => integral (ev_number v)) l }.

Lemma num_get_map n l :
  num_get n (map (fun v => (ev_number v, v)) l) = find (fun v => py_eq n (ev_number v)) l.
Proof.
  unfold num_get. induction l as [|v l IH]; cbn; auto.
  destruct (py_eq n (ev_number v)); auto.
Qed.

Lemma find_app {A} (f : A -> bool) l1 l2 :
  find f (l1 ++ l2) = match find f l1 with Some x => Some x | None => find f l2 end.
Proof. induction l1 as [|a l1 IH]; cbn; auto. destruct (f a); auto. Qed.

Lemma find_none_iff {A} (f : A -> bool) l : find f l = None <-> forall x, In x l -> f x = false.
Proof.
  induction l as [|a l IH]; cbn; [intuition|]. destruct (f a) eqn:E.
  - split; [discriminate|]. intros H. rewrite (H a) in E; auto. discriminate.
  - rewrite IH. split; [intros H x [<-|Hx]; auto|intros H x Hx; auto].
Qed.

Lemma nth_error_snoc {A} (l : list A) x i v :
  nth_error (l ++ [x]) i = Some v -> nth_error l i = Some v \/ (i = List.length l /\ v = x).
Proof.
  intros H. destruct (Nat.lt_ge_cases i (List.length l)).
  - left. now rewrite nth_error_app1 in H.
  - rewrite nth_error_app2 in H by auto.
    destruct (i - List.length l)%nat as [|k] eqn:E; cbn in H.
    + inversion H; subst. right. split; auto. lia.
    + destruct k; discriminate.
Qed.

Lemma py_eq_sym_integral a b : integral a -> integral b -> py_eq a b = py_eq b a.
Proof.
  destruct a as [|x| | | | | | | |], b as [|y| | | | | | | |]; cbn; try tauto; intros _ _.
  - destruct x, y; reflexivity.
  - apply Z.eqb_sym.
Qed.

Lemma enum_add_inv e l v : enum_inv e l -> integral (ev_number v) ->
  (fst (enum_add e v) = Ok tt /\ ~ clashes l v /\ enum_inv (snd (enum_add e v)) (l ++ [v]))
  \/ (enum_add e v = (Raise KeyError, e) /\ clashes l v).
Proof.
  intros [Hv Hna Hnu Hnd Hdi Hal Hin] Hi. unfold enum_add.
  destruct (dict_mem (ev_name v) (en_per_name e)) eqn:E1.
  { right. split; auto. apply dict_mem_spec in E1. rewrite Hna, map_map in E1. cbn in E1.
    apply in_map_iff in E1 as (w & E & Hw). exists w. auto. }
  rewrite Hnu, num_get_map.
  destruct (find _ l) as [w|] eqn:E2.
  { right. split; auto. apply find_some in E2 as [H1 H2]. exists w. auto. }
  destruct (existsb _ (ev_aliases v)) eqn:E3.
  { right. split; auto. apply existsb_exists in E3 as (a & H1 & H2).
    unfold dict_mem in H2. rewrite Hal in H2.
    destruct (find (fun v => str_in a (ev_aliases v)) l) as [w|] eqn:E; [|discriminate].
    apply find_some in E as [H3 H4]. apply str_in_spec in H4. exists w. eauto 6. }
  left. cbn [fst snd]. split; auto.
  assert (Hnc : ~ clashes l v).
  { intros (w & Hw & [H|[H|(a & H1 & H2)]]).
    - apply dict_mem_false, dict_get_none in E1. apply E1. rewrite Hna, map_map. cbn.
      rewrite <- H. now apply in_map.
    - apply find_none_iff with (x := w) in E2; auto. congruence.
    - assert (X : existsb (fun a => dict_mem a (en_per_alias e)) (ev_aliases v) = true); [|congruence].
      apply existsb_exists. exists a. split; auto. unfold dict_mem. rewrite Hal.
      destruct (find (fun v => str_in a (ev_aliases v)) l) eqn:E; auto.
      apply find_none_iff with (x := w) in E; auto.
      apply str_in_spec in H2. congruence. }
  split; auto.
  constructor; cbn [en_values en_per_name en_per_number en_per_alias].
  - now rewrite Hv.
  - rewrite dict_set_new by now apply dict_mem_false. now rewrite Hna, map_app.
  - now rewrite map_app.
  - rewrite map_app. apply NoDup_snoc; auto. intros H. apply in_map_iff in H as (w & E & Hw).
    apply Hnc. exists w. auto.
  - intros i j x y Hx Hy Hij. apply nth_error_snoc in Hx, Hy.
    destruct Hx as [Hx|[-> ->]], Hy as [Hy|[-> ->]].
    + eauto.
    + apply nth_error_In in Hx. split.
      * rewrite py_eq_sym_integral; auto; [|rewrite Forall_forall in Hin; auto].
        destruct (py_eq (ev_number v) (ev_number x)) eqn:E; auto. exfalso. apply Hnc. exists x; auto.
      * intros a H1 H2. apply Hnc. exists x. eauto 6.
    + apply nth_error_In in Hy. split.
      * destruct (py_eq (ev_number v) (ev_number y)) eqn:E; auto. exfalso. apply Hnc. exists y; auto.
      * intros a H1 H2. apply Hnc. exists y. eauto 6.
    + congruence.
  - intros a. rewrite find_app. cbn [find].
    assert (X : forall als d, dict_get a (fold_left (fun d a => dict_set a v d) als d)
                 = if str_in a als then Some v else dict_get a d).
    { induction als as [|b als IH]; intros d; cbn [fold_left]; auto. rewrite IH, dict_get_set, str_in_cons.
      destruct (str_in a als); cbn; [now rewrite orb_true_r|]. now rewrite orb_false_r. }
    rewrite X, Hal. destruct (str_in a (ev_aliases v)) eqn:E.
    + destruct (find (fun v => str_in a (ev_aliases v)) l) as [w|] eqn:E4; auto.
      apply find_some in E4 as [H1 H2]. apply str_in_spec in E, H2.
      exfalso. apply Hnc. exists w. eauto 6.
    + now destruct (find (fun v => str_in a (ev_aliases v)) l).
  - rewrite Forall_app. auto.
Qed.

Lemma enum_run_inv vs : forall e l, enum_inv e l ->
  Forall (fun v => integral (ev_number v)) vs ->
  enum_inv (snd (enum_run e vs)) (l ++ accepted (fst (enum_run e vs))).
Proof.
  induction vs as [|v vs IH]; intros e l Hi Hf; cbn.
  - now rewrite app_nil_r.
  - inversion Hf; subst. destruct (enum_add e v) as [o e1] eqn:Ea.
    destruct (enum_run e1 vs) as [lg e2] eqn:Er. cbn [fst snd accepted flat_map].
    destruct (enum_add_inv e l v Hi H1) as [(H & _ & Hi')|[H _]]; rewrite Ea in *; cbn [fst snd] in *.
    + subst. specialize (IH _ _ Hi' H2). rewrite Er in IH. cbn [fst snd] in IH.
      now rewrite <- app_assoc in IH.
    + inversion H; subst. specialize (IH _ _ Hi H2). rewrite Er in IH. exact IH.
Qed.

Lemma enum_empty_inv : enum_inv enum_empty [].
Proof.
  constructor; cbn; auto; try constructor; intros; destruct i; discriminate.
Qed.

Lemma find_unique {A} (f : A -> bool) l v :
  In v l -> f v = true -> (forall w, In w l -> f w = true -> w = v) -> find f l = Some v.
Proof.
  intros H1 H2 H3. destruct (find f l) as [w|] eqn:E.
  - apply find_some in E as [Hw E]. f_equal. auto.
  - apply find_none_iff with (x := v) in E; auto. congruence.
Qed.

(** C34 *)
Lemma enumeration_history vs :
  Forall (fun v => integral (ev_number v)) vs ->
  let log := fst (enum_run enum_empty vs) in
  let e := snd (enum_run enum_empty vs) in
  let kept := accepted log in
  en_values e = kept /\
  NoDup (map ev_name kept) /\
  (forall i j v w, nth_error kept i = Some v -> nth_error kept j = Some w -> i <> j ->
     py_eq (ev_number v) (ev_number w) = false /\
     (forall a, ~ (In a (ev_aliases v) /\ In a (ev_aliases w)))) /\
  (forall v, In v kept ->
     dict_get (ev_name v) (en_per_name e) = Some v /\
     (forall a, In a (ev_aliases v) -> dict_get a (en_per_alias e) = Some v) /\
     (forall n, integral n -> py_eq n (ev_number v) = true ->
        num_get n (en_per_number e) = Some v /\ enum_get_name e n = Some (ev_name v))) /\
  (forall n, (forall v, In v kept -> py_eq n (ev_number v) = false) -> enum_get_name e n = None) /\
  (forall x v, dict_get x (en_per_name e) = Some v -> In v kept /\ ev_name v = x) /\
  (forall x v, dict_get x (en_per_alias e) = Some v -> In v kept /\ In x (ev_aliases v)) /\
  (forall n v, num_get n (en_per_number e) = Some v -> In v kept /\ py_eq n (ev_number v) = true) /\
  (forall v, integral (ev_number v) ->
     (fst (enum_add e v) = Ok tt /\ ~ clashes kept v) \/
     (enum_add e v = (Raise KeyError, e) /\ clashes kept v)).
Proof.
  intros Hf log e kept.
  pose proof (enum_run_inv vs _ _ enum_empty_inv Hf) as Hi. cbn [app] in Hi.
  fold log in Hi. fold e in Hi. fold kept in Hi.
  pose proof Hi as [Hv Hna Hnu Hnd Hdi Hal Hin].
  assert (Huniq : forall v w, In v kept -> In w kept ->
     (py_eq (ev_number v) (ev_number w) = true \/ exists a, In a (ev_aliases v) /\ In a (ev_aliases w)) ->
     v = w).
  { intros v w H1 H2 H. apply In_nth_error in H1 as [i H1], H2 as [j H2].
    destruct (Nat.eq_dec i j) as [->|Hij]; [congruence|].
    destruct (Hdi i j v w H1 H2 Hij) as [A B]. destruct H as [H|(a & Ha & Hb)]; [congruence|].
    exfalso; eauto. }
  assert (HI : forall v, In v kept -> integral (ev_number v)) by (rewrite Forall_forall in Hin; auto).
  split; [exact Hv|]. split; [exact Hnd|]. split.
  { intros i j v w H1 H2 H3. destruct (Hdi i j v w H1 H2 H3) as [A B]. split; auto.
    intros a [Ha Hb]; eauto. }
  split; [|split].
  - intros v Hk. split; [|split].
    + apply dict_get_nodup.
      * rewrite Hna, map_fst_pair. exact Hnd.
      * rewrite Hna. apply in_map_iff. eauto.
    + intros a Ha. rewrite Hal. apply find_unique; auto.
      * now apply str_in_spec.
      * intros w Hw H. apply str_in_spec in H. apply Huniq; eauto.
    + intros n Hn He. assert (X : num_get n (en_per_number e) = Some v).
      { rewrite Hnu, num_get_map. apply find_unique; auto.
        intros w Hw H. apply Huniq; auto. left.
        apply (py_eq_trans_integral n); auto. }
      split; auto. unfold enum_get_name. now rewrite X.
  - intros n Hn. unfold enum_get_name. rewrite Hnu, num_get_map.
    replace (find (fun v => py_eq n (ev_number v)) kept) with (@None enum_value); auto.
    symmetry. now apply find_none_iff.
  - split; [|split; [|split]].
    { intros x v H. apply dict_get_in in H. rewrite Hna in H. apply in_map_iff in H as (w & E & Hw). inversion E; subst. auto. }
    { intros x v H. rewrite Hal in H. apply find_some in H as [H1 H2]. apply str_in_spec in H2. auto. }
    { intros n v H. rewrite Hnu, num_get_map in H. now apply find_some in H. }
    intros v Hvi. destruct (enum_add_inv e kept v Hi Hvi) as [(A & B & _)|[A B]]; auto.
Qed.

(** ** Member containers *)

Lemma append_last_snoc l s d :
  append_last (l ++ [s]) d = l ++ [mkSection (sec_name s) (sec_members s ++ [d])].
Proof.
  induction l as [|x l IH]; cbn; auto. rewrite IH. destruct (l ++ [s]) eqn:E; auto.
  apply app_eq_nil in E as [_ E]. discriminate.
Qed.

Lemma added_cons x log : added (x :: log) =
  match x with (CallAddMember d, OutAdded (Ok _)) => [d] | _ => [] end ++ added log.
Proof. reflexivity. Qed.

Lemma added_split log : added log = segment log ++ concat (map snd (sectioned log)).
Proof.
  induction log as [|[c o] log IH]; auto. rewrite added_cons.
  destruct c as [d|n|]; cbn.
  - destruct o as [[u|x|]| |]; cbn; rewrite IH; auto.
  - apply IH.
  - apply IH.
Qed.

Definition fresh_size (union : bool) (ms : list dtype) : option Z :=
  if union then get_byte_size (DUnion (mkMeta "" [] None) BONative ms)
  else get_byte_size (DStructure (mkMeta "" [] None) BONative ms).

Lemma struct_size_fix ms : forall acc,
  (fix go (l : list dtype) (acc : Z) : option Z :=
     match l with
     | [] => Some acc
     | m :: r =>
         match struct_size_step acc (pad_align m) (get_byte_size m) with
         | Some acc' => go r acc'
         | None => None
         end
     end) ms acc = struct_size_loop ms acc.
Proof. reflexivity. Qed.

Lemma union_size_fix ms : forall acc,
  (fix go (l : list dtype) (acc : Z) : option Z :=
     match l with
     | [] => Some acc
     | m :: r =>
         match get_byte_size m with
         | Some s => go r (Z.max acc s)
         | None => None
         end
     end) ms acc = union_size_loop ms acc.
Proof. reflexivity. Qed.

Lemma structure_size m bo ms : get_byte_size (DStructure m bo ms) =
  match ms with [] => None | _ => struct_size_loop ms 0 end.
Proof. cbn [get_byte_size]. rewrite struct_size_fix. reflexivity. Qed.

Lemma union_size m bo ms : get_byte_size (DUnion m bo ms) =
  match ms with [] => None | _ => union_size_loop ms 0 end.
Proof. cbn [get_byte_size]. rewrite union_size_fix. reflexivity. Qed.

(** Invariant: the members with unique names, and a cache that is empty or up to
    date. *)
Definition mem_inv (union : bool) (s : struct_state) (ms : list dtype) : Prop :=
  ss_members s = map (fun d => (dt_name d, d)) ms /\
  NoDup (map dt_name ms) /\
  (ss_byte_size s = None \/ ss_byte_size s = fresh_size union ms).

Lemma fresh_size_nonempty union ms : fresh_size union ms =
  match ms with [] => None | _ => if union then union_size_loop ms 0 else struct_size_loop ms 0 end.
Proof. unfold fresh_size. destruct union; [apply union_size|apply structure_size]. Qed.

Lemma get_size_inv union s ms : mem_inv union s ms ->
  (if union then union_get_byte_size s else struct_get_byte_size s) =
  (fresh_size union ms,
   mkStructState (fresh_size union ms) (ss_members s) (ss_sections s)).
Proof.
  intros (Hm & Hn & Hc). destruct s as [b mm ss]. cbn [ss_members ss_byte_size ss_sections] in *.
  unfold union_get_byte_size, struct_get_byte_size. cbn [ss_members ss_byte_size ss_sections].
  rewrite fresh_size_nonempty in *. destruct ms as [|d ms].
  - cbn in Hm. subst mm. destruct Hc; subst; destruct union; reflexivity.
  - assert (Es : map snd mm = d :: ms) by (rewrite Hm; apply map_snd_pair).
    destruct mm as [|x mm]; [discriminate|].
    destruct Hc as [Hc|Hc]; subst b; destruct union.
    + now rewrite Es.
    + now rewrite Es.
    + destruct (union_size_loop (d :: ms) 0) eqn:E; auto. now rewrite Es, E.
    + destruct (struct_size_loop (d :: ms) 0) eqn:E; auto. now rewrite Es, E.
Qed.

Lemma add_member_inv union s ms d : mem_inv union s ms ->
  (struct_add_member s d = (Ok tt, mkStructState None (ss_members s ++ [(dt_name d, d)])
                                     (append_last (ss_sections s) d)) /\
   ~ In (dt_name d) (map dt_name ms) /\
   mem_inv union (snd (struct_add_member s d)) (ms ++ [d]))
  \/ (snd (struct_add_member s d) = s /\ In (dt_name d) (map dt_name ms) /\
      fst (struct_add_member s d) = Raise (if String.eqb (dt_name d) "" then TypeError else KeyError)).
Proof.
  intros (Hm & Hn & Hc). unfold struct_add_member.
  destruct (dict_mem (dt_name d) (ss_members s)) eqn:E.
  - right. cbn. repeat split; auto. apply dict_mem_spec in E. now rewrite Hm, map_fst_pair in E.
  - left. apply dict_mem_false in E. rewrite dict_set_new by auto.
    assert (Hd : ~ In (dt_name d) (map dt_name ms)).
    { apply dict_get_none in E. now rewrite Hm, map_fst_pair in E. }
    repeat split; auto; cbn.
    + now rewrite Hm, map_app.
    + rewrite map_app. now apply NoDup_snoc.
Qed.

Definition in_last (l : list section_def) (ds : list dtype) : list section_def :=
  fold_left append_last ds l.

Lemma in_last_snoc l s ds :
  in_last (l ++ [s]) ds = l ++ [mkSection (sec_name s) (sec_members s ++ ds)].
Proof.
  revert s. induction ds as [|d ds IH]; intros s; cbn.
  - destruct s; now rewrite app_nil_r.
  - rewrite append_last_snoc. unfold in_last in IH. rewrite IH. cbn. now rewrite <- app_assoc.
Qed.

Lemma in_last_nil ds : in_last [] ds = [].
Proof. induction ds; cbn; auto. Qed.

Definition as_section (x : string * list dtype) : section_def := mkSection (fst x) (snd x).

Lemma mem_run_inv union cs : forall s ms, mem_inv union s ms ->
  let log := fst (mem_run union s cs) in
  let s' := snd (mem_run union s cs) in
  mem_inv union s' (ms ++ added log) /\
  ss_sections s' = in_last (ss_sections s) (segment log) ++ map as_section (sectioned log).
Proof.
  induction cs as [|c cs IH]; intros s ms Hi; cbn [mem_run].
  - cbn. now rewrite !app_nil_r.
  - destruct (mem_step union s c) as [o s1] eqn:Es.
    destruct (mem_run union s1 cs) as [lg s2] eqn:Er. cbn [fst snd].
    destruct c as [d|n|]; cbn [mem_step] in Es.
    + destruct (struct_add_member s d) as [r s0] eqn:Ea. inversion Es; subst o s0; clear Es.
      destruct (add_member_inv union s ms d Hi) as [(E & _ & Hi')|(E & _ & E2)]; rewrite Ea in *; cbn [fst snd] in *.
      * inversion E; subst. specialize (IH _ _ Hi'). rewrite Er in IH. cbn [fst snd ss_sections] in IH.
        cbn [added flat_map segment sectioned]. rewrite <- app_assoc in IH. exact IH.
      * subst. specialize (IH _ _ Hi). rewrite Er in IH. cbn [fst snd] in IH.
        cbn [added flat_map segment sectioned app]. exact IH.
    + inversion Es; subst o s1; clear Es.
      assert (Hi' : mem_inv union (struct_add_section s n) ms) by exact Hi.
      specialize (IH _ _ Hi'). rewrite Er in IH. cbn [fst snd struct_add_section ss_sections] in IH.
      cbn [added flat_map segment sectioned app map]. destruct IH as [IH1 IH2]. split; [exact IH1|].
      rewrite IH2, in_last_snoc. cbn. now rewrite <- app_assoc.
    + rewrite (get_size_inv union s ms Hi) in Es. inversion Es; subst o s1; clear Es.
      assert (Hi' : mem_inv union (mkStructState (fresh_size union ms) (ss_members s) (ss_sections s)) ms).
      { destruct Hi as (A & B & _). repeat split; auto. }
      specialize (IH _ _ Hi'). rewrite Er in IH. exact IH.
Qed.

(** The step of the size loop against the layout relation. *)
Lemma padding_size_spec a off : a <> 0 ->
  0 < a -> 0 <= padding_size a off < a /\ (a | off + padding_size a off).
Proof.
  intros Ha Hp. unfold padding_size. pose proof (Z.mod_pos_bound off a Hp) as Hb.
  pose proof (Z.div_mod off a Ha) as E. destruct (Z.ltb_spec 0 (off mod a)).
  - split; [lia|]. exists (off / a + 1). nia.
  - split; [lia|]. exists (off / a). nia.
Qed.

Lemma laid_out_loop ms : forall off e,
  Forall (fun d => forall m bo a, d = DPadding m bo (Some a) -> 0 <= a) ms ->
  struct_size_loop ms off = Some e <-> laid_out off ms e.
Proof.
  induction ms as [|d ms IH]; intros off e Hp; cbn [struct_size_loop].
  - split; intros H; inversion H; subst; constructor.
  - inversion Hp as [|? ? Hd Hms]; subst.
    destruct (pad_align d) as [a|] eqn:Ea.
    + destruct d; try discriminate. cbn in Ea. destruct align as [a'|]; [|discriminate].
      cbn in Ea. destruct (Z.eqb_spec a' 0); [discriminate|]. inversion Ea; subst a'.
      specialize (Hd _ _ _ eq_refl). cbn [struct_size_step].
      destruct (padding_size_spec a off) as [B D]; [lia|lia|].
      rewrite IH by auto. split; intros H.
      * econstructor; eauto; lia.
      * inversion H; subst.
        -- replace (padding_size a off) with k; auto.
           assert (exists q, k - padding_size a off = a * q) as [q Hq].
           { match goal with H : (a | off + k) |- _ => destruct D as [x Hx], H as [y Hy] end.
             exists (y - x). lia. }
           assert (q = 0) by nia. subst. lia.
        -- exfalso. match goal with H : forall _ _ _, _ <> _ |- _ => eapply H; reflexivity end.
    + cbn [struct_size_step]. destruct (get_byte_size d) as [n|] eqn:En.
      * rewrite IH by auto. split; intros H.
        -- econstructor; eauto. intros m bo a ->. cbn in En. discriminate.
        -- inversion H; subst.
           ++ cbn in En. discriminate.
           ++ congruence.
      * split; [discriminate|]. intros H. inversion H; subst.
        -- cbn in Ea. destruct (Z.eqb_spec a 0); [contradiction|discriminate].
        -- congruence.
Qed.

Lemma union_loop_spec ms : forall acc e,
  union_size_loop ms acc = Some e <->
  (exists sizes, map get_byte_size ms = map Some sizes /\ e = fold_left Z.max sizes acc).
Proof.
  induction ms as [|d ms IH]; intros acc e; cbn [union_size_loop].
  - split; intros H.
    + inversion H; subst. exists []. auto.
    + destruct H as (sz & E & ->). destruct sz; [reflexivity|discriminate].
  - destruct (get_byte_size d) as [n|] eqn:En.
    + rewrite IH. split; intros (sz & E & ->).
      * exists (n :: sz). cbn. now rewrite En, E.
      * destruct sz as [|k sz]; [discriminate|]. cbn in E. rewrite En in E.
        injection E as E1 E2. subst n. exists sz. auto.
    + split; [discriminate|]. intros (sz & E & _). destruct sz; [discriminate|].
      cbn in E. rewrite En in E. discriminate.
Qed.

(** C35 *)
Lemma container_history union cs :
  let log := fst (mem_run union struct_empty cs) in
  let s := snd (mem_run union struct_empty cs) in
  map snd (ss_members s) = added log /\
  map fst (ss_members s) = map dt_name (added log) /\
  NoDup (map dt_name (added log)) /\
  map (fun x => (sec_name x, sec_members x)) (ss_sections s) = sectioned log /\
  added log = segment log ++ concat (map snd (sectioned log)) /\
  (forall d, snd (struct_add_member s d) = s <-> In (dt_name d) (map dt_name (added log))) /\
  (forall d, fst (struct_add_member s d) = Ok tt <-> ~ In (dt_name d) (map dt_name (added log))) /\
  fst (if union then union_get_byte_size s else struct_get_byte_size s) =
    (if union then get_byte_size (DUnion (mkMeta "" [] None) BONative (added log))
     else get_byte_size (DStructure (mkMeta "" [] None) BONative (added log))).
Proof.
  intros log s.
  assert (H0 : mem_inv union struct_empty []) by (repeat split; cbn; auto; constructor).
  destruct (mem_run_inv union cs _ _ H0) as [Hi Hs]. cbn [app] in Hi.
  fold log in Hi, Hs. fold s in Hi, Hs. pose proof Hi as (Hm & Hn & Hc).
  repeat split.
  - rewrite Hm. apply map_snd_pair.
  - rewrite Hm. apply map_fst_pair.
  - exact Hn.
  - rewrite Hs. cbn [struct_empty ss_sections]. rewrite in_last_nil. cbn [app].
    rewrite map_map. cbn. rewrite <- (map_id (sectioned log)) at 2. apply map_ext. now intros [].
  - apply added_split.
  - intros H. destruct (add_member_inv union s _ d Hi) as [(E & _ & _)|(_ & X & _)]; auto.
    exfalso. rewrite E in H. cbn in H. apply (f_equal (fun x => List.length (ss_members x))) in H.
    cbn in H. rewrite app_length in H. cbn in H. lia.
  - intros H. destruct (add_member_inv union s _ d Hi) as [(_ & X & _)|(E & _)]; tauto.
  - intros H. destruct (add_member_inv union s _ d Hi) as [(_ & X & _)|(_ & _ & E)]; auto.
    rewrite E in H. discriminate.
  - intros H. destruct (add_member_inv union s _ d Hi) as [(E & _ & _)|(_ & X & _)]; [now rewrite E|tauto].
  - rewrite (get_size_inv union s _ Hi). reflexivity.
Qed.

(** The byte sizes mean what they should. *)
Lemma structure_size_layout m bo ms n :
  Forall (fun d => forall m bo a, d = DPadding m bo (Some a) -> 0 <= a) ms ->
  get_byte_size (DStructure m bo ms) = Some n <-> ms <> [] /\ laid_out 0 ms n.
Proof.
  intros Hp. rewrite structure_size. destruct ms as [|d ms].
  - split; [discriminate|]. intros [H _]; congruence.
  - rewrite laid_out_loop by auto. split; [|tauto]. intros; split; auto; discriminate.
Qed.

Lemma union_size_max m bo ms n :
  get_byte_size (DUnion m bo ms) = Some n <->
  ms <> [] /\ exists sizes, map get_byte_size ms = map Some sizes /\ n = fold_left Z.max sizes 0.
Proof.
  rewrite union_size. destruct ms as [|d ms].
  - split; [discriminate|]. intros [H _]; congruence.
  - rewrite union_loop_spec. split; [|tauto]. intros; split; auto; discriminate.
Qed.

(** ** Classes *)

Lemma char_digit_spec c : char_isdigit c = true <-> In c digits.
Proof.
  split.
  - destruct c as [[] [] [] [] [] [] [] []]; vm_compute; intros H; try discriminate; tauto.
  - cbn. intros H. repeat (destruct H as [<-|H]; [reflexivity|]). destruct H.
Qed.

Lemma char_alpha_spec c : char_isalpha c = true <-> In c letters.
Proof.
  split.
  - destruct c as [[] [] [] [] [] [] [] []]; vm_compute; intros H; try discriminate; tauto.
  - cbn. intros H. repeat (destruct H as [<-|H]; [reflexivity|]). destruct H.
Qed.

Lemma str_forallb_spec p s : str_forallb p s = true <-> Forall (fun c => p c = true) (list_ascii_of_string s).
Proof.
  induction s as [|c s IH]; cbn.
  - split; auto.
  - rewrite andb_true_iff, IH. split; [intros [? ?]; constructor; auto|intros H; inversion H; auto].
Qed.

Lemma is_identifier_spec s : is_identifier s = true <-> identifier s.
Proof.
  unfold identifier. destruct s as [|c s]; cbn [is_identifier].
  - split; [discriminate|]. intros (c & r & H & _). discriminate.
  - rewrite andb_true_iff, negb_true_iff, str_forallb_spec. cbn [list_ascii_of_string].
    assert (Hc : forall x, char_isalnum x || Ascii.eqb x "_" = true <->
                           (In x letters \/ In x digits \/ x = "_"%char)).
    { intros x. unfold char_isalnum. rewrite !orb_true_iff, char_digit_spec, char_alpha_spec, Ascii.eqb_eq.
      tauto. }
    split.
    + intros [Hd Hf]. inversion Hf as [|? ? H1 H2]; subst. exists c, (list_ascii_of_string s).
      split; auto. split.
      * apply Hc in H1. destruct H1 as [|[H1|]]; auto. apply char_digit_spec in H1. congruence.
      * eapply Forall_impl; [|exact H2]. intros a Ha. now apply Hc.
    + intros (c' & r & E & H1 & H2). inversion E; subst. split.
      * destruct (char_isdigit c') eqn:Ed; auto. apply char_digit_spec in Ed.
        assert (X : forall x, In x digits -> In x letters \/ x = "_"%char -> False).
        { cbn. intros x Hx Hy. repeat (destruct Hx as [<-|Hx]; [repeat (destruct Hy as [Hy|Hy]; [discriminate|]);
            try discriminate; intuition discriminate|]). destruct Hx. }
        exfalso. eapply X; eauto.
      * constructor.
        -- apply Hc. tauto.
        -- eapply Forall_impl; [|exact H2]. intros a Ha. now apply Hc.
Qed.

Definition good_member (n : string) : Prop :=
  usable n /\ (forall r, n <> String "_"%char r).

Lemma starts_spec n : starts_with_underscore n = true <-> exists r, n = String "_"%char r.
Proof.
  destruct n as [|c r]; cbn; [split; [discriminate|intros [? ?]; discriminate]|].
  rewrite Ascii.eqb_eq. split; [intros ->; eauto|intros [r' E]; inversion E; auto].
Qed.

Lemma keywords_spec s : str_in s keywords = true <-> In s python_keywords.
Proof.
  assert (A : forall s, In s keywords -> In s python_keywords).
  { intros x H. apply str_in_spec. revert x H. apply Forall_forall. repeat constructor. }
  assert (B : forall s, In s python_keywords -> In s keywords).
  { intros x H. apply str_in_spec. revert x H. apply Forall_forall. repeat constructor. }
  rewrite str_in_spec. split; auto.
Qed.

Lemma validate_members_spec names : forall seen,
  (validate_members seen names = Ok tt <->
   Forall good_member names /\ NoDup names /\ (forall n, In n names -> ~ In n seen)) /\
  (validate_members seen names = Ok tt \/ validate_members seen names = Raise ValueError).
Proof.
  induction names as [|n names IH]; intros seen; cbn [validate_members].
  - split; auto. split; auto. intros _. repeat split; auto; constructor.
  - assert (Hbad : forall P, ~ P -> (Raise ValueError = Ok tt <-> P)) by (intros P HP; split; [discriminate|tauto]).
    unfold good_member, usable.
    destruct (is_identifier n) eqn:E1; cbn [negb].
    2:{ split; auto. apply Hbad. intros (H & _). inversion H as [|? ? [[X _] _] _]; subst.
        apply is_identifier_spec in X. congruence. }
    destruct (starts_with_underscore n) eqn:E2.
    1:{ split; auto. apply Hbad. intros (H & _). inversion H as [|? ? [_ X] _]; subst.
        apply starts_spec in E2 as [r ->]. eapply X; eauto. }
    unfold is_keyword. destruct (str_in n keywords) eqn:E3.
    1:{ split; auto. apply Hbad. intros (H & _). inversion H as [|? ? [[_ X] _] _]; subst.
        apply X. now apply keywords_spec. }
    destruct (str_in n seen) eqn:E4.
    1:{ split; auto. apply Hbad. intros (_ & _ & H). apply (H n); [cbn; auto|]. now apply str_in_spec. }
    destruct (IH (n :: seen)) as [IH1 IH2]. split; [|exact IH2]. rewrite IH1. split.
    + intros (A & B & C). repeat split.
      * constructor; auto. repeat split.
        -- now apply is_identifier_spec.
        -- intros X. apply keywords_spec in X. congruence.
        -- intros r ->. cbn in E2. discriminate.
      * constructor; auto. intros X. apply (C n X). cbn; auto.
      * intros m [<-|Hm].
        -- intros X. apply str_in_spec in X. congruence.
        -- intros X. apply (C m Hm). cbn; auto.
    + intros (A & B & C). inversion A; inversion B; subst. repeat split; auto.
      intros m Hm [<-|X]; auto. eapply C; [cbn; eauto|exact X].
Qed.

Lemma template_member_spec d : template_member d = Ok tt <-> describable d.
Proof.
  assert (R : forall P, ~ P -> (Raise TypeError = Ok tt <-> P)) by (intros P HP; split; [discriminate|tauto]).
  unfold template_member, describable. destruct d; cbn; try tauto.
  - destruct k; cbn; try tauto. destruct (e_data_type e); [split; auto; discriminate|].
    apply R. tauto.
  - destruct d; cbn; try tauto; try (destruct data_type; [split; auto; discriminate|]; apply R; tauto).
    destruct k; cbn; try tauto. destruct (e_data_type e); [split; auto; discriminate|].
    apply R. tauto.
Qed.

Lemma template_member_cases d : template_member d = Ok tt \/ template_member d = Raise TypeError.
Proof.
  unfold template_member. destruct d; cbn; auto.
  - destruct k; cbn; auto. destruct (e_data_type e); auto.
  - destruct d; cbn; auto; try (destruct data_type; auto).
    all: destruct k; cbn; auto; destruct (e_data_type e); auto.
Qed.

Lemma template_members_spec ms :
  (template_members ms = Ok tt <-> Forall describable ms) /\
  (template_members ms = Ok tt \/ template_members ms = Raise TypeError).
Proof.
  induction ms as [|d ms [IH1 IH2]]; cbn.
  - split; auto. split; auto.
  - destruct (template_member_cases d) as [E|E]; rewrite E; cbn.
    + split; auto. rewrite IH1. apply template_member_spec in E. split; [constructor; auto|].
      intros H; now inversion H.
    + split; auto. split; [discriminate|]. intros H. inversion H; subst.
      apply template_member_spec in H2. congruence.
Qed.

Lemma str_nodup_spec l : str_nodup l = true <-> NoDup l.
Proof.
  induction l as [|s l IH]; cbn.
  - split; auto; constructor.
  - rewrite andb_true_iff, negb_true_iff, IH. split.
    + intros [A B]. constructor; auto. intros X. apply str_in_spec in X. congruence.
    + intros H; inversion H; subst. split; auto.
      destruct (str_in s l) eqn:E; auto. apply str_in_spec in E. tauto.
Qed.

(** C40 *)
Lemma class_created name ms :
  let names := map dt_name ms in
  (create_class name ms = Ok name <->
   assignable name /\ names <> [] /\ Forall usable names /\
   Forall (fun n => forall r, n <> String "_"%char r) names /\ NoDup names /\
   Forall describable ms /\ ~ In "self"%string names) /\
  (create_class name ms = Ok name \/ create_class name ms = Raise ValueError \/
   create_class name ms = Raise TypeError \/ create_class name ms = Raise SyntaxError) /\
  (create_class name ms = Raise SyntaxError <->
   usable name /\ names <> [] /\ Forall usable names /\
   Forall (fun n => forall r, n <> String "_"%char r) names /\ NoDup names /\
   Forall describable ms /\ (In "self"%string names \/ name = "__debug__"%string)) /\
  (forall args, Datatypes.length args = Datatypes.length names ->
     new_struct name names args = VStruct name (combine names args)) /\
  (forall args more,
     new_struct name names args = new_struct name names (args ++ repeat VNone more)).
Proof.
  intros names. unfold create_class. fold names.
  assert (Hv : validate_class name names = Ok tt <->
    usable name /\ names <> [] /\ Forall good_member names /\ NoDup names).
  { unfold validate_class, usable. destruct (is_identifier name) eqn:E1; cbn [negb].
    2:{ split; [discriminate|]. intros ((H & _) & _). apply is_identifier_spec in H. congruence. }
    unfold is_keyword. destruct (str_in name keywords) eqn:E2.
    1:{ split; [discriminate|]. intros ((_ & H) & _). exfalso. apply H. now apply keywords_spec. }
    assert (Hu : identifier name /\ ~ In name python_keywords).
    { split; [now apply is_identifier_spec|]. intros X. apply keywords_spec in X. congruence. }
    destruct names as [|n names'].
    - split; [discriminate|]. intros (_ & H & _). congruence.
    - destruct (validate_members_spec (n :: names') []) as [H _]. rewrite H.
      split; [intros (A & B & _)|intros (_ & _ & A & B)]; repeat split; auto; try tauto; discriminate. }
  assert (Hv2 : validate_class name names = Ok tt \/ validate_class name names = Raise ValueError).
  { unfold validate_class. destruct (is_identifier name); cbn [negb]; auto.
    destruct (is_keyword name); auto. destruct names; auto. apply validate_members_spec. }
  assert (Hg : Forall good_member names <-> Forall usable names /\ Forall (fun n => forall r, n <> String "_"%char r) names).
  { unfold good_member. split.
    - intros H. split; eapply Forall_impl; [|exact H| |exact H]; cbn; tauto.
    - intros [A B]. rewrite Forall_forall in *. auto. }
  rewrite Hg in Hv.
  pose proof (template_members_spec ms) as [Ht Ht2].
  assert (Hs : str_nodup (init_parameters names) = true <-> ~ In "self"%string names /\ NoDup names).
  { rewrite str_nodup_spec. unfold init_parameters. rewrite NoDup_cons_iff. tauto. }
  assert (Hs2 : str_nodup (init_parameters names) && negb (String.eqb name "__debug__") = true <->
    (~ In "self"%string names /\ NoDup names) /\ name <> "__debug__"%string).
  { rewrite andb_true_iff, Hs, negb_true_iff, String.eqb_neq. tauto. }
  unfold assignable. clear Hs. set (fine := str_nodup _ && _) in *. clearbody fine.
  split; [|split; [|split; [|split]]].
  - destruct Hv2 as [E|E]; rewrite E; cbn [bind].
    2:{ split; [discriminate|]. intros (A & B & C & D & F & _).
        assert (validate_class name names = Ok tt) by tauto. congruence. }
    destruct Ht2 as [E2|E2]; rewrite E2; cbn [bind].
    2:{ split; [discriminate|]. intros (_ & _ & _ & _ & _ & G & _).
        assert (template_members ms = Ok tt) by tauto. congruence. }
    destruct fine.
    + tauto.
    + split; [discriminate|]. intros ((_ & Z) & _ & _ & _ & A & _ & B).
      assert (false = true) by tauto. discriminate.
  - destruct Hv2 as [E|E]; rewrite E; cbn [bind]; auto.
    destruct Ht2 as [E2|E2]; rewrite E2; cbn [bind]; auto.
    destruct fine; auto.
  - destruct Hv2 as [E|E]; rewrite E; cbn [bind].
    2:{ split; [discriminate|]. intros (A & B & C & D & F & _ & G).
        assert (validate_class name names = Ok tt) by tauto. congruence. }
    destruct Ht2 as [E2|E2]; rewrite E2; cbn [bind].
    2:{ split; [discriminate|]. intros (_ & _ & _ & _ & _ & G & _).
        assert (template_members ms = Ok tt) by tauto. congruence. }
    destruct fine.
    + split; [discriminate|]. intros (_ & _ & _ & _ & _ & _ & A). tauto.
    + split; [|auto]. intros _. rewrite E in Hv. rewrite E2 in Ht.
      assert (NoDup names) by tauto.
      destruct (in_dec string_dec "self"%string names), (string_dec name "__debug__"); try tauto.
      assert (false = true) by tauto. discriminate.
  - intros args. unfold new_struct. intros H. f_equal. revert args H. clear.
    induction names as [|n names IH]; intros [|a args] H; cbn in *; try discriminate; auto.
    now rewrite IH by lia.
  - intros args more. unfold new_struct. f_equal. revert args more. clear.
    induction names as [|n names IH]; intros args more; cbn; auto.
    destruct args as [|a args]; cbn.
    + destruct more as [|more]; cbn; auto. rewrite (IH [] more). reflexivity.
    + rewrite <- IH. reflexivity.
Qed.
