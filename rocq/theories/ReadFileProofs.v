(** Proofs about reading files: the registry after reading. *)
From Coq Require Import String Ascii List ZArith Bool Lia.
From Verif Require Import Base Ieee Yaml DataTypes Reader Validator SpecReader ReaderProofs
  ReaderTotal.
Import ListNotations.
Open Scope Z_scope.

(** * Registration *)

Lemma assoc_set_new : forall A k (v : A) l, assoc k l = None -> assoc_set k v l = l ++ [(k, v)].
Proof.
  intros A k v l. induction l as [|[k' v'] l IH]; cbn; [reflexivity|].
  destruct (y_eqb k k'); [discriminate|]. intros H. rewrite (IH H). reflexivity.
Qed.

Lemma assoc_set_in : forall A k (v : A) l p, In p (assoc_set k v l) ->
  In p l \/ (snd p = v /\ (fst p = k \/ exists v', In (fst p, v') l /\ y_eqb k (fst p) = true)).
Proof.
  intros A k v l. induction l as [|[k' v'] l IH]; intros p H; cbn in H.
  - destruct H as [<-|[]]. right. auto.
  - destruct (y_eqb k k') eqn:E.
    + destruct H as [<-|H].
      * right. cbn. split; [reflexivity|]. right. exists v'. auto.
      * left. right. exact H.
    + destruct H as [<-|H]; [left; left; reflexivity|].
      destruct (IH _ H) as [I|[E1 [E2|[w [I Q]]]]].
      * left. right. exact I.
      * right. auto.
      * right. split; [exact E1|]. right. exists w. split; [right; exact I|exact Q].
Qed.

Lemma raise_key_ok : forall A v (a : A), raise_key v <> Ok a.
Proof. intros A [] a; discriminate. Qed.

Lemma check_aliases_ok : forall known l, check_aliases known l = Ok tt ->
  Forall (fun a => assoc a known = None) l.
Proof.
  intros known l. induction l as [|a l IH]; intros H; cbn in H; [constructor|].
  destruct (y_hashable a); cbn in H; [|discriminate H].
  unfold assoc_mem in H. destruct (assoc a known) eqn:E.
  - exfalso. exact (raise_key_ok _ _ _ H).
  - constructor; auto.
Qed.

Lemma rregister_ok : forall env r d r', rregister env r d = Ok r' ->
  exists k l, y_lower env (rd_name d) = Ok k
  /\ assoc k (rg_definitions r) = None
  /\ rg_definitions r' = rg_definitions r ++ [(k, d)]
  /\ y_iter (rd_aliases d) = Ok l
  /\ Forall (fun a => assoc a (rg_aliases r) = None) l
  /\ rg_aliases r' = fold_left (fun al a => assoc_set a k al) l (rg_aliases r).
Proof.
  intros env r d r' H. unfold rregister in H.
  destruct (y_lower env (rd_name d)) as [k|e|] eqn:E; cbn [bind] in H; try discriminate H.
  unfold assoc_mem at 1 in H.
  destruct (assoc k (rg_definitions r)) eqn:A; [exfalso; exact (raise_key_ok _ _ _ H)|].
  destruct (assoc_mem (rd_name d) _); [exfalso; exact (raise_key_ok _ _ _ H)|].
  destruct (y_iter (rd_aliases d)) as [l|e|] eqn:I; cbn [bind] in H; try discriminate H.
  destruct (check_aliases (rg_aliases r) l) as [[]|e|] eqn:C; cbn [bind] in H; try discriminate H.
  injection H as <-. exists k, l. cbn. repeat split; try assumption.
  - apply assoc_set_new, A.
  - apply check_aliases_ok, C.
Qed.

Lemma registered_snoc : forall env r d r', rregister env r d = Ok r' ->
  registered r' = registered r ++ [d].
Proof.
  intros env r d r' H. apply rregister_ok in H. destruct H as [k [l [_ [_ [E _]]]]].
  unfold registered. rewrite E, map_app. reflexivity.
Qed.

(** * Documents read one after the other *)

Inductive reads (env : yenv) : rreg -> list yval -> list rdef -> rreg -> Prop :=
| ReadsNil : forall r, reads env r [] [] r
| ReadsCons : forall r doc docs d ds r1 r',
    read_definition env r doc = ROk d -> rregister env r d = Ok r1 ->
    reads env r1 docs ds r' -> reads env r (doc :: docs) (d :: ds) r'.

(** A document is not registered, with the exception that ends the reading. *)
Definition doc_fails (env : yenv) (r : rreg) (doc : yval) (x : exc) : Prop :=
  (exists n, read_definition env r doc = RErr (DefErr n) /\ x = format_error n)
  \/ read_definition env r doc = RErr (Err x)
  \/ exists d, read_definition env r doc = ROk d /\ rregister env r d = Raise x.

Lemma last_cons : forall A (a x : A) l, List.last (a :: l) x = List.last l a.
Proof.
  intros A a x l. revert a x. induction l as [|b l IH]; intros a x; [reflexivity|].
  change (List.last (b :: l) x = List.last (b :: l) a). rewrite !IH. reflexivity.
Qed.

Lemma read_docs_split : forall env docs r last e out r',
  read_docs env r last docs e = (out, r') ->
  exists n ds, (n <= List.length docs)%nat /\ reads env r (firstn n docs) ds r'
  /\ ((n = List.length docs /\
       out = match e with
             | YEnd => Ok tt
             | YScan => Raise (scan_error (List.last (map Some ds) last))
             | YFail x => Raise x
             end)
      \/ exists doc x, nth_error docs n = Some doc /\ doc_fails env r' doc x /\ out = Raise x).
Proof.
  intros env docs. induction docs as [|doc docs IH]; intros r last e out r' H;
    cbn [read_docs] in H.
  - exists O, []. destruct e; injection H as <- <-; (split; [apply Nat.le_refl|]);
      (split; [constructor|]); left; auto.
  - assert (Stop : forall x, doc_fails env r doc x -> (out, r') = (Raise x, r) ->
      exists n ds, (n <= List.length (doc :: docs))%nat
      /\ reads env r (firstn n (doc :: docs)) ds r'
      /\ ((n = List.length (doc :: docs) /\
           out = match e with
                 | YEnd => Ok tt
                 | YScan => Raise (scan_error (List.last (map Some ds) last))
                 | YFail x => Raise x
                 end)
          \/ exists doc' x, nth_error (doc :: docs) n = Some doc' /\ doc_fails env r' doc' x
             /\ out = Raise x)).
    { intros x F E. injection E as -> ->. exists O, []. split; [cbn; lia|].
      split; [constructor|]. right. exists doc, x. auto. }
    destruct (read_definition env r doc) as [d|[n|x]|] eqn:E.
    + destruct (rregister env r d) as [r1|x|] eqn:G.
      * apply IH in H. destruct H as [n [ds [L [R O]]]]. exists (S n), (d :: ds).
        split; [cbn; lia|]. split; [cbn; econstructor; eassumption|].
        destruct O as [[-> O]|[doc' [x [N [F O]]]]].
        -- left. split; [reflexivity|]. rewrite O. destruct e; [reflexivity| |reflexivity].
           f_equal. f_equal. cbn [map]. symmetry. apply last_cons.
        -- right. exists doc', x. auto.
      * apply (Stop x); [|exact (eq_sym H)]. right. right. exists d. auto.
      * exfalso. exact (register_total _ _ _ G).
    + apply (Stop (format_error n)); [left; exists n; auto|exact (eq_sym H)].
    + apply (Stop x); [right; left; auto|exact (eq_sym H)].
    + exfalso. exact (read_definition_total _ _ _ E).
Qed.

(** What each step establishes holds of all the definitions read. *)
Lemma reads_nth : forall env (I : rreg -> Prop) (P : list rdef -> yval -> rdef -> Prop),
  (forall r doc d, I r -> read_definition env r doc = ROk d -> P (registered r) doc d) ->
  (forall r doc d r', I r -> P (registered r) doc d -> rregister env r d = Ok r' -> I r') ->
  forall r docs ds r', reads env r docs ds r' -> I r ->
    I r' /\ registered r' = registered r ++ ds /\ List.length ds = List.length docs
    /\ forall i d, nth_error ds i = Some d ->
         exists doc, nth_error docs i = Some doc /\ P (registered r ++ firstn i ds) doc d.
Proof.
  intros env I P HP HI r docs ds r' H. induction H as [r|r doc docs d ds r1 r' R G H IH]; intros Ir.
  - rewrite app_nil_r. repeat split; try assumption. intros [|i] d Hd; discriminate Hd.
  - pose proof (HP _ _ _ Ir R) as Pd. specialize (IH (HI _ _ _ _ Ir Pd G)).
    destruct IH as [Ir' [E [L N]]]. rewrite (registered_snoc _ _ _ _ G) in E, N.
    rewrite <- app_assoc in E. split; [exact Ir'|]. split; [exact E|]. split; [cbn; lia|].
    intros [|i] x Hx; cbn in Hx.
    + injection Hx as <-. exists doc. cbn. rewrite app_nil_r. auto.
    + destruct (N _ _ Hx) as [doc' [N1 N2]]. exists doc'. split; [exact N1|].
      cbn [firstn]. rewrite <- app_assoc in N2. exact N2.
Qed.

(** * Every definition read is well formed (C36) *)

Lemma reads_well_formed : forall env r docs ds r',
  reads env r docs ds r' -> Forall well_formed (registered r) ->
  Forall well_formed (registered r').
Proof.
  intros env r docs ds r' H W.
  apply (reads_nth env (fun r => Forall well_formed (registered r)) (fun _ _ => well_formed))
    in H; [exact (proj1 H)| | |exact W].
  - intros r0 doc d R E. exact (proj1 (read_definition_ok _ _ _ _ R E)).
  - intros r0 doc d r1 R Wd G. rewrite (registered_snoc _ _ _ _ G).
    apply Forall_app. split; [exact R|]. constructor; [exact Wd|constructor].
Qed.

Theorem read_well_formed : forall env r docs e out r',
  Forall well_formed (registered r) ->
  read_docs env r None docs e = (out, r') ->
  Forall well_formed (registered r').
Proof.
  intros env r docs e out r' W H. apply read_docs_split in H.
  destruct H as [n [ds [_ [R _]]]]. exact (reads_well_formed _ _ _ _ _ R W).
Qed.

Theorem file_well_formed : forall env f out r,
  read_file env rreg_empty f = (out, r) -> Forall well_formed (registered r).
Proof.
  intros env [[docs e]|] out r H; cbn in H.
  - refine (read_well_formed _ rreg_empty _ _ _ _ _ H). constructor.
  - injection H as <- <-. constructor.
Qed.

(** * Reading is a prefix operation (C38) *)

Lemma read_elements_name : forall env r values name supported e elem,
  read_elements env r values name supported = ROk (e, elem) -> rm_name (re_meta e) = name.
Proof.
  intros env r values name supported e elem H. unfold read_elements in H. inv_rd.
  match goal with H : match ?o with Some _ => _ | None => _ end = ROk _ |- _ =>
    destruct o; inv_rd end.
  cbn. eapply read_meta_ok. eassumption.
Qed.

Lemma read_fixed_name : forall env values name attrs ds cs b sizes f,
  read_fixed env values name attrs ds cs b sizes = ROk f -> rm_name (rf_meta f) = name.
Proof.
  intros env values name attrs ds cs b sizes f H. unfold read_fixed in H. inv_rd.
  destruct x as [m bo]. apply read_storage_ok in E. destruct E as [_ [N _]].
  destruct (y_truthy x0); inv_rd; (reflexivity || exact N).
Qed.

Lemma callback_name : forall env r rm k values name b d,
  callback env r rm k values name b = ROk d -> rd_name d = name.
Proof.
  assert (M : forall values name m, read_meta values name = ROk m -> rm_name m = name)
    by exact read_meta_ok.
  intros env r rm k values name b d H. destruct k; cbn [callback] in H.
  - unfold read_boolean in H. inv_rd. eapply read_fixed_name. eassumption.
  - unfold read_character in H. inv_rd. eapply read_fixed_name. eassumption.
  - apply read_constant_ok in H. apply H.
  - apply read_enumeration_ok in H. apply H.
  - unfold read_float in H. inv_rd. eapply read_fixed_name. eassumption.
  - apply read_format_ok in H. apply H.
  - unfold read_integer in H. inv_rd. destruct (y_truthy x0); inv_rd;
      eapply read_fixed_name; eassumption.
  - apply read_padding_ok in H. apply H.
  - destruct k; unfold read_elems in H; inv_rd;
      match goal with H : read_elements _ _ _ _ _ = ROk ?p |- _ =>
        destruct p; unfold rd_name; cbn [rd_meta re_meta fst];
        eapply read_elements_name; eassumption end.
  - destruct b; inv_rd. destruct x as [[[m bo] ss] ms]. inv_rd.
    unfold read_with_members in E. inv_rd.
    match goal with T : read_data_type _ _ _ = _ |- _ => apply read_data_type_ok in T end.
    tauto.
  - unfold read_family in H. destruct b; inv_rd.
    match goal with H : match ?o with Some _ => _ | None => _ end = ROk _ |- _ =>
      destruct o; inv_rd end. eapply M. eassumption.
  - unfold read_group in H. destruct b; inv_rd.
    match goal with H : match ?o with Some _ => _ | None => _ end = ROk _ |- _ =>
      destruct o; inv_rd end. eapply M. eassumption.
  - inv_rd. destruct x as [[[m bo] ss] ms]. inv_rd.
    unfold read_with_members in E. inv_rd.
    match goal with T : read_data_type _ _ _ = _ |- _ => apply read_data_type_ok in T end.
    tauto.
  - unfold read_uuid in H. inv_rd. eapply read_fixed_name. eassumption.
Qed.

Lemma reads_named : forall env r docs ds r', reads env r docs ds r' ->
  registered r' = registered r ++ ds
  /\ Forall2 (fun doc d => entry doc "name" (rd_name d)) docs ds.
Proof.
  intros env r docs ds r' H. induction H as [r|r doc docs d ds r1 r' R G H [E F]].
  - rewrite app_nil_r. split; [reflexivity|constructor].
  - rewrite E, (registered_snoc _ _ _ _ G), <- app_assoc. split; [reflexivity|].
    constructor; [|exact F]. clear -R. unfold read_definition in R.
    destruct (negb (y_truthy doc)); [discriminate R|].
    apply rbind_ok in R. destruct R as [name [N R]]. apply lift_ok in N.
    destruct (negb (y_truthy name)) eqn:T; [discriminate R|]. apply negb_false_iff in T.
    apply rbind_ok in R. destruct R as [ti [_ R]].
    destruct (negb (y_truthy ti)); [discriminate R|].
    apply rbind_ok in R. destruct R as [[k|] [_ R]]; [|exfalso; exact (raise_def_ok _ _ _ _ R)].
    apply callback_name in R. rewrite R. apply y_get_entry; [exact N|apply y_truthy_null, T].
Qed.

Lemma read_docs_app : forall env a b r last e r1 ds,
  reads env r a ds r1 ->
  read_docs env r last (a ++ b) e = read_docs env r1 (List.last (map Some ds) last) b e.
Proof.
  intros env a b r last e r1 ds H. revert last.
  induction H as [r|r doc docs d ds r2 r1 R G H IH]; intros last; [reflexivity|].
  cbn [app read_docs]. rewrite R, G, IH. f_equal.
  cbn [map]. symmetry. apply last_cons.
Qed.

Lemma doc_fails_stops : forall env r doc x last rest e,
  doc_fails env r doc x -> read_docs env r last (doc :: rest) e = (Raise x, r).
Proof.
  intros env r doc x last rest e [[n [H ->]]|[H|[d [H G]]]]; cbn [read_docs]; rewrite H;
    [reflexivity|reflexivity|]. rewrite G. reflexivity.
Qed.

Lemma firstn_S_nth : forall A n (l : list A) a,
  nth_error l n = Some a -> firstn (S n) l = firstn n l ++ [a].
Proof.
  intros A n. induction n as [|n IH]; intros [|x l] a H; cbn in H; try discriminate H.
  - injection H as <-. reflexivity.
  - change (x :: firstn (S n) l = x :: firstn n l ++ [a]). rewrite (IH _ _ H). reflexivity.
Qed.

Theorem reading_prefix : forall env r docs e out r',
  read_file env r (Some (docs, e)) = (out, r') ->
  exists n ds,
    (n <= List.length docs)%nat
    /\ registered r' = registered r ++ ds
    /\ Forall2 (fun doc d => entry doc "name" (rd_name d)) (firstn n docs) ds
    /\ read_file env r (Some (firstn n docs, YEnd)) = (Ok tt, r')
    /\ ((n < List.length docs)%nat ->
        exists x, out = Raise x
        /\ forall rest e', read_file env r (Some (firstn (S n) docs ++ rest, e')) = (out, r'))
    /\ (n = List.length docs ->
        match e with
        | YEnd => out = Ok tt
        | YScan => exists x, out = Raise x
        | YFail x => out = Raise x
        end).
Proof.
  intros env r docs e out r' H. cbn [read_file] in *. apply read_docs_split in H.
  destruct H as [n [ds [L [R O]]]]. exists n, ds. split; [exact L|].
  destruct (reads_named _ _ _ _ _ R) as [E F]. split; [exact E|]. split; [exact F|].
  split; [|split].
  - rewrite <- (app_nil_r (firstn n docs)), (read_docs_app _ _ [] _ None _ _ _ R). reflexivity.
  - intros Lt. destruct O as [[-> _]|[doc [x [N [D ->]]]]]; [lia|].
    exists x. split; [reflexivity|]. intros rest e'.
    rewrite (firstn_S_nth _ _ _ _ N), <- app_assoc, (read_docs_app _ _ _ _ None _ _ _ R).
    apply doc_fails_stops, D.
  - intros ->. destruct O as [[_ ->]|[doc [x [N _]]]].
    + destruct e; [reflexivity|eexists; reflexivity|reflexivity].
    + assert (nth_error docs (List.length docs) <> None) as C by congruence.
      apply nth_error_Some in C. lia.
Qed.

(** Reading the concatenation of two files. *)
Theorem reading_concatenation : forall env r a b e r1,
  read_file env r (Some (a, YEnd)) = (Ok tt, r1) ->
  (b <> [] \/ e <> YScan) ->
  read_file env r (Some (a ++ b, e)) = read_file env r1 (Some (b, e)).
Proof.
  intros env r a b e r1 H C. cbn [read_file] in *. apply read_docs_split in H.
  destruct H as [n [ds [L [R O]]]].
  destruct O as [[-> _]|[doc [x [_ [_ O]]]]]; [|discriminate O].
  rewrite firstn_all in R. rewrite (read_docs_app _ _ _ _ None _ _ _ R).
  destruct b as [|doc b]; [|reflexivity].
  destruct C as [C|C]; [congruence|]. destruct e; [reflexivity|congruence|reflexivity].
Qed.

Theorem reading_stops : forall env r a b e e' x r1,
  read_file env r (Some (a, YEnd)) = (Raise x, r1) ->
  read_file env r (Some (a ++ b, e)) = (Raise x, r1)
  /\ read_file env r (Some (a, e')) = (Raise x, r1).
Proof.
  intros env r a b e e' x r1 H. cbn [read_file] in *. apply read_docs_split in H.
  destruct H as [n [ds [L [R O]]]].
  destruct O as [[_ O]|[doc [y [N [D O]]]]]; [discriminate O|]. injection O as <-.
  assert (E : exists rest, a = firstn n a ++ doc :: rest).
  { exists (skipn (S n) a). rewrite <- (firstn_skipn n a) at 1. f_equal.
    clear -N. revert a N. induction n as [|n IH]; intros [|z a] N; cbn in N; try discriminate N.
    - injection N as <-. reflexivity.
    - apply (IH _ N). }
  destruct E as [rest E].
  assert (G : forall more e0, read_docs env r None (a ++ more) e0 = (Raise x, r1)).
  { intros more e0. rewrite E, <- app_assoc, (read_docs_app _ _ _ _ None _ _ _ R).
    apply doc_fails_stops, D. }
  split; [apply G|]. rewrite <- (app_nil_r a). apply G.
Qed.

(** * The validator (C41) *)

Theorem validator_file : forall env f,
  (check_file env f = Ok true <-> fst (read_file env rreg_empty f) = Ok tt)
  /\ (check_file env f = Ok false <->
      fst (read_file env rreg_empty f) = Raise FormatError
      \/ fst (read_file env rreg_empty f) = Raise KeyError)
  /\ (forall x, check_file env f = Raise x <->
      fst (read_file env rreg_empty f) = Raise x /\ x <> FormatError /\ x <> KeyError).
Proof.
  intros env f. unfold check_file.
  assert (T : fst (read_file env rreg_empty f) <> OutOfFuel).
  { destruct f as [[docs e]|]; cbn [read_file]; [apply read_docs_total|discriminate]. }
  destruct (fst (read_file env rreg_empty f)) as [[]|x|]; [| |congruence].
  - repeat split; try congruence; intros H; try (destruct H; congruence).
  - destruct x; repeat split; intros; try discriminate; auto;
      repeat match goal with
      | H : _ \/ _ |- _ => destruct H
      | H : _ /\ _ |- _ => destruct H
      end; congruence.
Qed.

Lemma check_directory_ok : forall env files b,
  (forall f, In f files -> exists ok, check_file env f = Ok ok) ->
  fold_left (fun acc f =>
    let* result := acc in
    let* ok := check_file env f in
    Ok (if ok then result else false)) files (Ok b)
  = Ok (b && forallb (fun f => match check_file env f with Ok c => c | _ => false end) files).
Proof.
  intros env files. induction files as [|f files IH]; intros b H; cbn [fold_left forallb].
  - rewrite andb_true_r. reflexivity.
  - destruct (H f (or_introl eq_refl)) as [ok E]. rewrite E. cbn [bind].
    rewrite IH by (intros g Hg; apply H; right; exact Hg).
    f_equal. destruct ok, b; reflexivity.
Qed.

Lemma check_directory_raise : forall env files e,
  fold_left (fun acc f =>
    let* result := acc in
    let* ok := check_file env f in
    Ok (if ok then result else false)) files (Raise e) = Raise e.
Proof. intros env files e. induction files as [|f files IH]; [reflexivity|exact IH]. Qed.

(** The files before the first one that raises are all checked. *)
Theorem validator_directory : forall env files,
  (check_directory env files = Ok true <->
     forall f, In f files -> check_file env f = Ok true)
  /\ (check_directory env files = Ok false <->
     (forall f, In f files -> exists ok, check_file env f = Ok ok)
     /\ exists f, In f files /\ check_file env f = Ok false)
  /\ (forall x, check_directory env files = Raise x <->
     exists before f after, files = before ++ f :: after
     /\ (forall g, In g before -> exists ok, check_file env g = Ok ok)
     /\ check_file env f = Raise x).
Proof.
  intros env files.
  assert (T : forall f, check_file env f <> OutOfFuel).
  { intros f C. destruct (validator_file env f) as [_ _]. unfold check_file in C.
    destruct (fst (read_file env rreg_empty f)) as [[]|x|] eqn:Q; [discriminate C| |].
    - destruct x; discriminate C.
    - destruct f as [[docs e]|]; cbn [read_file] in Q; [|discriminate Q].
      exact (read_docs_total _ _ _ _ _ Q). }
  assert (D : (forall f, In f files -> exists ok, check_file env f = Ok ok) \/
    exists before f after x, files = before ++ f :: after
    /\ (forall g, In g before -> exists ok, check_file env g = Ok ok)
    /\ check_file env f = Raise x).
  { clear -T. induction files as [|f files IH]; [left; intros f []|].
    destruct (check_file env f) as [ok|x|] eqn:E.
    - destruct IH as [A|[b [g [a [x [-> [B C]]]]]]].
      + left. intros g [<-|Hg]; [exists ok; exact E|exact (A g Hg)].
      + right. exists (f :: b), g, a, x. split; [reflexivity|]. split; [|exact C].
        intros h [<-|Hh]; [exists ok; exact E|exact (B h Hh)].
    - right. exists [], f, files, x. split; [reflexivity|]. split; [intros g []|exact E].
    - exfalso. exact (T _ E). }
  assert (U : forall b1 f1 a1 x1 b2 f2 a2 x2,
    b1 ++ f1 :: a1 = b2 ++ f2 :: a2 ->
    (forall g, In g b1 -> exists ok, check_file env g = Ok ok) -> check_file env f1 = Raise x1 ->
    (forall g, In g b2 -> exists ok, check_file env g = Ok ok) -> check_file env f2 = Raise x2 ->
    x1 = x2).
  { clear. intros b1. induction b1 as [|g1 b1 IH]; intros f1 a1 x1 [|g2 b2] f2 a2 x2 E B1 E1 B2 E2.
    - injection E as -> _. congruence.
    - injection E as -> _. destruct (B2 g2 (or_introl eq_refl)) as [ok Q]. congruence.
    - injection E as -> _. destruct (B1 f2 (or_introl eq_refl)) as [ok Q]. congruence.
    - injection E as -> E. eapply IH; [exact E| |exact E1| |exact E2].
      + intros g Hg. apply B1. right. exact Hg.
      + intros g Hg. apply B2. right. exact Hg. }
  unfold check_directory. destruct D as [A|[b [f [a [x [-> [B C]]]]]]].
  - rewrite (check_directory_ok _ _ _ A). cbn [andb]. split; [|split].
    + split.
      * intros H f Hf. injection H as H. rewrite forallb_forall in H. specialize (H f Hf).
        destruct (A f Hf) as [ok E]. rewrite E in H |- *. congruence.
      * intros H. f_equal. apply forallb_forall. intros f Hf. rewrite (H f Hf). reflexivity.
    + split.
      * intros H. split; [exact A|]. injection H as H.
        assert (Q : forall l, (forall f, In f l -> exists ok, check_file env f = Ok ok) ->
          forallb (fun f => match check_file env f with Ok c => c | _ => false end) l = false ->
          exists f, In f l /\ check_file env f = Ok false).
        { clear. induction l as [|f l IH]; intros A H; cbn in H; [discriminate H|].
          destruct (A f (or_introl eq_refl)) as [ok E]. rewrite E in H. destruct ok.
          - destruct (IH (fun g Hg => A g (or_intror Hg)) H) as [g [Hg Eg]]. exists g.
            split; [right; exact Hg|exact Eg].
          - exists f. split; [left; reflexivity|exact E]. }
        exact (Q _ A H).
      * intros [_ [f [Hf E]]]. f_equal. apply not_true_is_false. intros H.
        rewrite forallb_forall in H. specialize (H f Hf). rewrite E in H. discriminate H.
    + intros x. split; [discriminate|]. intros [b [f [a [-> [_ E]]]]].
      destruct (A f) as [ok Q]; [apply in_or_app; right; left; reflexivity|]. congruence.
  - rewrite fold_left_app, (check_directory_ok _ _ _ B). cbn [fold_left bind]. rewrite C.
    cbn [bind]. rewrite check_directory_raise. split; [|split].
    + split; [discriminate|]. intros H. specialize (H f).
      rewrite H in C by (apply in_or_app; right; left; reflexivity). discriminate C.
    + split; [discriminate|]. intros [H _].
      destruct (H f) as [ok Q]; [apply in_or_app; right; left; reflexivity|]. congruence.
    + intros y. split.
      * intros H. injection H as <-. exists b, f, a. auto.
      * intros [b' [f' [a' [E [B' C']]]]]. f_equal. exact (U _ _ _ _ _ _ _ _ E B C B' C').
Qed.
