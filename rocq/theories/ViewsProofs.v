(** Numbers of different types that lie in the same bytes. *)
From Coq Require Import String List ZArith Bool Lia.
From Verif Require Import Base Ieee PyVal PyStruct DataTypes ClassFactory DataMaps.
From Verif Require Import SpecPrim SpecMap SpecCreate SpecReads SpecViews BytesProofs PrimProofs IeeeProofs FoldProofs ReadsProofs FitProofs.
Import ListNotations.
Open Scope Z_scope.
#[local] Arguments Z.add : simpl never.
#[local] Arguments Z.mul : simpl never.
#[local] Arguments Z.pow : simpl never.
#[local] Arguments Z.sub : simpl never.

Lemma sized_unique f n k : sized f n -> sized f k -> k = n.
Proof. intros [A _] [B _]. congruence. Qed.

Lemma fixed_regular f n d : sized f n -> 0 < n ->
  (exists u, d = DInteger f u) \/ d = DFloat f \/ (exists fv tv, d = DBoolean f fv tv) \/ d = DCharacter f ->
  everywhere regular d.
Proof.
  intros S P [(u & ->)|[->|[(fv & tv & ->)| ->]]]; cbn [everywhere]; unfold regular, sound, orderly; cbn;
    rewrite (sized_byte_size _ _ S); repeat split; auto; intros k K; inversion K; lia.
Qed.

Lemma reads_integer orc bs f u n off vals v k : In n [1; 2; 4; 8] -> sized f n ->
  (reads orc bs (DInteger f u) off vals v k <->
   k = n /\ off + n <= len bs /\
   v = VInt (stored_integer (negb u) (order_on (o_host orc) (f_bo f)) (window bs off n))).
Proof.
  intros I S. split.
  - intros R. inversion R; subst. match goal with H : sized f k |- _ => pose proof (sized_unique _ _ _ S H); subst k end. auto.
  - intros (-> & L & ->). constructor; auto.
Qed.

Lemma reads_character orc bs f n off vals v k : In n [1; 2; 4] -> sized f n ->
  (reads orc bs (DCharacter f) off vals v k <->
   k = n /\ off + n <= len bs /\
   let z := stored_integer true (order_on (o_host orc) (f_bo f)) (window bs off n) in code_point z /\ v = VStr [z]).
Proof.
  intros I S. split.
  - intros R. inversion R; subst. match goal with H : sized f k |- _ => pose proof (sized_unique _ _ _ S H); subst k end. auto.
  - intros (-> & L & C & ->). econstructor; eauto.
Qed.

Lemma reads_boolean orc bs f fv tv n off vals v k : In n [1; 2; 4] -> sized f n ->
  (reads orc bs (DBoolean f fv tv) off vals v k <->
   k = n /\ off + n <= len bs /\
   let z := stored_number (order_on (o_host orc) (f_bo f)) (window bs off n) in
   exists b : bool, v = VBool b /\ if b then stands_for_true fv tv z else stands_for_false fv tv z).
Proof.
  intros I S. split.
  - intros R. inversion R; subst. match goal with H : sized f k |- _ => pose proof (sized_unique _ _ _ S H); subst k end. eauto.
  - intros (-> & L & b & -> & B). constructor; auto.
Qed.

Ltac regular_fixed :=
  match goal with
  | S : sized ?f ?n |- everywhere regular (DInteger ?f _) => apply (fixed_regular f n); [exact S|lia|left; eexists; reflexivity]
  | S : sized ?f ?n |- everywhere regular (DFloat ?f) => apply (fixed_regular f n); [exact S|lia|right; left; reflexivity]
  | S : sized ?f ?n |- everywhere regular (DBoolean ?f _ _) => apply (fixed_regular f n); [exact S|lia|right; right; left; do 2 eexists; reflexivity]
  | S : sized ?f ?n |- everywhere regular (DCharacter ?f) => apply (fixed_regular f n); [exact S|lia|right; right; right; reflexivity]
  end.

Lemma mapped_reads orc d m bs off vals depth v n :
  extensional orc -> everywhere regular d -> levels d = 0 -> create orc d None = Ok (Some m) -> 0 <= off <= len bs -> depth <= 11 ->
  ((exists fuel, SpecMap.maps orc fuel m bs off vals depth v n) <-> reads orc bs d off vals v n).
Proof. intros X R L C O D. symmetry. apply reading_maps; auto. lia. Qed.

(** C85: signed and unsigned. *)
Lemma views_sign orc f f' n m m' bs off vals depth z :
  extensional orc -> In n [1; 2; 4; 8] -> sized f n -> sized f' n -> same_order (o_host orc) f f' ->
  create orc (DInteger f true) None = Ok (Some m) -> create orc (DInteger f' false) None = Ok (Some m') ->
  0 <= off <= len bs -> depth <= 11 ->
  ((exists fuel, SpecMap.maps orc fuel m bs off vals depth (VInt z) n) <->
   0 <= z < 2 ^ (8 * n) /\ exists fuel, SpecMap.maps orc fuel m' bs off vals depth (VInt (twos_complement n z)) n).
Proof.
  intros X I S S' O C C' Ho D.
  assert (P : 0 < n) by (cbn in I; intuition lia).
  rewrite (mapped_reads orc (DInteger f true)), (mapped_reads orc (DInteger f' false)); auto; try regular_fixed.
  rewrite (reads_integer orc bs f true n), (reads_integer orc bs f' false n) by auto. unfold same_order in O. rewrite <- O.
  cbn [negb stored_integer].
  split.
  - intros (_ & L & E). inversion E as [E']. split; [|split; [auto|split; [auto|]]].
    + apply stored_number_range. apply len_window; lia.
    + unfold stored_integer. now rewrite len_window by lia.
  - intros (B & _ & L & E). split; [auto|split; [auto|]]. f_equal. unfold stored_integer in E. rewrite len_window in E by lia.
    inversion E as [E']. clear E.
    pose proof (stored_number_range (order_on (o_host orc) (f_bo f)) (window bs off n) n ltac:(apply len_window; lia)) as B'.
    unfold twos_complement in E'.
    destruct (z <? 2 ^ (8 * n - 1)) eqn:E1, (stored_number (order_on (o_host orc) (f_bo f)) (window bs off n) <? 2 ^ (8 * n - 1)) eqn:E2;
      rewrite ?Z.ltb_lt, ?Z.ltb_ge in *; lia.
Qed.

(** C85: halves. *)
Lemma halves_number en (bs : bytes) off n : 0 <= off -> 0 < n -> off + 2 * n <= len bs ->
  stored_number en (window bs off (2 * n)) =
  stored_number en (window bs (high_half en off n) n) * 2 ^ (8 * n) + stored_number en (window bs (low_half en off n) n).
Proof.
  intros O P L.
  assert (W : window bs off (2 * n) = window bs off n ++ window bs (off + n) n).
  { replace (2 * n) with (n + n) by lia. apply window_plus; lia. }
  assert (N : forall a b : bytes, len b = n -> msb_number (a ++ b) = msb_number a * 2 ^ (8 * n) + msb_number b).
  { intros a b <-. unfold msb_number. rewrite fold_left_app, msb_number_app. f_equal. f_equal.
    replace 256 with (2 ^ 8) by reflexivity. rewrite <- Z.pow_mul_r; [reflexivity|lia|apply len_nonneg]. }
  rewrite W. destruct en; cbn [stored_number high_half low_half].
  all: try (rewrite rev_app_distr).
  all: rewrite N; auto; unfold len; rewrite ?rev_length; fold (len (window bs off n)); fold (len (window bs (off + n) n)); apply len_window; lia.
Qed.

Lemma twos_complement_high n a b : 0 < n -> 0 <= a < 2 ^ (8 * n) -> 0 <= b < 2 ^ (8 * n) ->
  twos_complement (2 * n) (a * 2 ^ (8 * n) + b) = twos_complement n a * 2 ^ (8 * n) + b.
Proof.
  intros P A B. unfold twos_complement.
  assert (E1 : 2 ^ (8 * (2 * n) - 1) = 2 ^ (8 * n - 1) * 2 ^ (8 * n)) by (rewrite <- Z.pow_add_r by lia; f_equal; lia).
  assert (E2 : 2 ^ (8 * (2 * n)) = 2 ^ (8 * n) * 2 ^ (8 * n)) by (rewrite <- Z.pow_add_r by lia; f_equal; lia).
  rewrite E1, E2. set (q := 2 ^ (8 * n)) in *. set (h := 2 ^ (8 * n - 1)) in *.
  destruct (a <? h) eqn:H1, (a * q + b <? h * q) eqn:H2; rewrite ?Z.ltb_lt, ?Z.ltb_ge in *; try nia.
Qed.

Lemma views_halves orc f g h u n m mh ml bs off vals depth z :
  extensional orc -> In n [1; 2; 4] -> sized f (2 * n) -> sized g n -> sized h n ->
  same_order (o_host orc) f g -> same_order (o_host orc) f h ->
  create orc (DInteger f u) None = Ok (Some m) ->
  create orc (DInteger g u) None = Ok (Some mh) -> create orc (DInteger h true) None = Ok (Some ml) ->
  0 <= off -> off + 2 * n <= len bs -> depth <= 11 ->
  let en := order_on (o_host orc) (f_bo f) in
  ((exists fuel, SpecMap.maps orc fuel m bs off vals depth (VInt z) (2 * n)) <->
   exists a b, z = a * 2 ^ (8 * n) + b /\
     (exists fuel, SpecMap.maps orc fuel mh bs (high_half en off n) vals depth (VInt a) n) /\
     (exists fuel, SpecMap.maps orc fuel ml bs (low_half en off n) vals depth (VInt b) n)).
Proof.
  intros X I Sf Sg Sh Og Oh C Ch Cl Ho L D en. unfold same_order in *.
  assert (P : 0 < n) by (cbn in I; intuition lia).
  assert (I2 : In (2 * n) [1; 2; 4; 8]) by (cbn in I |- *; intuition lia).
  assert (I1 : In n [1; 2; 4; 8]) by (cbn in I |- *; intuition lia).
  assert (H1 : 0 <= high_half en off n /\ high_half en off n + n <= len bs) by (destruct en; cbn; lia).
  assert (H2 : 0 <= low_half en off n /\ low_half en off n + n <= len bs) by (destruct en; cbn; lia).
  rewrite (mapped_reads orc (DInteger f u)); auto; try lia; try regular_fixed.
  rewrite (reads_integer orc bs f u (2 * n)) by auto.
  pose proof (stored_number_range en (window bs (high_half en off n) n) n ltac:(apply len_window; lia)) as BH.
  pose proof (stored_number_range en (window bs (low_half en off n) n) n ltac:(apply len_window; lia)) as BL.
  assert (E : stored_integer (negb u) en (window bs off (2 * n)) =
    stored_integer (negb u) en (window bs (high_half en off n) n) * 2 ^ (8 * n) +
    stored_number en (window bs (low_half en off n) n)).
  { unfold stored_integer. rewrite !len_window by lia. rewrite halves_number by auto.
    destruct u; cbn [negb]; [reflexivity|]. now apply twos_complement_high. }
  assert (RH : forall a, (exists fuel, SpecMap.maps orc fuel mh bs (high_half en off n) vals depth (VInt a) n) <->
    a = stored_integer (negb u) en (window bs (high_half en off n) n)).
  { intros a. rewrite (mapped_reads orc (DInteger g u)); auto; try lia; try regular_fixed.
    rewrite (reads_integer orc bs g u n) by auto. rewrite <- Og. fold en.
    split; [intros (_ & _ & Q); now inversion Q|]. intros ->. repeat split; auto; lia. }
  assert (RL : forall b, (exists fuel, SpecMap.maps orc fuel ml bs (low_half en off n) vals depth (VInt b) n) <->
    b = stored_number en (window bs (low_half en off n) n)).
  { intros b. rewrite (mapped_reads orc (DInteger h true)); auto; try lia; try regular_fixed.
    rewrite (reads_integer orc bs h true n) by auto. rewrite <- Oh. fold en. cbn [negb stored_integer].
    split; [intros (_ & _ & Q); now inversion Q|]. intros ->. repeat split; auto; lia. }
  fold en. split.
  - intros (_ & _ & Q). inversion Q as [Q']. do 2 eexists. split; [exact E|]. split; [now apply RH|now apply RL].
  - intros (a & b & -> & A & B). apply RH in A. apply RL in B. subst. rewrite E. auto.
Qed.

(** C85: characters, booleans and doubles as integers. *)
Lemma views_character orc f f' n m m' bs off vals depth z :
  extensional orc -> In n [1; 2; 4] -> sized f n -> sized f' n -> same_order (o_host orc) f f' ->
  create orc (DCharacter f) None = Ok (Some m) -> create orc (DInteger f' false) None = Ok (Some m') ->
  0 <= off <= len bs -> depth <= 11 ->
  ((exists fuel, SpecMap.maps orc fuel m bs off vals depth (VStr [z]) n) <->
   code_point z /\ exists fuel, SpecMap.maps orc fuel m' bs off vals depth (VInt z) n).
Proof.
  intros X I S S' O C C' Ho D. unfold same_order in O.
  assert (P : 0 < n) by (cbn in I; intuition lia).
  assert (I' : In n [1; 2; 4; 8]) by (cbn in I |- *; intuition lia).
  rewrite (mapped_reads orc (DCharacter f)), (mapped_reads orc (DInteger f' false)); auto; try regular_fixed.
  rewrite (reads_character orc bs f n), (reads_integer orc bs f' false n) by auto. rewrite <- O. cbn [negb].
  split.
  - intros (_ & L & B & E). injection E as E'. subst z. auto.
  - intros (B & _ & L & E). injection E as E'. subst z. auto.
Qed.

Lemma views_boolean orc f f' fv tv n m m' bs off vals depth b :
  extensional orc -> In n [1; 2; 4] -> sized f n -> sized f' n -> same_order (o_host orc) f f' ->
  create orc (DBoolean f fv tv) None = Ok (Some m) -> create orc (DInteger f' true) None = Ok (Some m') ->
  0 <= off <= len bs -> depth <= 11 ->
  ((exists fuel, SpecMap.maps orc fuel m bs off vals depth (VBool b) n) <->
   exists z, (if b : bool then stands_for_true fv tv z else stands_for_false fv tv z) /\
     exists fuel, SpecMap.maps orc fuel m' bs off vals depth (VInt z) n).
Proof.
  intros X I S S' O C C' Ho D. unfold same_order in O.
  assert (P : 0 < n) by (cbn in I; intuition lia).
  assert (I' : In n [1; 2; 4; 8]) by (cbn in I |- *; intuition lia).
  assert (RI : forall z, (exists fuel, SpecMap.maps orc fuel m' bs off vals depth (VInt z) n) <->
    off + n <= len bs /\ z = stored_number (order_on (o_host orc) (f_bo f)) (window bs off n)).
  { intros z. rewrite (mapped_reads orc (DInteger f' true)); auto; try regular_fixed.
    rewrite (reads_integer orc bs f' true n) by auto. rewrite <- O. cbn [negb stored_integer]. unfold stored_integer.
    split; [intros (_ & L & Q); inversion Q; auto|]. intros (L & ->). auto. }
  rewrite (mapped_reads orc (DBoolean f fv tv)); auto; try regular_fixed.
  rewrite (reads_boolean orc bs f fv tv n) by auto. cbv zeta. split.
  - intros (_ & L & b' & E & B). inversion E; subst b'. eexists. split; [exact B|]. apply RI. auto.
  - intros (z & B & M). apply RI in M. destruct M as [L ->]. split; [auto|]. split; [auto|]. eauto.
Qed.

Lemma views_double orc f f' m m' bs off vals depth z :
  extensional orc -> sized f 8 -> sized f' 8 -> same_order (o_host orc) f f' ->
  create orc (DFloat f) None = Ok (Some m) -> create orc (DInteger f' true) None = Ok (Some m') ->
  0 <= off <= len bs -> depth <= 11 ->
  ((exists fuel, SpecMap.maps orc fuel m bs off vals depth (VFloat z) 8) <->
   exists fuel, SpecMap.maps orc fuel m' bs off vals depth (VInt z) 8).
Proof.
  intros X S S' O C C' Ho D. unfold same_order in O.
  rewrite (mapped_reads orc (DFloat f)), (mapped_reads orc (DInteger f' true)); auto; try regular_fixed.
  rewrite (reads_integer orc bs f' true 8) by (cbn; auto). rewrite <- O. cbn [negb]. unfold stored_integer. split.
  - intros R. inversion R; subst; auto.
  - intros (_ & L & E). inversion E. constructor; auto.
Qed.

(** C85: the bytes backwards. *)
Lemma window_rev (bs : bytes) off n : 0 <= off -> 0 <= n -> off + n <= len bs ->
  window (rev bs) (len bs - off - n) n = rev (window bs off n).
Proof.
  intros O N L. pose proof (len_window bs off n ltac:(lia) ltac:(lia) ltac:(lia)) as LW.
  set (a := firstn (Z.to_nat off) bs). set (c := skipn (Z.to_nat n) (skipn (Z.to_nat off) bs)).
  assert (E : bs = a ++ window bs off n ++ c).
  { unfold a, c, window. now rewrite firstn_skipn, firstn_skipn. }
  assert (LC : len (rev c) = len bs - off - n).
  { unfold len. rewrite rev_length. unfold c. rewrite !skipn_length. unfold len in *. lia. }
  assert (LR : len (rev (window bs off n)) = n) by (unfold len in *; now rewrite rev_length).
  rewrite <- LC. rewrite <- LR at 1. rewrite E at 1. rewrite !rev_app_distr, <- app_assoc. apply FitProofs.window_mid.
Qed.

Lemma stored_opposite en w : stored_number (opposite en) (rev w) = stored_number en w.
Proof. destruct en; cbn [opposite stored_number]; [now rewrite ?rev_involutive|now rewrite ?rev_involutive]. Qed.

Lemma integer_opposite s en w : stored_integer s (opposite en) (rev w) = stored_integer s en w.
Proof. unfold stored_integer. rewrite stored_opposite. unfold len. now rewrite rev_length. Qed.

Lemma opposite_twice en : opposite (opposite en) = en.
Proof. now destruct en. Qed.

Lemma mirrored_back host d d' : mirrored host d d' -> mirrored host d' d.
Proof.
  assert (F : forall f f', mirrored_fixed host f f' -> mirrored_fixed host f' f).
  { intros f f' (A & B & C). repeat split; auto. rewrite C. now rewrite opposite_twice. }
  destruct d, d'; cbn; try tauto; intuition (subst; auto).
Qed.

Lemma mirrored_sized host f f' n : mirrored_fixed host f f' -> sized f n -> sized f' n.
Proof. intros (A & B & _) [S U]. split; congruence. Qed.

Lemma mirrored_regular host d d' : mirrored host d d' -> everywhere regular d -> everywhere regular d'.
Proof.
  assert (F : forall f f', mirrored_fixed host f f' -> fixed_byte_size f' = fixed_byte_size f).
  { intros f f' (A & B & _). unfold fixed_byte_size. now rewrite A, B. }
  destruct d, d'; cbn; try tauto; unfold regular, sound, orderly; cbn; intros M R;
    repeat match goal with M : _ /\ _ |- _ => destruct M end; subst;
    match goal with M : mirrored_fixed _ _ _ |- _ => rewrite (F _ _ M) | _ => idtac end; auto.
  all: try (match goal with M : f_size _ = _ |- _ => idtac end; rewrite (F f f0) by (repeat split; auto); auto).
Qed.

Lemma reads_mirrored orc bs d d' off vals v n : mirrored (o_host orc) d d' -> 0 <= off ->
  reads orc bs d off vals v n -> reads orc (rev bs) d' (len bs - off - n) vals v n.
Proof.
  intros M O R.
  assert (LR : len (rev bs) = len bs) by (unfold len; now rewrite rev_length).
  assert (P : forall l, In n l -> Forall (fun x => 0 <= x) l -> 0 <= n) by (intros l I F; rewrite Forall_forall in F; auto).
  destruct R; destruct d'; cbn [mirrored] in M; try contradiction.
  - destruct M as [-> M]. pose proof (mirrored_sized _ _ _ _ M H0) as S. destruct M as (_ & _ & M).
    assert (0 <= n) by (apply (P _ H); repeat constructor; lia).
    rewrite <- integer_opposite, <- M, <- window_rev by lia. constructor; auto; lia.
  - pose proof (mirrored_sized _ _ _ _ M H) as S. destruct M as (_ & _ & M).
    rewrite <- stored_opposite, <- M, <- window_rev by lia. constructor; auto; lia.
  - pose proof (mirrored_sized _ _ _ _ M H) as S. destruct M as (_ & _ & M).
    rewrite <- stored_opposite, <- M, <- window_rev in H1 by lia. econstructor; eauto; lia.
  - destruct M as (-> & -> & M). pose proof (mirrored_sized _ _ _ _ M H0) as S. destruct M as (_ & _ & M).
    assert (0 <= n) by (apply (P _ H); repeat constructor; lia).
    cbv zeta in *. rewrite <- stored_opposite, <- M, <- window_rev in H2 by lia. constructor; auto; lia.
  - pose proof (mirrored_sized _ _ _ _ M H0) as S. destruct M as (_ & _ & M).
    assert (0 <= n) by (apply (P _ H); repeat constructor; lia).
    rewrite <- integer_opposite, <- M, <- window_rev in H2 by lia. econstructor; eauto; lia.
Qed.

Lemma views_mirrored orc d d' m m' bs off vals depth v n :
  extensional orc -> mirrored (o_host orc) d d' -> everywhere regular d ->
  create orc d None = Ok (Some m) -> create orc d' None = Ok (Some m') ->
  0 <= off -> 0 <= n -> off + n <= len bs -> depth <= 11 ->
  ((exists fuel, SpecMap.maps orc fuel m bs off vals depth v n) <->
   exists fuel, SpecMap.maps orc fuel m' (rev bs) (len bs - off - n) vals depth v n).
Proof.
  intros X M R C C' O N L D.
  assert (LR : len (rev bs) = len bs) by (unfold len; now rewrite rev_length).
  assert (Z0 : levels d = 0 /\ levels d' = 0) by (destruct d, d'; cbn in M; try contradiction; auto).
  rewrite (mapped_reads orc d), (mapped_reads orc d'); try tauto; try lia; try (eapply mirrored_regular; eauto; fail).
  split.
  - now apply reads_mirrored.
  - intros H. apply mirrored_back in M. apply (reads_mirrored _ _ _ _ _ _ _ _ M) in H; [|lia].
    rewrite rev_involutive, LR in H. now replace (len bs - (len bs - off - n) - n) with off in H by lia.
Qed.
