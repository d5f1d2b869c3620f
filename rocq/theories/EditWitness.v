(** Concrete structures of which a member changes. *)
From Coq Require Import String List ZArith Bool Lia.
From Verif Require Import Base PyVal PyStruct DataTypes ClassFactory DataMaps Expr Demo DemoProofs.
From Verif Require Import SpecPrim SpecMap SpecCreate SpecReads SpecFold SpecGrow SpecWrites SpecEdit BytesProofs CreateProofs ReadsWitness FitWitness WritesWitness.
Import ListNotations.
Open Scope string_scope.
Open Scope list_scope.
Open Scope Z_scope.

(** Names are used for attributes only, and not for [x]. *)
Fixpoint ignoresb (x : string) (a : ast) : bool :=
  match a with
  | AInt _ => true
  | AName s => String.eqb s "True" || String.eqb s "False" || String.eqb s "None"
  | AAttr (AName _) s => negb (String.eqb s x)
  | AAttr a _ => ignoresb x a
  | AUn _ a => ignoresb x a
  | ABin _ a b => ignoresb x a && ignoresb x b
  end.

Lemma reassigned_get x k e e' : reassigned_env x e e' ->
  match dict_get k e, dict_get k e' with
  | Some v, Some w => reassigned x v w
  | None, None => True
  | _, _ => False
  end.
Proof.
  induction 1 as [|[a v] [b w] l l' [A B] R IH]; [exact I|]. cbn in *. subst b. destruct (String.eqb k a); auto.
Qed.

Lemma reassigned_ns x e e' : reassigned_env x e e' -> reassigned_env x (ns e) (ns e').
Proof.
  unfold ns. generalize "__builtins__"%string. intros q. induction 1 as [|[a v] [b w] l l' [A B] R IH]; cbn.
  - constructor; [|constructor]. split; auto. now left.
  - cbn in *. subst b. destruct (String.eqb q a).
    + constructor; auto. split; auto. now left.
    + constructor; auto.
Qed.

Lemma ignoresb_sound x a e e' : ignoresb x a = true -> reassigned_env x e e' -> eval_ast a e' = eval_ast a e.
Proof.
  intros B W. revert B. induction a; cbn [ignoresb eval_ast]; intros B; auto.
  - destruct (String.eqb s "True"); auto. destruct (String.eqb s "False"); auto. destruct (String.eqb s "None"); auto. discriminate.
  - destruct a; try (now rewrite IHa by exact B). clear IHa. cbn [eval_ast].
    destruct (String.eqb s0 "True"); auto. destruct (String.eqb s0 "False"); auto. destruct (String.eqb s0 "None"); auto.
    pose proof (reassigned_get x s0 e e' W) as G. destruct (dict_get s0 e) as [v|], (dict_get s0 e') as [w|]; try tauto. clear W.
    destruct G as [->|(cls & l1 & l2 & u & u' & -> & ->)]; auto. apply negb_true_iff in B.
    induction l1 as [|[y z] l IH]; cbn.
    + now rewrite B.
    + destruct (String.eqb s y); auto.
  - now rewrite IHa.
  - apply andb_true_iff in B as [B1 B2]. now rewrite IHa1, IHa2.
Qed.

Lemma demo_ignores x s : match parse_expr s with Some a => ignoresb x a | None => true end = true -> ignores demo x s.
Proof.
  intros B e e' W. apply reassigned_ns in W. cbn [demo o_eval]. unfold expr_eval. destruct (parse_expr s) as [a|]; auto.
  now rewrite (ignoresb_sound x a _ _ B W).
Qed.

(** The note with a longer name. *)
Definition note_before : list dtype :=
  [member "size" d_uint8; member "ratio" (DFloat (fixed_of "ratio" BONative 4)); member "extra" d_int32be;
   member "data" (DElems KStream (elems_size_expr "data" d_uint8 "note.size") d_uint8)].
Definition note_pair : dtype := member "pair" (DElems KSequence (elems_number "pair" d_uint16 2) d_uint16).
Definition note_name : dtype := member "name" (DElems KString (elems_term "name" d_char (VBytes (bs [0]))) d_char).
Definition note_renamed : pyval :=
  VStruct "note" [("size", VInt 2); ("ratio", VInt 1); ("extra", VNone); ("data", VBytes (bs [7; 8]));
    ("pair", VTuple [VInt 1; VBool true]); ("name", VStr [104; 105; 104; 105])].

Lemma note_split : d_note = DStructure (meta_of "note") BOLittle ((note_before ++ [note_pair]) ++ note_name :: []).
Proof. reflexivity. Qed.

Lemma renamed_same y : In y ((note_before ++ [note_pair]) ++ []) ->
  py_getattr note_renamed (dt_name y) = py_getattr note_value (dt_name y).
Proof. cbn [In app note_before]. intros H. repeat destruct H as [<-|H]; try tauto; vm_compute; reflexivity. Qed.

(** The card with other numbers. *)
Definition card_before : list dtype := [member "size" d_uint8; member "data" (DElems KStream (elems_size "data" d_uint8 2) d_uint8)].
Definition card_bytes : bytes := bs [9; 2; 7; 8; 1; 0; 2; 1; 9].
Definition card_mapped : pyval := VStruct "card" [("size", VInt 2); ("data", VBytes (bs [7; 8])); ("pair", VTuple [VInt 1; VInt 258])].
Definition card_edited : pyval := VStruct "card" [("size", VInt 2); ("data", VBytes (bs [7; 8])); ("pair", VTuple [VInt 3; VBool true])].

Lemma card_regular : everywhere regular d_card.
Proof. apply regular_check; vm_compute; reflexivity. Qed.

Lemma card_folds_back : folds_back demo d_card.
Proof. cbn. unfold literal. cbn. repeat split; auto. discriminate. Qed.

Lemma card_no_single : everywhere no_single d_card.
Proof. cbn. tauto. Qed.

Lemma card_sizes_agree vals : sizes_agree demo d_card [] vals card_mapped.
Proof.
  cbn. repeat split; auto. intros _ n. unfold stream_size. cbn.
  intros [[_ H]|[H _]]; [|discriminate]. left. split; auto. unfold measure in *.
  destruct H as [H|(_ & x & H & _)]; [|discriminate]. left. exact H.
Qed.

(** The note and its extra number. *)
Definition note_extra : dtype := member "extra" d_int32be.
Definition note_start : list dtype := [member "size" d_uint8; member "ratio" (DFloat (fixed_of "ratio" BONative 4))].
Definition note_after : list dtype :=
  [member "data" (DElems KStream (elems_size_expr "data" d_uint8 "note.size") d_uint8); note_pair; note_name].
Definition noted_bytes (extra : bytes) : bytes :=
  bs [99; 2; 0; 0; 128; 63] ++ extra ++ bs [7; 8; 1; 0; 1; 0; 104; 105; 0].

Lemma note_again : d_note = DStructure (meta_of "note") BOLittle (note_start ++ note_extra :: note_after).
Proof. reflexivity. Qed.

Lemma note_regular : everywhere regular d_note.
Proof. apply regular_check; vm_compute; reflexivity. Qed.

Lemma note_lone : everywhere lone d_note.
Proof. cbn. tauto. Qed.

Lemma note_unheeded : Forall (everywhere (unheeded demo "extra")) note_after.
Proof.
  assert (I : ignores demo "extra" "note.size") by (apply demo_ignores; vm_compute; reflexivity).
  unfold unheeded. repeat constructor; cbn; repeat constructor; auto.
Qed.

Definition noted (x : pyval) : pyval :=
  VStruct "note" ([("size", VInt 2); ("ratio", VFloat 4607182418800017408)] ++ ("extra", x) ::
    [("data", VBytes (bs [7; 8])); ("pair", VTuple [VInt 1; VInt 1]); ("name", VStr [104; 105])]).

Lemma note_mapped : maps demo 20 (the_map d_note) (noted_bytes (bs [0; 0; 1; 0])) 1 [] 0 (noted (VInt 256)) 18.
Proof. eexists. split; vm_compute; reflexivity. Qed.

Lemma packet_lone : everywhere lone d_packet.
Proof. cbn. tauto. Qed.

(** Another size means other data. *)
Lemma disturbed_looking_refuted : exists mt bo x after m p o o' s v v' n n' y,
  everywhere regular (DStructure mt bo (x :: after)) /\ everywhere lone (DStructure mt bo (x :: after)) /\ everywhere wordless x /\
  everywhere exact (used_type (m_name mt) bo x) /\ get_byte_size (used_type (m_name mt) bo x) = Some (len o) /\ len o' = len o /\
  create demo (DStructure mt bo (x :: after)) None = Ok (Some m) /\
  maps demo 20 m (p ++ o ++ s) (len p) [] 0 v n /\ maps demo 20 m (p ++ o' ++ s) (len p) [] 0 v' n' /\
  In y after /\ py_getattr v' (dt_name y) <> py_getattr v (dt_name y).
Proof.
  pose proof packet_regular as R. pose proof packet_lone as L.
  unfold d_packet in R, L.
  match type of R with everywhere regular (DStructure ?mt ?bo (?x :: ?after)) =>
    exists mt, bo, x, after end.
  exists (the_map d_packet), (bs [0]), (bs [3]), (bs [2]), (bs [1; 255; 254; 9; 65; 66; 67]).
  exists (VStruct "packet" [("size", VInt 3); ("flag", VInt 1); ("sum", VInt (-2)); ("pad", VBytes (bs [9])); ("data", VBytes (bs [65; 66; 67]))]),
    (VStruct "packet" [("size", VInt 2); ("flag", VInt 1); ("sum", VInt (-2)); ("pad", VBytes (bs [9])); ("data", VBytes (bs [65; 66]))]), 8, 7.
  exists (member "data" (DElems KStream (elems_size_expr "data" d_uint8 "packet.size") d_uint8)).
  split; [exact R|]. split; [exact L|]. split; [cbn; unfold wordless; cbn; tauto|]. split; [cbn; tauto|]. split; [vm_compute; reflexivity|].
  split; [vm_compute; reflexivity|]. split; [vm_compute; reflexivity|].
  split; [eexists; split; vm_compute; reflexivity|]. split; [eexists; split; vm_compute; reflexivity|].
  split; [cbn [In]; tauto|]. vm_compute. discriminate.
Qed.
