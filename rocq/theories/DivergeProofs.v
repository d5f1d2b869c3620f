(** A sequence of elements that take up no space can run forever. *)
From Coq Require Import String List ZArith Bool Lia.
From Verif Require Import Base PyVal PyStruct DataTypes ClassFactory DataMaps Expr Codec Demo SpecPrim SpecMap SpecCreate DemoProofs
  SeqProofs SteadyProofs WindowProofs FindingProofs.
Import ListNotations.
Open Scope Z_scope.
Open Scope string_scope.
Open Scope list_scope.

Definition endless : dtype := DElems KSequence (elems_term "s" hollow (VInt 5)) hollow.

Lemma endless_refuted :
  exists d m b, everywhere sound d /\ create demo d None = Ok (Some m) /\
    forall fuel, fst (mapbs demo fuel m b 0 (Some (ctx_new [])) 0) = OutOfFuel.
Proof.
  exists endless, (the_map endless), (bs [7]).
  split; [apply fine_sound; vm_compute; reflexivity|]. split; [vm_compute; reflexivity|].
  intros fuel. set (v := VStruct "hollow" [("a", VNone)]).
  assert (E : exists e ed x op, the_map endless = MSequence false e ed (Some x) op /\ x = the_map hollow /\
     fst (seq_bounds demo e ed (Some (ctx_new []))) = Ok (None, None, Some (VInt 5))).
  { do 4 eexists. split; [vm_compute; reflexivity|]. split; vm_compute; reflexivity. }
  destruct E as (e & ed & x & op & -> & Ex & B).
  assert (M : maps demo fuel x (bs [7]) 0 [] 1 v 0).
  { subst x. eexists. split; vm_compute; reflexivity. }
  assert (C : contained demo x).
  { apply steady_contained; [apply extensional_demo|]. subst x. apply (all_steady demo hollow).
    - apply fine_sound; vm_compute; reflexivity.
    - vm_compute; reflexivity. }
  destruct (sequence_layout demo fuel x (bs [7]) 0 None None (Some (VInt 5)) 0 e ed op [] extensional_demo ltac:(lia)
     (contained_nonneg _ _ C) ltac:(discriminate) B ltac:(lia)) as (_ & _ & _ & L & _).
  apply L. exists (repeat v fuel), 0.
  assert (EL : forall k, elements demo fuel x (bs [7]) 0 0 (repeat v k) 0).
  { induction k as [|k IH]; [constructor|]. cbn [repeat]. apply (elements_cons _ _ _ _ _ 0 v 0); auto. vm_compute; reflexivity. }
  assert (LA : forall l, (forall w, In w l -> w = v) -> l <> [] -> py_eq (last l VNone) (VInt 5) = false).
  { intros l H N. destruct (exists_last N) as (l' & w & ->). rewrite last_snoc. rewrite (H w); [reflexivity|].
    apply in_or_app; right; now left. }
  split.
  - split; [apply EL|]. intros before after n' Q _ _ [K|[(s & K & _)|(t & K & NB & LB)]]; try discriminate.
    inversion K; subst t. rewrite LA in LB; [discriminate| |auto]. intros w I.
    apply (repeat_spec fuel v). rewrite Q. apply in_or_app. now left.
  - right. split; [apply repeat_length|]. intros (t & K & NB & LB). inversion K; subst t.
    rewrite LA in LB; [discriminate| |auto]. intros w I. now apply (repeat_spec fuel v).
Qed.
