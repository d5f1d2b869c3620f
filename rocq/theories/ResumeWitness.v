(** A composite sequence that is followed by another member cannot be resumed. *)
From Coq Require Import String List ZArith Bool Lia.
From Verif Require Import Base PyVal PyStruct DataTypes ClassFactory DataMaps Expr Codec Demo SpecPrim SpecMap SpecCreate SpecResume DemoProofs.
Import ListNotations.
Open Scope Z_scope.
Open Scope string_scope.
Open Scope list_scope.

Definition two : dtype := DStructure (meta_of "two") BOLittle [member "x" d_uint8; member "y" d_uint8].
Definition twos : dtype := DElems KSequence (elems_number "twos" two 2) two.
Definition twos_more : dtype := DStructure (meta_of "more") BOLittle [member "s" twos; member "z" d_uint8].

Lemma sequence_resume_refuted :
  exists d m b s c v n, everywhere sound d /\ create demo d None = Ok (Some m) /\
    mapbs demo 9 m b 0 (Some (ctx_new [])) 0 = (Raise ByteStreamTooSmallError, Some c) /\
    maps demo 9 m (b ++ s) 0 [] 0 v n /\
    forall p, 0 <= p <= len (b ++ s) -> fst (mapbs demo 9 m (b ++ s) p (Some c) 0) <> Ok v.
Proof.
  exists twos_more, (the_map twos_more), (bs [1; 2; 3]), (bs [4; 5; 6; 7; 8; 9; 10]). do 3 eexists.
  split; [apply fine_sound; vm_compute; reflexivity|]. split; [vm_compute; reflexivity|].
  split; [vm_compute; reflexivity|]. split; [eexists; split; vm_compute; reflexivity|].
  intros p Hp. change (len (bs [1; 2; 3] ++ bs [4; 5; 6; 7; 8; 9; 10])) with 10 in Hp.
  assert (C : p = 0 \/ p = 1 \/ p = 2 \/ p = 3 \/ p = 4 \/ p = 5 \/ p = 6 \/ p = 7 \/ p = 8 \/ p = 9 \/ p = 10) by lia.
  repeat (destruct C as [C|C]; [subst p; vm_compute; discriminate|]). subst p; vm_compute; discriminate.
Qed.

Definition r_text : dtype :=
  DStructure (meta_of "text") BOLittle [member "n" d_uint8; member "raw" (DElems KStream (elems_size_expr "raw" d_uint8 "text.n") d_uint8)].

(** Mapping again from the start with the context of an attempt that failed. *)
Lemma restart_refuted :
  exists d m b s c v w n, everywhere sound d /\ create demo d None = Ok (Some m) /\
    mapbs demo 9 m b 0 (Some (ctx_new [])) 0 = (Raise ByteStreamTooSmallError, Some c) /\
    maps demo 9 m (b ++ s) 0 [] 0 v n /\
    fst (mapbs demo 9 m (b ++ s) 0 (Some c) 0) = Ok w /\ w <> v.
Proof.
  exists r_text, (the_map r_text), (bs [3; 65]), (bs [66; 67]). do 4 eexists.
  split; [apply fine_sound; vm_compute; reflexivity|]. split; [vm_compute; reflexivity|].
  split; [vm_compute; reflexivity|]. split; [eexists; split; vm_compute; reflexivity|].
  split; [vm_compute; reflexivity|]. discriminate.
Qed.

(** *** Attempts to go on that fail for another reason than too few bytes *)

Definition r_one : dtype := DStructure (meta_of "one") BOLittle [member_in "x" [VInt 1; VInt 2; VInt 3] d_uint8].
Definition r_ones : dtype := DElems KSequence (elems_number "ones" r_one 3) r_one.

(** The elements read by the failed attempt stay in the list, so that they are there
    twice when another attempt succeeds. *)
Lemma failed_sequence_refuted :
  exists d m b s t c c' v w n, everywhere sound d /\ create demo d None = Ok (Some m) /\
    mapbs demo 9 m b 0 (Some (ctx_new [])) 0 = (Raise ByteStreamTooSmallError, Some c) /\
    mapbs demo 9 m (b ++ s) (len b) (Some c) 0 = (Raise MappingError, Some c') /\
    maps demo 9 m (b ++ t) 0 [] 0 (VTuple v) n /\
    fst (mapbs demo 9 m (b ++ t) (len b) (Some c) 0) = Ok (VTuple v) /\
    fst (mapbs demo 9 m (b ++ t) (len b) (Some c') 0) = Ok (VTuple w) /\ len w = len v + 1.
Proof.
  exists r_ones, (the_map r_ones), (bs [1]), (bs [2; 9]), (bs [2; 3]). do 5 eexists.
  split; [apply fine_sound; vm_compute; reflexivity|]. split; [vm_compute; reflexivity|].
  split; [vm_compute; reflexivity|]. split; [vm_compute; reflexivity|]. split; [eexists; split; vm_compute; reflexivity|].
  split; [vm_compute; reflexivity|]. split; [vm_compute; reflexivity|]. reflexivity.
Qed.

Definition r_maybe : dtype :=
  DStructure (meta_of "maybe") BOLittle
    [member "first" d_uint8; member_if "more" "maybe.first == 1" d_uint8; member_in "last" [VInt 7] d_uint8].

(** A member that was present in the failed attempt keeps its value when it is absent
    in the one that succeeds. *)
Lemma failed_structure_refuted :
  exists d m b s t c c' v w n, everywhere sound d /\ create demo d None = Ok (Some m) /\
    mapbs demo 9 m b 0 (Some (ctx_new [])) 0 = (Raise ByteStreamTooSmallError, Some c) /\
    mapbs demo 9 m (b ++ s) (len b) (Some c) 0 = (Raise MappingError, Some c') /\
    maps demo 9 m (b ++ t) 0 [] 0 v n /\
    fst (mapbs demo 9 m (b ++ t) (len b) (Some c) 0) = Ok v /\
    fst (mapbs demo 9 m (b ++ t) (len b) (Some c') 0) = Ok w /\
    py_getattr v "more" = VNone /\ py_getattr w "more" = VInt 5.
Proof.
  exists r_maybe, (the_map r_maybe), (bs []), (bs [1; 5; 9]), (bs [0; 7]). do 5 eexists.
  split; [apply fine_sound; vm_compute; reflexivity|]. split; [vm_compute; reflexivity|].
  split; [vm_compute; reflexivity|]. split; [vm_compute; reflexivity|]. split; [eexists; split; vm_compute; reflexivity|].
  split; [vm_compute; reflexivity|]. split; [vm_compute; reflexivity|]. split; reflexivity.
Qed.

(** *** Groups *)

Definition rg_base : dtype := DStructure (meta_of "head") BOLittle [member "n" d_uint8; member_if "more" "head.n > 3" d_uint8; member "kind" d_uint8].
Definition rg_two : dtype := DStructure (meta_of "two") BOLittle [member "n" d_uint8; member_in "kind" [VInt 7] d_uint8; member "z" d_uint8].
Definition rg_group : dtype := DGroup (meta_of "g") BOLittle rg_base "kind" None [rg_two].

(** A group whose base was interrupted after its first member maps the member where
    the base went on. *)
Lemma group_resume_refuted :
  exists t d i x df es b s c v n, everywhere sound t /\ create demo t None = Ok (Some (MGroup d i (Some x) df es)) /\
    resumable x /\ (forall y, df = Some y \/ (exists k, In (k, Some y) es) -> resumable y) /\
    mapbs demo 9 (MGroup d i (Some x) df es) b 0 (Some (ctx_new [])) 0 = (Raise ByteStreamTooSmallError, Some c) /\
    maps demo 9 (MGroup d i (Some x) df es) (b ++ s) 0 [] 0 v n /\
    forall p, 0 <= p <= len (b ++ s) -> fst (mapbs demo 9 (MGroup d i (Some x) df es) (b ++ s) p (Some c) 0) <> Ok v.
Proof.
  exists rg_group. do 5 eexists. exists (bs [2]), (bs [7; 4]). do 3 eexists.
  split; [apply fine_sound; vm_compute; reflexivity|]. split; [vm_compute; reflexivity|].
  split; [vm_compute; tauto|]. split; [intros y [H|[k [H|H]]]; [discriminate|inversion H; subst; vm_compute; tauto|destruct H]|].
  split; [vm_compute; reflexivity|]. split; [eexists; split; vm_compute; reflexivity|].
  intros p Hp. change (len (bs [2] ++ bs [7; 4])) with 3 in Hp.
  assert (C : p = 0 \/ p = 1 \/ p = 2 \/ p = 3) by lia.
  repeat (destruct C as [C|C]; [subst p; vm_compute; discriminate|]). subst p; vm_compute; discriminate.
Qed.
