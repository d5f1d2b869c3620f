(** A check for definitions for which mapping is the reference reading. *)
From Coq Require Import String Ascii List ZArith Bool Lia.
From Verif Require Import Base PyVal PyStruct DataTypes ClassFactory DataMaps SpecPrim SpecMap SpecCreate SpecReads
  MapProofs CreateProofs SteadyProofs ReadsProofs Demo DemoProofs.
Import ListNotations.
Open Scope Z_scope.

Fixpoint distinctb (l : list string) : bool :=
  match l with [] => true | x :: r => negb (existsb (String.eqb x) r) && distinctb r end.

Lemma distinctb_spec l : distinctb l = true -> NoDup l.
Proof.
  induction l as [|x l IH]; cbn; [constructor|]. rewrite andb_true_iff, negb_true_iff. intros [H T]. constructor; auto.
  intros I. assert (existsb (String.eqb x) l = true); [|congruence]. apply existsb_exists. exists x. split; auto. apply String.eqb_refl.
Qed.

Fixpoint neatb (d : dtype) : bool :=
  match d with
  | DElems k e el =>
      match k with
      | KSequence =>
          match el with DUnion _ _ _ | DFamily _ _ _ | DMember _ _ _ _ _ _ => false | _ => true end &&
          match e_data_size e, get_byte_size el with Some s, Some b => s mod b =? 0 | _, _ => true end
      | _ => true
      end && neatb el
  | DStructure mt bo ms =>
      constructible (m_name mt) (map dt_name ms) &&
      forallb (fun m => negb (starts_with_underscore (dt_name m))) ms &&
      (is_native bo || forallb (fun m => match type_of m with
         | DStructure _ BONative l =>
             negb (starts_with_underscore (m_name mt) || String.eqb (m_name mt) "") &&
             forallb (fun x => match type_of x with DStructure _ BONative _ => false | _ => true end) l
         | _ => true
         end) ms) &&
      (existsb (fun m => is_composite m || is_padding m) ms ||
       forallb (fun m => negb (is_padding (type_of m)) &&
         match dt_byte_order (type_of m) with Some b => is_native b || bo_eqb b bo | None => true end) ms) &&
      forallb neatb ms
  | DUnion _ _ ms => forallb neatb ms
  | DMember _ _ _ _ _ i => neatb i
  | DFamily _ b ms => neatb b && forallb neatb ms
  | DGroup _ _ b _ df ms =>
      forallb (fun x => match x with DStructure _ _ l => distinctb (map dt_name l) | _ => false end) ms &&
      neatb b && match df with Some x => neatb x | None => true end && forallb neatb ms
  | _ => true
  end.

Lemma forallb_go (P : dtype -> Prop) ms : Forall (fun d => neatb d = true -> everywhere P d) ms ->
  forallb neatb ms = true ->
  (fix go (l : list dtype) : Prop := match l with [] => True | m :: r => everywhere P m /\ go r end) ms.
Proof.
  intros H F. apply everywhere_list. rewrite Forall_forall in *. rewrite forallb_forall in F. auto.
Qed.

Lemma neat_sound d : neatb d = true -> everywhere orderly d.
Proof.
  induction d using dtype_rect'; cbn [neatb everywhere orderly]; intros N; try (split; exact I).
  - apply andb_true_iff in N. destruct N as [N1 N2]. split; auto. destruct k; auto.
    apply andb_true_iff in N1. destruct N1 as [N0 N1]. split.
    + destruct d; auto; discriminate.
    + intros s b E G. rewrite E, G in N1. now apply Z.eqb_eq.
  - rewrite !andb_true_iff in N. destruct N as [[[[Na Nb] Nc] N1] N2]. split; [|now apply forallb_go].
    split; [now apply constructible_spec|]. split.
    { intros x r I Q. rewrite forallb_forall in Nb. specialize (Nb x I). rewrite Q in Nb. discriminate. }
    split.
    { intros x mt1 ms1 NB I T. apply orb_true_iff in Nc. destruct Nc as [Nc|Nc]; [destruct bo; solve [discriminate|congruence]|].
      rewrite forallb_forall in Nc. specialize (Nc x I). rewrite T in Nc. apply andb_true_iff in Nc.
      destruct Nc as [Nc Nd]. split.
      - apply negb_true_iff, orb_false_iff in Nc. destruct Nc as [Nc Ne]. destruct (m_name m) as [|c r]; [discriminate|].
        exists c, r. split; auto. intros ->. discriminate.
      - intros y mt2 ms2 Iy Ty. rewrite forallb_forall in Nd. specialize (Nd y Iy). rewrite Ty in Nd. discriminate. }
    apply orb_true_iff in N1. destruct N1 as [N1|N1].
    + left. apply existsb_exists in N1. destruct N1 as (x & I & E). exists x. split; auto. now apply orb_true_iff.
    + right. intros x I. rewrite forallb_forall in N1. specialize (N1 x I). apply andb_true_iff in N1. destruct N1 as [A B].
      split; [now apply negb_true_iff|]. intros b E. rewrite E in B. apply orb_true_iff in B. destruct B as [B|B].
      * left. destruct b; auto; discriminate.
      * right. destruct b, bo; auto; discriminate.
  - split; [exact I|]. now apply forallb_go.
  - split; auto.
  - apply andb_true_iff in N. destruct N as [N1 N2]. split; [exact I|]. split; auto. now apply forallb_go.
  - rewrite !andb_true_iff in N. destruct N as [[[N1 N2] N3] N4]. split.
    + intros x I. rewrite forallb_forall in N1. specialize (N1 x I). destruct x; try discriminate.
      do 3 eexists. split; [reflexivity|]. now apply distinctb_spec.
    + split; auto. split; [destruct df; auto|]. now apply forallb_go.
Qed.

Lemma regular_check d : fineb d = true -> neatb d = true -> everywhere regular d.
Proof.
  intros F N. eapply everywhere_weaken; [|apply everywhere_and; [exact (fine_sound d F)|exact (neat_sound d N)]].
  intros x [S E]. split; [exact S|]. exact E.
Qed.

(** A structure with a count, that many points and a terminated name. *)
Definition d_point : dtype :=
  DStructure (meta_of "point") BOLittle [member "x" d_uint16; member "y" d_uint16].
Definition d_shape : dtype :=
  DStructure (meta_of "shape") BOLittle
    [member "count" d_uint8;
     member "points" (DElems KSequence (elems_number_expr "points" d_point "shape.count") d_point);
     member "name" (DElems KString (elems_term "name" d_char (VBytes (bs [0]))) d_char)].
Definition shape_bytes : bytes := bs [2; 1; 0; 2; 0; 3; 0; 4; 0; 104; 105; 0].
Definition shape_value : pyval :=
  let point x y := VStruct "point" [("x", VInt x); ("y", VInt y)]%string in
  VStruct "shape" [("count", VInt 2); ("points", VTuple [point 1 2; point 3 4]); ("name", VStr [104; 105])]%string.

Lemma shape_regular : everywhere regular d_shape.
Proof. apply regular_check; vm_compute; reflexivity. Qed.

Lemma shape_created : create demo d_shape None = Ok (Some (the_map d_shape)).
Proof. vm_compute. reflexivity. Qed.

Lemma shape_reads : reads demo shape_bytes d_shape 0 [] shape_value 12.
Proof.
  apply (mapping_reads demo 20 d_shape (the_map d_shape) shape_bytes 0 [] 0 shape_value 12 extensional_demo shape_regular shape_created).
  - vm_compute. split; discriminate.
  - eexists. split; vm_compute; reflexivity.
Qed.
