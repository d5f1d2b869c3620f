(** A definition with other names throughout, and one that cannot do without its names. *)
From Coq Require Import String List ZArith Bool Lia.
From Verif Require Import Base PyVal PyStruct DataTypes ClassFactory DataMaps Expr Demo DemoProofs.
From Verif Require Import SpecPrim SpecMap SpecCreate SpecReads SpecGrow SpecRelabel BytesProofs CreateProofs ReadsWitness.
Import ListNotations.
Open Scope string_scope.
Open Scope list_scope.
Open Scope Z_scope.

Definition n_uint16 : dtype := DInteger (fixed_of "uint16" BONative 2) true.

(** A track with a point of native byte order, a name and three marks. *)
Definition d_track : dtype :=
  DStructure (meta_of "track") BOLittle
    [member "start" (DStructure (meta_of "point") BONative [member "x" n_uint16; member "y" n_uint16]);
     member "name" (DElems KString (elems_term "name" d_char (VBytes (bs [0]))) d_char);
     member "marks" (DElems KSequence (elems_number "marks" d_uint8 3) d_uint8);
     member_in "kind" [VInt 7; VInt 8] d_uint8].

(** The same with other names. *)
Definition d_piste : dtype :=
  DStructure (meta_of "piste") BOLittle
    [member "debut" (DStructure (meta_of "lieu") BONative [member "abscisse" n_uint16; member "ordonnee" n_uint16]);
     member "nom" (DElems KString (elems_term "nom" d_char (VBytes (bs [0]))) d_char);
     member "reperes" (DElems KSequence (elems_number "reperes" d_uint8 3) d_uint8);
     member_in "genre" [VInt 7; VInt 8] d_uint8].

Definition track_bytes : bytes := bs [99; 1; 0; 2; 1; 104; 105; 0; 4; 5; 6; 7].
Definition track_value : pyval :=
  VStruct "track" [("start", VStruct "_track_point" [("x", VInt 1); ("y", VInt 258)]); ("name", VStr [104; 105]);
                   ("marks", VTuple [VInt 4; VInt 5; VInt 6]); ("kind", VInt 7)].
Definition piste_value : pyval :=
  VStruct "piste" [("debut", VStruct "_piste_lieu" [("abscisse", VInt 1); ("ordonnee", VInt 258)]); ("nom", VStr [104; 105]);
                   ("reperes", VTuple [VInt 4; VInt 5; VInt 6]); ("genre", VInt 7)].

Lemma track_regular : everywhere regular d_track.
Proof. apply regular_check; vm_compute; reflexivity. Qed.

Lemma piste_regular : everywhere regular d_piste.
Proof. apply regular_check; vm_compute; reflexivity. Qed.

Lemma track_created : create demo d_track None = Ok (Some (the_map d_track)).
Proof. vm_compute. reflexivity. Qed.

Lemma piste_created : create demo d_piste None = Ok (Some (the_map d_piste)).
Proof. vm_compute. reflexivity. Qed.

Lemma track_wordless : everywhere wordless d_track.
Proof. unfold wordless. cbn. repeat split. Qed.

Lemma track_maps : maps demo 20 (the_map d_track) track_bytes 1 [] 0 track_value 11.
Proof. eexists. split; vm_compute; reflexivity. Qed.

Lemma piste_maps : maps demo 20 (the_map d_piste) track_bytes 1 [] 0 piste_value 11.
Proof. eexists. split; vm_compute; reflexivity. Qed.

(** A size that an expression looks at cannot be called otherwise. *)
Lemma renamed_looked_at_refuted : exists d d' m m' l v n e,
  unnamed d' = unnamed d /\ everywhere regular d /\ everywhere regular d' /\
  create demo d None = Ok (Some m) /\ create demo d' None = Ok (Some m') /\
  maps demo 20 m l 0 [] 0 v n /\ fails demo 20 m' l 0 [] 0 e.
Proof.
  exists (DStructure (meta_of "label") BOLittle
            [member "size" d_uint8; member "data" (DElems KStream (elems_size_expr "data" d_uint8 "label.size") d_uint8)]),
    (DStructure (meta_of "label") BOLittle
            [member "count" d_uint8; member "data" (DElems KStream (elems_size_expr "data" d_uint8 "label.size") d_uint8)]).
  match goal with |- exists m m' l v n e, _ /\ everywhere regular ?d /\ everywhere regular ?d' /\ _ =>
    exists (the_map d), (the_map d') end.
  exists (bs [2; 7; 8]), (VStruct "label" [("size", VInt 2); ("data", VBytes (bs [7; 8]))]), 3, MappingError.
  split; [reflexivity|].
  split; [apply regular_check; vm_compute; reflexivity|]. split; [apply regular_check; vm_compute; reflexivity|].
  split; [vm_compute; reflexivity|]. split; [vm_compute; reflexivity|].
  split; [eexists; split; vm_compute; reflexivity|]. vm_compute. reflexivity.
Qed.
