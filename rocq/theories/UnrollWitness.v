(** Three points as a sequence and as a structure. *)
From Coq Require Import String List ZArith Bool Lia.
From Verif Require Import Base PyVal PyStruct DataTypes ClassFactory DataMaps Expr Demo DemoProofs.
From Verif Require Import SpecPrim SpecMap SpecCreate SpecReads SpecGrow SpecSize SpecUnroll BytesProofs CreateProofs SteadyProofs ReadsWitness.
Import ListNotations.
Open Scope string_scope.
Open Scope list_scope.
Open Scope Z_scope.

Definition d_spot : dtype :=
  DStructure (meta_of "spot") BOLittle
    [member "x" d_uint16; member "name" (DElems KString (elems_term "name" d_char (VBytes (bs [0]))) d_char)].
Definition e_spots : elems := elems_number "spots" d_spot 3.
Definition spot_members : list dtype := [member "first" d_spot; member "second" d_spot; member "third" d_spot].
Definition d_spots : dtype := DElems KSequence e_spots d_spot.
Definition d_three : dtype := DStructure (meta_of "three") BOLittle spot_members.

Definition spot_bytes : bytes := bs [99; 1; 0; 97; 0; 2; 0; 0; 3; 0; 98; 99; 0; 7].
Definition spot_values : list pyval :=
  [VStruct "spot" [("x", VInt 1); ("name", VStr [97])];
   VStruct "spot" [("x", VInt 2); ("name", VStr [])];
   VStruct "spot" [("x", VInt 3); ("name", VStr [98; 99])]].

Lemma repeated_regular mt bo el names : everywhere regular el -> neatb (DStructure mt bo (map (fun n => member n el) names)) = true ->
  (forall r, dt_name el <> String.append "_" r) -> everywhere regular (DStructure mt bo (map (fun n => member n el) names)).
Proof.
  intros R N P. pose proof (neat_sound _ N) as [O1 O2]. split.
  - split; [|exact O1]. split; [exact I|]. cbn [well_named]. split.
    + intros A B HA HB _.
      apply in_map_iff in HA, HB. destruct HA as (? & <- & _), HB as (? & <- & _). reflexivity.
    + intros x r HI. apply in_map_iff in HI. destruct HI as (? & <- & _). apply P.
  - apply everywhere_list. apply Forall_forall. intros x HI. apply in_map_iff in HI. destruct HI as (? & <- & _).
    split; [|exact R]. split; [split; exact I|exact I].
Qed.

Lemma spots_regular : everywhere regular d_spots.
Proof. apply regular_check; vm_compute; reflexivity. Qed.

Lemma three_regular : everywhere regular d_three.
Proof.
  apply (repeated_regular (meta_of "three") BOLittle d_spot ["first"; "second"; "third"]).
  - apply regular_check; vm_compute; reflexivity.
  - vm_compute. reflexivity.
  - discriminate.
Qed.

Lemma spots_created : create demo d_spots None = Ok (Some (the_map d_spots)).
Proof. vm_compute. reflexivity. Qed.

Lemma three_created : create demo d_three None = Ok (Some (the_map d_three)).
Proof. vm_compute. reflexivity. Qed.

Lemma spot_wordless : everywhere wordless d_spot.
Proof. unfold wordless. cbn. repeat split. Qed.

Lemma spot_only : Forall (only d_spot) spot_members.
Proof. repeat (apply Forall_cons; [repeat split|]). apply Forall_nil. Qed.

Lemma spots_map : maps demo 20 (the_map d_spots) spot_bytes 1 [] 0 (VTuple spot_values) 12.
Proof. eexists. split; vm_compute; reflexivity. Qed.

(** Structures of native byte order are elements of native byte order but members of
    that of the structure. *)
Lemma unrolled_native_refuted : exists e el mt ms s t bs vs ws n,
  exactly (len ms) e /\ ms <> [] /\ Forall (only el) ms /\ everywhere wordless el /\ occupies el /\
  everywhere regular (DElems KSequence e el) /\ everywhere regular (DStructure mt (e_bo e) ms) /\
  create demo (DElems KSequence e el) None = Ok (Some s) /\
  create demo (DStructure mt (e_bo e) ms) None = Ok (Some t) /\
  maps demo 20 s bs 0 [] 0 (VTuple vs) n /\
  maps demo 20 t bs 0 [] 0 (VStruct (m_name mt) (combine (map dt_name ms) ws)) n /\
  map (fun v => py_getattr v "x") vs <> map (fun v => py_getattr v "x") ws.
Proof.
  set (el := DStructure (meta_of "pair") BONative [member "x" (DInteger (fixed_of "uint16" BONative 2) true)]).
  set (e := mkElems (meta_of "pairs") BOBig None None (Some "pair") None (Some 2) None "utf8").
  set (ms := [member "a" el; member "b" el]). set (mt := meta_of "both").
  exists e, el, mt, ms, (the_map (DElems KSequence e el)), (the_map (DStructure mt BOBig ms)), (bs [0; 1; 0; 2]).
  exists [VStruct "pair" [("x", VInt 256)]; VStruct "pair" [("x", VInt 512)]],
         [VStruct "_both_pair" [("x", VInt 1)]; VStruct "_both_pair" [("x", VInt 2)]], 4.
  split; [repeat split|]. split; [discriminate|].
  split; [repeat (apply Forall_cons; [repeat split|]); apply Forall_nil|].
  split; [unfold wordless; cbn; repeat split|].
  split; [cbn; auto|].
  split; [apply regular_check; vm_compute; reflexivity|].
  split; [apply (repeated_regular mt BOBig el ["a"; "b"]);
          [apply regular_check; vm_compute; reflexivity|vm_compute; reflexivity|discriminate]|].
  split; [vm_compute; reflexivity|]. split; [vm_compute; reflexivity|].
  split; [eexists; split; vm_compute; reflexivity|]. split; [eexists; split; vm_compute; reflexivity|].
  discriminate.
Qed.
